(** Properties C06-C12: merge strategies. *)

From Coq Require Import String List ZArith Bool Arith Lia.
From Verif Require Import Str Value ValueFacts Outcome Merge SpecMerge MergeFacts MergeLookup.
Import ListNotations.
Open Scope nat_scope.
Open Scope list_scope.

(** Hooks that run their body and otherwise only change the state around it,
    as WithMerge and ReportMergeResult do (/repo/session/ic.go). *)
Definition runs_body {S : Type} (wm : strategy -> M S (option value) -> M S (option value)) (enter leave : strategy -> S -> S) : Prop :=
  forall st m s, wm st m s = (fst (m (enter st s)), leave st (snd (m (enter st s)))).
Definition only_reports {S : Type} (report : value -> M S unit) (rep : value -> S -> S) : Prop :=
  forall v s, report v s = (Ok tt, rep v s).

(** ** C06 *)

(** The variants before the first one with a value are consulted in order, the
    result is that value and the state is the one right after that variant
    (plus the report, when there are several variants): nothing after it runs. *)
Theorem C06_first_found : forall (S L : Type) wm (report : value -> M S unit) rep (f : L -> M S (option value)) pre x post s outs s1 v s2,
  only_reports report rep ->
  consults f pre s outs s1 -> (forall o, In o outs -> o = None) -> f x s1 = (Ok (Some v), s2) ->
  merge_lookup wm report f SFirst (pre ++ x :: post) s =
    (Ok (Some v), if 2 <=? List.length (pre ++ x :: post) then rep v s2 else s2).
Proof.
  intros S L wm report rep f pre x post s outs s1 v s2 Hr. exact (merge_lookup_first_found wm report f rep Hr pre x post s outs s1 v s2).
Qed.
Print Assumptions C06_first_found.

Theorem C06_none_found : forall (S L : Type) wm (report : value -> M S unit) (f : L -> M S (option value)) vs s outs s',
  consults f vs s outs s' -> (forall o, In o outs -> o = None) ->
  merge_lookup wm report f SFirst vs s = (Ok None, s').
Proof. intros S L wm report f vs s outs s'. exact (merge_lookup_first_none wm report f vs s outs s'). Qed.
Print Assumptions C06_none_found.

Theorem C06_panic_stops : forall (S L : Type) wm (report : value -> M S unit) (f : L -> M S (option value)) pre x post s outs s1 e s2,
  consults f pre s outs s1 -> (forall o, In o outs -> o = None) -> f x s1 = (Panic e, s2) ->
  merge_lookup wm report f SFirst (pre ++ x :: post) s = (Panic e, s2).
Proof. intros S L wm report f pre x post s outs s1 e s2. exact (merge_lookup_first_panic wm report f pre x post s outs s1 e s2). Qed.
Print Assumptions C06_panic_stops.

(** The calls made, for a function that records them. *)
Definition logged {L : Type} (g : L -> option value) (x : L) : M (list L) (option value) := fun log => (Ok (g x), log ++ [x]).
Definition no_merge {L : Type} (st : strategy) (m : M (list L) (option value)) : M (list L) (option value) := m.
Definition no_report {L : Type} (v : value) : M (list L) unit := ret tt.

Lemma logged_consults {L} (g : L -> option value) vs : forall log, consults (logged g) vs log (map g vs) (log ++ vs).
Proof.
  induction vs as [|x vs IH]; intros log; simpl; [rewrite app_nil_r; constructor|].
  replace (log ++ x :: vs) with ((log ++ [x]) ++ vs) by now rewrite <- app_assoc.
  econstructor; [reflexivity|apply IH].
Qed.

Theorem C06_calls : forall (L : Type) (g : L -> option value) pre x post v,
  (forall y, In y pre -> g y = None) -> g x = Some v ->
  merge_lookup no_merge no_report (logged g) SFirst (pre ++ x :: post) [] = (Ok (Some v), pre ++ [x]).
Proof.
  intros L g pre x post v Hp Hx.
  rewrite (merge_lookup_first_found no_merge no_report (logged g) (fun _ s => s) (fun _ _ => eq_refl) pre x post [] (map g pre) pre v (pre ++ [x])).
  - unfold first_state, rep_some. now destruct (2 <=? _).
  - exact (logged_consults g pre []).
  - intros o Ho. apply in_map_iff in Ho. destruct Ho as (y & <- & Hy). auto.
  - unfold logged. now rewrite Hx.
Qed.
Print Assumptions C06_calls.

Example C06_ex : let g n := if Nat.eqb n 3 then Some (VStr "x") else if Nat.eqb n 5 then Some (VInt 1) else None in
  (forall y, In y [1; 2] -> g y = None) /\ g 3 = Some (VStr "x") /\
  merge_lookup no_merge no_report (logged g) SFirst ([1; 2] ++ 3 :: [4; 5]) [] = (Ok (Some (VStr "x")), [1; 2; 3]).
Proof. simpl. repeat split. intros y [<-|[<-|[]]]; reflexivity. Qed.

Example C06_ex_none : merge_lookup no_merge no_report (logged (fun _ => None)) SFirst [1; 2] [] = (Ok None, [1; 2]).
Proof. reflexivity. Qed.

Example C06_ex_panic : let f n := if Nat.eqb n 2 then panic (EStr "bad") else logged (fun _ => None) n in
  consults f [1] [] [None] [1] /\ f 2 [1] = (Panic (EStr "bad"), [1]) /\
  merge_lookup no_merge no_report f SFirst [1; 2; 3] [] = (Panic (EStr "bad"), [1]).
Proof. simpl. repeat split. econstructor; [reflexivity|constructor]. Qed.

(** ** C07 *)

(** [outs] are the results of consulting every variant once and in order, in
    the state in which the merge starts; the final state is the one after that,
    plus what the hooks do. *)
Theorem C07_consult_all : forall (S L : Type) wm enter leave (report : value -> M S unit) rep (f : L -> M S (option value)) st vs s outs s',
  runs_body wm enter leave -> only_reports report rep -> st <> SFirst ->
  consults f vs (if 2 <=? List.length vs then enter st s else s) outs s' ->
  exists o, merge_lookup wm report f st vs s =
              (Ok o, if 2 <=? List.length vs then leave st (match o with Some v => rep v s' | None => s' end) else s') /\
            (o = None <-> forall x, In x outs -> x = None).
Proof.
  intros S L wm enter leave report rep f st vs s outs s' Hw Hr Hst H.
  exists (pure_lookup st outs). split; [|now apply pure_lookup_none].
  exact (merge_lookup_merging wm report f enter leave rep Hw Hr st vs s outs s' Hst H).
Qed.
Print Assumptions C07_consult_all.

Theorem C07_calls : forall (L : Type) (g : L -> option value) st vs,
  st <> SFirst ->
  exists o, merge_lookup no_merge no_report (logged g) st vs [] = (Ok o, vs) /\
            (o = None <-> forall x, In x vs -> g x = None).
Proof.
  intros L g st vs Hst.
  destruct (C07_consult_all (list L) L no_merge (fun _ s => s) (fun _ s => s) no_report (fun _ s => s) (logged g) st vs [] (map g vs) vs) as (o & E & H).
  - intros st' m s. unfold no_merge. now destruct (m s).
  - intros v s. reflexivity.
  - exact Hst.
  - destruct (2 <=? _); exact (logged_consults g vs []).
  - exists o. split.
    + rewrite E. now destruct (2 <=? _), o.
    + rewrite H. split.
      * intros H2 x Hx. apply H2. now apply in_map.
      * intros H2 x Hx. apply in_map_iff in Hx. destruct Hx as (y & <- & Hy). auto.
Qed.
Print Assumptions C07_calls.

Example C07_ex : merge_lookup no_merge no_report (logged (fun n => if Nat.eqb n 2 then None else Some (VInt (Z.of_nat n)))) SUnique [1; 2; 3] []
  = (Ok (Some (VArr [VInt 1; VInt 3])), [1; 2; 3]).
Proof. reflexivity. Qed.

Example C07_ex_hooks : runs_body (S := list nat) (fun st m s => let (o, s') := m (0 :: s) in (o, tl s')) (fun _ s => 0 :: s) (fun _ s => tl s).
Proof. intros st m s. now destruct (m (0 :: s)). Qed.

(** What a lookup over pure variants gives; the results below are stated for
    it, and C07_pure shows that any lookup gives just that. *)
Definition lookup_of (st : strategy) (outs : list (option value)) : outcome (option value) :=
  fst (merge_lookup no_merge no_report (logged (fun o => o)) st outs []).

Lemma lookup_of_pure st outs : lookup_of st outs = Ok (pure_lookup st outs).
Proof.
  unfold lookup_of. destruct st as [| | |o].
  - destruct (found outs) as [|v vs] eqn:E.
    + rewrite (C06_none_found _ _ _ _ _ outs [] outs outs).
      * change (Ok None = Ok (pure_lookup SFirst outs)). now rewrite pure_first, E.
      * pose proof (logged_consults (fun o : option value => o) outs []) as H. now rewrite map_id in H.
      * now apply found_nil.
    + assert (exists pre post, outs = pre ++ Some v :: post /\ (forall y, In y pre -> y = None)) as (pre & post & -> & Hp).
      { clear -E. induction outs as [|[w|] outs IH]; [discriminate| |].
        - simpl in E. injection E as -> _. exists [], outs. split; auto. intros y [].
        - destruct (IH E) as (pre & post & -> & Hp). exists (None :: pre), post. split; auto. intros y [<-|Hy]; auto. }
      rewrite (C06_calls _ (fun o => o) pre (Some v) post v); auto.
      simpl. now rewrite pure_first, E.
  - rewrite (merge_lookup_merging no_merge no_report (logged (fun o : option value => o)) (fun _ s => s) (fun _ s => s) (fun _ s => s)) with (outs := outs) (s' := outs); auto.
    + intros st' m s. unfold no_merge. now destruct (m s).
    + discriminate.
    + unfold start_state. pose proof (logged_consults (fun o : option value => o) outs []) as H. rewrite map_id in H. destruct (2 <=? _); exact H.
  - rewrite (merge_lookup_merging no_merge no_report (logged (fun o : option value => o)) (fun _ s => s) (fun _ s => s) (fun _ s => s)) with (outs := outs) (s' := outs); auto.
    + intros st' m s. unfold no_merge. now destruct (m s).
    + discriminate.
    + unfold start_state. pose proof (logged_consults (fun o : option value => o) outs []) as H. rewrite map_id in H. destruct (2 <=? _); exact H.
  - rewrite (merge_lookup_merging no_merge no_report (logged (fun o : option value => o)) (fun _ s => s) (fun _ s => s) (fun _ s => s)) with (outs := outs) (s' := outs); auto.
    + intros st' m s. unfold no_merge. now destruct (m s).
    + discriminate.
    + unfold start_state. pose proof (logged_consults (fun o : option value => o) outs []) as H. rewrite map_id in H. destruct (2 <=? _); exact H.
Qed.

Theorem C07_pure : forall (S L : Type) wm enter leave (report : value -> M S unit) rep (f : L -> M S (option value)) st vs s outs s',
  runs_body wm enter leave -> only_reports report rep -> st <> SFirst ->
  consults f vs (if 2 <=? List.length vs then enter st s else s) outs s' ->
  fst (merge_lookup wm report f st vs s) = lookup_of st outs.
Proof.
  intros S L wm enter leave report rep f st vs s outs s' Hw Hr Hst H. rewrite lookup_of_pure.
  now rewrite (merge_lookup_merging wm report f enter leave rep Hw Hr st vs s outs s' Hst H).
Qed.
Print Assumptions C07_pure.

(** ** C08 *)

Theorem C08_hash_first_wins : forall outs m rest,
  found outs = VMap m :: rest -> Forall (fun v => wf v = true) (found outs) ->
  exists r, lookup_of SHash outs = Ok (Some (VMap r)) /\
            forall k, wf k = true -> mget k r = first_with k (maps_of (found outs)).
Proof.
  intros outs m rest E W. rewrite lookup_of_pure, pure_hash, E in *. simpl.
  inversion W as [|? ? Wm Wr]; subst.
  destruct (hash_fold_maps rest m Wm (maps_of_wf rest Wr)) as (mr & Er & _ & Hr).
  exists mr. split; auto. now rewrite Er.
Qed.
Print Assumptions C08_hash_first_wins.

Theorem C08_hash_not_a_map : forall outs v rest,
  found outs = v :: rest -> is_map v = false -> lookup_of SHash outs = Ok (Some v).
Proof. intros outs v rest E H. rewrite lookup_of_pure, pure_hash, E. simpl. now rewrite hash_fold_scalar. Qed.
Print Assumptions C08_hash_not_a_map.

Definition str_map (l : list (string * value)) : value := VMap (map (fun e => (VStr (fst e), snd e)) l).

Example C08_ex : let outs := [None; Some (str_map [("a", VInt 1); ("n", str_map [("x", VInt 1)])]);
                              Some (VStr "ignored"); Some (str_map [("n", str_map [("y", VInt 2)]); ("b", VInt 3); ("a", VInt 9)])]%string in
  Forall (fun v => wf v = true) (found outs) /\
  lookup_of SHash outs = Ok (Some (str_map [("n", str_map [("x", VInt 1)]); ("b", VInt 3); ("a", VInt 1)]%string)).
Proof. split; [repeat constructor|reflexivity]. Qed.

Example C08_ex_scalar : lookup_of SHash [None; Some (VStr "x"); Some (VMap [])] = Ok (Some (VStr "x")).
Proof. reflexivity. Qed.

(** ** C09 *)

Definition C09_full : Prop := forall a b opts, wf a = true -> wf b = true -> merged array_union a b (fst (Deep a b opts)).

Theorem C09_deep_contract_refuted : exists a b opts, wf a = true /\ wf b = true /\ ~ merged array_union a b (fst (Deep a b opts)).
Proof.
  exists (VArr []), (VArr [VInt 1; VInt 1]), []. split; [reflexivity|]. split; [reflexivity|]. simpl.
  intros H. inversion H as [|? ? ? Ha|? ? _ H2]; subst.
  - unfold array_union in Ha. simpl in Ha. apply fo_no_dups in Ha; [|repeat constructor].
    inversion Ha as [|? ? Hn _]; subst. apply Hn. exists (VInt 1). split; [now left|reflexivity].
Qed.
Print Assumptions C09_deep_contract_refuted.

(** Missing: an empty array merged with an array gives that array, duplicates
    included (and a non-empty array merged with an empty one keeps its
    duplicates).  With these two cases stated in [array_union_nonempty] the
    contract holds for all values. *)
Theorem C09_deep_contract_partial : forall a b opts, wf a = true -> wf b = true ->
  merged array_union_nonempty a b (fst (Deep a b opts)).
Proof. intros a b opts Wa Wb. unfold Deep. rewrite deep_raw by assumption. now apply raw_merged. Qed.
Print Assumptions C09_deep_contract_partial.

(** The documented contract holds when no array in [a] or [b] has duplicates. *)
Theorem C09_deep_contract_tidy_partial : forall a b opts, wf a = true -> wf b = true -> tidy a -> tidy b ->
  merged array_union a b (fst (Deep a b opts)).
Proof.
  intros a b opts Wa Wb Ta Tb. apply (merged_tidy a b); auto. now apply C09_deep_contract_partial.
Qed.
Print Assumptions C09_deep_contract_tidy_partial.

Example C09_ex : let a := str_map [("l", VArr [VInt 1; VInt 2]); ("m", str_map [("x", VNil)]); ("s", VInt 1)]%string in
  let b := str_map [("m", str_map [("y", VInt 1); ("x", VInt 2)]); ("s", VArr []); ("l", VArr [VInt 2; VInt 3]); ("z", VBool true)]%string in
  wf a = true /\ wf b = true /\ tidy a /\ tidy b /\
  fst (Deep a b []) = str_map [("l", VArr [VInt 1; VInt 2; VInt 3]); ("m", str_map [("x", VNil); ("y", VInt 1)]); ("s", VInt 1); ("z", VBool true)]%string.
Proof.
  repeat split; try reflexivity.
  all: unfold str_map; simpl;
    repeat first [ apply tidy_map; repeat constructor; simpl | apply tidy_arr; repeat constructor
                 | apply tidy_other; split; reflexivity ].
  all: intros (y & Hy & Hs); simpl in Hy; intuition (subst; discriminate).
Qed.

(** ** C10 *)

Theorem C10_scalars_kept : forall ks a b opts s, wf a = true -> wf b = true -> Forall (fun k => wf k = true) ks ->
  scalar s -> at_keys ks a = Some s -> at_keys ks (fst (Deep a b opts)) = Some s.
Proof. intros ks a b opts s Wa Wb Wk Hs H. unfold Deep. rewrite deep_raw by assumption. now apply raw_scalar. Qed.
Print Assumptions C10_scalars_kept.

Theorem C10_elements_kept : forall ks a b opts l, wf a = true -> wf b = true -> Forall (fun k => wf k = true) ks ->
  at_keys ks a = Some (VArr l) ->
  exists l', at_keys ks (fst (Deep a b opts)) = Some (VArr l') /\ forall x, In x l -> elem x l'.
Proof. intros ks a b opts l Wa Wb Wk H. unfold Deep. rewrite deep_raw by assumption. now apply raw_array. Qed.
Print Assumptions C10_elements_kept.

Theorem C10_flag_truthful : forall a b opts, wf a = true -> wf b = true ->
  (snd (Deep a b opts) = true <-> ~ same a (fst (Deep a b opts))).
Proof.
  intros a b opts Wa Wb. unfold Deep, same. rewrite deep_raw by assumption. simpl.
  destruct (veq a (raw a b)); simpl; intuition congruence.
Qed.
Print Assumptions C10_flag_truthful.

(** Without a merge the first value itself is the result. *)
Theorem C10_no_flag_is_a : forall a b opts, snd (Deep a b opts) = false -> fst (Deep a b opts) = a.
Proof. intros a b opts. exact (deep_false_fst a b). Qed.
Print Assumptions C10_no_flag_is_a.

Example C10_ex : let a := str_map [("m", str_map [("s", VInt 1); ("l", VArr [VInt 7])])]%string in
  let b := str_map [("m", str_map [("s", VArr [VInt 2]); ("l", VArr [VInt 8])])]%string in
  at_keys [VStr "m"; VStr "s"]%string a = Some (VInt 1) /\ at_keys [VStr "m"; VStr "l"]%string a = Some (VArr [VInt 7]) /\
  at_keys [VStr "m"; VStr "l"]%string (fst (Deep a b [])) = Some (VArr [VInt 7; VInt 8]) /\ snd (Deep a b []) = true /\
  snd (Deep a a []) = false.
Proof. repeat split; reflexivity. Qed.

(** ** C11 *)

(** [flat_union vs r]: the first occurrences of the flattened elements. *)
Definition flat_union (vs : list value) (r : value) : Prop :=
  exists l lr, flat_list vs l /\ first_occurrences l lr /\ r = VArr lr.

Definition C11_full : Prop := forall outs, found outs <> [] -> Forall (fun v => wf v = true) (found outs) ->
  exists r, lookup_of SUnique outs = Ok (Some r) /\ flat_union (found outs) r.

Theorem C11_duplicates_refuted : exists outs r, found outs <> [] /\ Forall (fun v => wf v = true) (found outs) /\
  lookup_of SUnique outs = Ok (Some r) /\ ~ flat_union (found outs) r.
Proof.
  exists [Some (VArr [VInt 1; VInt 1]); None], (VArr [VInt 1; VInt 1]).
  split; [discriminate|]. split; [repeat constructor|]. split; [reflexivity|].
  intros (l & lr & _ & H & E). injection E as <-.
  assert (forall l r, first_occurrences l r -> r = [VInt 1] -> elem (VInt 1) l) as H1.
  { clear. induction 1 as [|l r x H IH He|l r x H IH He]; intros E.
    - discriminate.
    - apply elem_app. left. auto.
    - apply elem_app. right. destruct r as [|? [|]]; try discriminate. injection E as ->. exists (VInt 1). split; [now left|reflexivity]. }
  remember [VInt 1; VInt 1] as r eqn:E.
  induction H as [|l r x H IH He|l r x H IH He].
  - discriminate.
  - auto.
  - destruct r as [|y [|z [|]]]; try discriminate. injection E as -> ->. apply He. eapply H1; eauto.
Qed.
Print Assumptions C11_duplicates_refuted.

Theorem C11_scalar_refuted : exists outs r, found outs <> [] /\ Forall (fun v => wf v = true) (found outs) /\
  lookup_of SUnique outs = Ok (Some r) /\ ~ flat_union (found outs) r.
Proof.
  exists [Some (VInt 1)], (VInt 1). split; [discriminate|]. split; [repeat constructor|]. split; [reflexivity|].
  intros (l & lr & _ & _ & E). discriminate.
Qed.
Print Assumptions C11_scalar_refuted.

Lemma flats_flat vs : flat_list vs (flats vs).
Proof. induction vs as [|v vs IH]; simpl; constructor; auto using as_flat_is_flat. Qed.

(** Missing: exactly one value found.  It holds there for an array that is the
    only variant; a scalar only variant stays a scalar, and an array that is
    the only one found of several variants is flattened but keeps its
    duplicates (next theorem). *)
Theorem C11_unique_partial : forall outs, 2 <= List.length (found outs) -> Forall (fun v => wf v = true) (found outs) ->
  exists r, lookup_of SUnique outs = Ok (Some r) /\ flat_union (found outs) r.
Proof.
  intros outs Hlen W. rewrite lookup_of_pure. destruct (found outs) as [|v [|w vs]] eqn:E; simpl in Hlen; try lia.
  rewrite <- E in *. exists (VArr (vunique (flats (found outs)))). split; [f_equal; now apply (pure_unique_two outs v w vs)|].
  exists (flats (found outs)), (vunique (flats (found outs))). split; [apply flats_flat|]. split; [|reflexivity].
  apply vunique_fo. now apply flats_wf.
Qed.
Print Assumptions C11_unique_partial.

Theorem C11_unique_one_found_partial : forall outs v, found outs = [v] -> wf v = true ->
  lookup_of SUnique outs = Ok (Some (match outs, v with
    | [_], VArr l => VArr (vunique (vflatten l))
    | [_], _ => v
    | _, _ => VArr (vflat v)
    end)) /\ (forall l, v = VArr l -> outs = [Some v] -> flat_union [v] (VArr (vunique (vflatten l)))).
Proof.
  intros outs v E W. rewrite lookup_of_pure. split.
  - unfold pure_lookup. destruct outs as [|o1 [|o2 outs]]; [discriminate| |].
    + destruct o1; [|discriminate]. injection E as ->. destruct v; reflexivity.
    + rewrite E. destruct v; reflexivity.
  - intros l -> ->. exists (vflatten l), (vunique (vflatten l)). split; [|split; [|reflexivity]].
    + rewrite <- (app_nil_r (vflatten l)). constructor; constructor. apply vflatten_flat.
    + apply vunique_fo. apply vflatten_wf. now apply wf_arr.
Qed.
Print Assumptions C11_unique_one_found_partial.

(** How far the claim holds: exactly if more than one value is found, or an array is
    found where there is only one place to look, or there are several places and no
    element of the one value occurs twice. *)
Theorem C11_exactly : forall outs, found outs <> [] -> Forall (fun v => wf v = true) (found outs) ->
  ((exists r, lookup_of SUnique outs = Ok (Some r) /\ flat_union (found outs) r) <->
   2 <= List.length (found outs) \/ (exists l, outs = [Some (VArr l)]) \/
   (2 <= List.length outs /\ exists l, flat_list (found outs) l /\ first_occurrences l l)).
Proof.
  intros outs Hne W. destruct (found outs) as [|v [|x vs]] eqn:E; [ congruence | | ].
  - inversion W as [|? ? Wv _]; subst. destruct (C11_unique_one_found_partial outs v E Wv) as [L U].
    assert (Fl : forall l, flat_list [v] l <-> l = vflat v).
    { intro l. assert (F : flat_list [v] (vflat v)) by (rewrite <- (app_nil_r (vflat v)); constructor; [ apply vflat_flat | constructor ]).
      split; [ | intros ->; exact F ]. intro G. inversion G as [|? ? r1 r2 H1 H2]; subst. inversion H2; subst. rewrite app_nil_r.
      apply flat_det in H1. exact H1. }
    split.
    + intros (r & Hr & l & lr & F & O & ->). right. rewrite L in Hr. destruct outs as [|o [|o2 outs]]; [ discriminate | | ].
      * left. destruct o as [y|]; [ | discriminate ]. cbn in E. injection E as ->. destruct v; try discriminate Hr. eexists. reflexivity.
      * right. split; [ cbn; lia | ]. exists l. split; [ exact F | ]. apply Fl in F. subst l. injection Hr as Hr. rewrite <- Hr in O. exact O.
    + intros [C|[(l & ->)|(H2 & l & F & O)]]; [ cbn in C; lia | | ].
      * injection E as <-. exists (VArr (vunique (vflatten l))). split; [ exact L | apply (U l); reflexivity ].
      * exists (VArr (vflat v)). split.
        -- rewrite L. destruct outs as [|o [|o2 outs]]; [ cbn in H2; lia | cbn in H2; lia | reflexivity ].
        -- exists l, l. split; [ exact F | ]. split; [ exact O | ]. apply Fl in F. subst l. reflexivity.
  - split; [ cbn; lia | intros _ ]. rewrite <- E. apply C11_unique_partial; rewrite E; [ cbn; lia | exact W ].
Qed.
Print Assumptions C11_exactly.

(** Two places, one array without an element that occurs twice; and one with. *)
Example C11_exactly_ex :
  lookup_of SUnique [None; Some (VArr [VInt 1; VArr [VInt 2]])] = Ok (Some (VArr [VInt 1; VInt 2])) /\
  (exists l, flat_list [VArr [VInt 1; VArr [VInt 2]]] l /\ first_occurrences l l) /\
  lookup_of SUnique [None; Some (VArr [VInt 1; VArr [VInt 1]])] = Ok (Some (VArr [VInt 1; VInt 1])) /\
  ~ (exists l, flat_list [VArr [VInt 1; VArr [VInt 1]]] l /\ first_occurrences l l).
Proof.
  split; [ reflexivity | ]. split; [ | split; [ reflexivity | ] ].
  - exists [VInt 1; VInt 2]. split; [ apply (flats_flat [VArr [VInt 1; VArr [VInt 2]]]) | apply (vunique_fo [VInt 1; VInt 2]); repeat constructor ].
  - intros (l & F & O). assert (2 <= List.length [None; Some (VArr [VInt 1; VArr [VInt 1]])]) as H2 by (cbn; lia).
    destruct (proj2 (C11_exactly [None; Some (VArr [VInt 1; VArr [VInt 1]])] ltac:(discriminate) ltac:(repeat constructor))) as (r & Hr & l' & lr & F' & O' & E).
    { right. right. split; [ exact H2 | ]. exists l. auto. }
    cbn in Hr. injection Hr as <-. injection E as <-. inversion F' as [|? ? r1 r2 G1 G2]; subst. inversion G2; subst.
    apply flat_det in G1. subst r1. cbn in O'.
    pose proof (vunique_fo [VInt 1; VInt 1] ltac:(repeat constructor)) as K. cbn in K.
    pose proof (fo_det _ _ K _ O') as X. discriminate X.
Qed.

Example C11_ex : let outs := [Some (VArr [VInt 1; VArr [VInt 2; VInt 1]]); None; Some (VInt 3); Some (VArr [VInt 2; VInt 4])] in
  2 <= List.length (found outs) /\ Forall (fun v => wf v = true) (found outs) /\
  lookup_of SUnique outs = Ok (Some (VArr [VInt 1; VInt 2; VInt 3; VInt 4])).
Proof. simpl. split; [lia|]. split; [repeat constructor|reflexivity]. Qed.

Example C11_ex_one : found [Some (VArr [VInt 1; VArr [VInt 1]])] = [VArr [VInt 1; VArr [VInt 1]]] /\
  lookup_of SUnique [Some (VArr [VInt 1; VArr [VInt 1]])] = Ok (Some (VArr [VInt 1])).
Proof. split; reflexivity. Qed.

(** ** C12 *)

(** The result of merging per group (the locations of an entry) and then the
    results of the groups (the entries). *)
Definition by_group (st : strategy) (groups : list (list (option value))) : outcome (option value) :=
  lookup_of st (map (fun g => match lookup_of st g with Ok o => o | _ => None end) groups).

Definition C12_full : Prop := forall st groups, Forall (fun v => wf v = true) (found (concat groups)) ->
  by_group st groups = lookup_of st (concat groups).

Lemma by_group_grouped st groups : by_group st groups = Ok (grouped st groups).
Proof.
  unfold by_group, grouped. rewrite lookup_of_pure. f_equal. f_equal. apply map_ext. intros g. now rewrite lookup_of_pure.
Qed.

Theorem C12_hash_refuted : exists groups, Forall (fun v => wf v = true) (found (concat groups)) /\
  by_group SHash groups <> lookup_of SHash (concat groups).
Proof.
  exists [[Some (VMap [])]; [Some (VInt 1); Some (VMap [(VInt 1, VInt 2)])]; []].
  split; [repeat constructor|vm_compute; discriminate].
Qed.
Print Assumptions C12_hash_refuted.

Theorem C12_unique_refuted : exists groups, Forall (fun v => wf v = true) (found (concat groups)) /\
  by_group SUnique groups <> lookup_of SUnique (concat groups).
Proof.
  exists [[Some (VArr [VInt 1; VInt 1])]; [None]].
  split; [repeat constructor|vm_compute; discriminate].
Qed.
Print Assumptions C12_unique_refuted.

Theorem C12_deep_refuted : exists groups opts, Forall (fun v => wf v = true) (found (concat groups)) /\
  by_group (SDeep opts) groups <> lookup_of (SDeep opts) (concat groups).
Proof.
  exists [[Some (VMap [])]; [Some (VMap [(VInt 1, VInt 1)]); Some (VMap [(VInt 1, VInt 2)])];
          [Some (VMap [(VInt 2, VMap [])])]; [Some (VMap [(VInt 2, VInt 0)]); Some (VMap [(VInt 2, VMap [(VInt 3, VInt 4)])])]], [].
  split; [repeat constructor|vm_compute; discriminate].
Qed.
Print Assumptions C12_deep_refuted.

Theorem C12_first : forall groups, by_group SFirst groups = lookup_of SFirst (concat groups).
Proof. intros groups. rewrite by_group_grouped, lookup_of_pure. f_equal. apply grouping_first. Qed.
Print Assumptions C12_first.

(** Missing for hash: found values that are not maps. *)
Theorem C12_hash_partial : forall groups, Forall (fun v => is_map v = true /\ wf v = true) (found (concat groups)) ->
  by_group SHash groups = lookup_of SHash (concat groups).
Proof. intros groups H. rewrite by_group_grouped, lookup_of_pure. f_equal. now apply grouping_hash. Qed.
Print Assumptions C12_hash_partial.

(** What of a group counts: all of it when the first value found in it is a map,
    and that value only when it is not one. *)
Definition counts (g : list (option value)) : list (option value) :=
  match found g with
  | [] => []
  | VMap m :: _ => g
  | v :: _ => [Some v]
  end.

Lemma counts_eq g : counts g = match found g with [] => [] | VMap m :: _ => g | v :: _ => [Some v] end.
Proof. reflexivity. Qed.
Lemma hash_skip vs : forall a, is_map a = true -> fold_left (merge2 SHash) vs a = fold_left (merge2 SHash) (filter is_map vs) a.
Proof.
  induction vs as [|v vs IH]; intros a H; [ reflexivity | ]. destruct (is_map v) eqn:E; cbn [filter]; rewrite E; cbn [fold_left].
  - apply IH. destruct a; try discriminate H. destruct v; try discriminate E. reflexivity.
  - rewrite <- IH by exact H. f_equal. destruct a; try discriminate H. destruct v; try discriminate E; reflexivity.
Qed.
Lemma filter_maps vs : Forall (fun v => wf v = true) vs -> all_maps (filter is_map vs).
Proof.
  intro W. induction W as [|v vs W Ws IH]; [ constructor | ]. cbn [filter]. destruct (is_map v) eqn:E; [ constructor; auto | exact IH ].
Qed.
Lemma hash_fold_map vs : forall a, is_map a = true -> is_map (fold_left (merge2 SHash) vs a) = true.
Proof.
  induction vs as [|v vs IH]; intros a H; [ exact H | ]. cbn [fold_left]. apply IH. destruct a; try discriminate H. destruct v; reflexivity.
Qed.
Lemma hash_fold_in a v vs : is_map a = true -> is_map v = true -> Forall (fun v => wf v = true) (a :: v :: vs) ->
  merge2 SHash a (fold_left (merge2 SHash) vs v) = fold_left (merge2 SHash) (v :: vs) a.
Proof.
  intros Ha Hv W. rewrite (hash_skip vs v Hv), (hash_skip (v :: vs) a Ha). cbn [filter]. rewrite Hv.
  symmetry. apply hash_fold_assoc. inversion W as [|? ? Wa W1]; subst. inversion W1 as [|? ? Wv W2]; subst.
  constructor; [ auto | ]. constructor; [ auto | ]. apply filter_maps. exact W2.
Qed.
Lemma hash_fold_wf vs : forall a, is_map a = true -> Forall (fun v => wf v = true) (a :: vs) -> wf (fold_left (merge2 SHash) vs a) = true.
Proof.
  intros a H W. inversion W as [|? ? Wa Ws]; subst. rewrite (hash_skip vs a H). apply hash_fold_ok; auto. apply filter_maps. exact Ws.
Qed.

Lemma hash_groups groups : forall acc, is_map acc = true -> wf acc = true -> Forall (fun v => wf v = true) (found (concat groups)) ->
  fold_left (merge2 SHash) (found (map (pure_lookup SHash) groups)) acc = fold_left (merge2 SHash) (found (concat (map counts groups))) acc.
Proof.
  induction groups as [|g groups IH]; intros acc Ha Wa W; [ reflexivity | ].
  cbn [map concat] in *. rewrite found_app in *. rewrite fold_left_app. apply Forall_app in W. destruct W as [Wg W].
  rewrite pure_hash. rewrite (counts_eq g). destruct (found g) as [|v vs] eqn:E; [ cbn [merge_fold found fold_left]; apply IH; assumption | ].
  cbn [merge_fold convert_value found fold_left]. destruct (is_map v) eqn:Ev.
  - rewrite (hash_fold_in acc v vs Ha Ev) by (constructor; assumption).
    destruct v as [| | | | | |m|]; try discriminate Ev. rewrite E.
    apply IH; [ apply hash_fold_map; exact Ha | apply hash_fold_wf; [ exact Ha | constructor; assumption ] | exact W ].
  - rewrite (hash_fold_scalar vs v Ev).
    replace (merge2 SHash acc v) with acc by (destruct acc; try discriminate Ha; destruct v; try discriminate Ev; reflexivity).
    replace (found (match v with VMap _ => g | _ => [Some v] end)) with [v] by (destruct v; try discriminate Ev; reflexivity).
    cbn [fold_left].
    replace (merge2 SHash acc v) with acc by (destruct acc; try discriminate Ha; destruct v; try discriminate Ev; reflexivity).
    apply IH; assumption.
Qed.

(** Exactly, for hash and all values: merging group by group is merging at once
    what counts of the groups. *)
Theorem C12_hash_groups : forall groups, Forall (fun v => wf v = true) (found (concat groups)) ->
  by_group SHash groups = lookup_of SHash (concat (map counts groups)).
Proof.
  intros groups W. rewrite by_group_grouped, lookup_of_pure. f_equal. unfold grouped. rewrite !pure_hash.
  induction groups as [|g groups IH]; [ reflexivity | ].
  cbn [map concat] in *. rewrite !found_app in *. apply Forall_app in W. destruct W as [Wg W].
  rewrite pure_hash. rewrite (counts_eq g). destruct (found g) as [|v vs] eqn:E; [ cbn [merge_fold found app]; apply IH; exact W | ].
  cbn [merge_fold convert_value found]. destruct (is_map v) eqn:Ev.
  - pose proof (hash_groups groups (fold_left (merge2 SHash) vs v) (hash_fold_map vs v Ev) (hash_fold_wf vs v Ev Wg) W) as H.
    destruct v as [| | | | | |m|]; try discriminate Ev. rewrite E. cbn [app merge_fold convert_value]. rewrite fold_left_app. f_equal. exact H.
  - rewrite (hash_fold_scalar vs v Ev).
    replace (found (match v with VMap _ => g | _ => [Some v] end)) with [v] by (destruct v; try discriminate Ev; reflexivity).
    cbn [app merge_fold convert_value]. rewrite !hash_fold_scalar by exact Ev. reflexivity.
Qed.
Print Assumptions C12_hash_groups.

Lemma hash_counted groups : (forall g v vs, In g groups -> found g = v :: vs -> is_map v = false -> Forall (fun x => is_map x = false) vs) ->
  forall acc, fold_left (merge2 SHash) (found (concat (map counts groups))) acc = fold_left (merge2 SHash) (found (concat groups)) acc.
Proof.
  induction groups as [|g groups IH]; intros H acc; [ reflexivity | ].
  cbn [map concat]. rewrite !found_app, !fold_left_app.
  rewrite IH by (intros g' v vs Hg; apply (H g' v vs); right; exact Hg). f_equal.
  unfold counts. destruct (found g) as [|v vs] eqn:E; [ reflexivity | ]. destruct (is_map v) eqn:Ev.
  - destruct v; try discriminate Ev. rewrite E. reflexivity.
  - replace (found (match v with VMap _ => g | _ => [Some v] end)) with [v] by (destruct v; try discriminate Ev; reflexivity).
    cbn [fold_left]. specialize (H g v vs (or_introl eq_refl) E Ev). generalize (merge2 SHash acc v). clear - H.
    induction H as [|x vs Hx Hs IH]; intro a; [ reflexivity | ]. cbn [fold_left].
    replace (merge2 SHash a x) with a by (destruct a; try reflexivity; destruct x; try discriminate Hx; reflexivity). apply IH.
Qed.

(** Hence it changes nothing when no map comes after a first value that is none. *)
Theorem C12_hash_mixed_partial : forall groups, Forall (fun v => wf v = true) (found (concat groups)) ->
  (forall g v vs, In g groups -> found g = v :: vs -> is_map v = false -> Forall (fun x => is_map x = false) vs) ->
  by_group SHash groups = lookup_of SHash (concat groups).
Proof.
  intros groups W H. rewrite (C12_hash_groups groups W). rewrite !lookup_of_pure, !pure_hash. f_equal. clear W.
  induction groups as [|g groups IH]; [ reflexivity | ].
  assert (H' : forall g' v vs, In g' groups -> found g' = v :: vs -> is_map v = false -> Forall (fun x => is_map x = false) vs)
    by (intros g' v vs Hg; apply (H g' v vs); right; exact Hg).
  cbn [map concat]. rewrite !found_app. rewrite (counts_eq g). destruct (found g) as [|v vs] eqn:E; [ exact (IH H') | ].
  destruct (is_map v) eqn:Ev.
  - destruct v as [| | | | | |m|]; try discriminate Ev. rewrite E. cbn [app merge_fold convert_value]. f_equal.
    rewrite !fold_left_app. apply hash_counted. exact H'.
  - replace (found (match v with VMap _ => g | _ => [Some v] end)) with [v] by (destruct v; try discriminate Ev; reflexivity).
    cbn [app merge_fold convert_value]. rewrite !hash_fold_scalar by exact Ev. reflexivity.
Qed.
Print Assumptions C12_hash_mixed_partial.

Example C12_hash_groups_ex :
  let groups := [[Some (str_map [("a", VInt 1)])]; [Some (VInt 2); Some (str_map [("b", VInt 3)])]; [Some (str_map [("c", VInt 4)]); Some (VInt 5)]]%string in
  Forall (fun v => wf v = true) (found (concat groups)) /\
  counts (nth 1 groups []) = [Some (VInt 2)] /\
  by_group SHash groups = Ok (Some (str_map [("c", VInt 4); ("a", VInt 1)]%string)) /\
  lookup_of SHash (concat groups) = Ok (Some (str_map [("c", VInt 4); ("b", VInt 3); ("a", VInt 1)]%string)).
Proof. split; [ repeat constructor | ]. repeat split. Qed.
Example C12_hash_mixed_ex :
  let groups := [[Some (str_map [("a", VInt 1)])]; [Some (VInt 2); Some (VInt 3)]; [Some (str_map [("c", VInt 4)]); Some (VInt 5)]]%string in
  forall g v vs, In g groups -> found g = v :: vs -> is_map v = false -> Forall (fun x => is_map x = false) vs.
Proof.
  intros groups g v vs Hg. cbn in Hg. destruct Hg as [<-|[<-|[<-|[]]]]; cbn [found]; intro E; injection E as <- <-; intro K; try discriminate K.
  repeat constructor.
Qed.

(** Missing for unique: fewer than two found values. *)
Theorem C12_unique_partial : forall groups, 2 <= List.length (found (concat groups)) ->
  Forall (fun v => wf v = true) (found (concat groups)) ->
  by_group SUnique groups = lookup_of SUnique (concat groups).
Proof.
  intros groups Hlen W. rewrite by_group_grouped, lookup_of_pure. f_equal.
  destruct (found (concat groups)) as [|v [|w vs]] eqn:E; simpl in Hlen; try lia.
  rewrite <- E in W. now apply (grouping_unique groups v w vs).
Qed.
Print Assumptions C12_unique_partial.

(** Exactly, for unique and a single value, the case left out above.  The groups
    are merged like one list unless a value that is no array is the only variant of
    all and has groups without variants beside it, or an array in which an element
    occurs twice is found among several variants that are all in its group, or
    found alone in its group with variants in others. *)
Definition only_one_alike (groups : list (list (option value))) (v : value) : Prop :=
  (not_array v -> List.length groups = 1 \/ 1 < List.length (concat groups)) /\
  (forall l, v = VArr l ->
     (exists r, flat v r /\ first_occurrences r r) \/ List.length (concat groups) = 1 \/
     (1 < List.length groups /\ exists g, In g groups /\ In (Some v) g /\ 1 < List.length g)).

Lemma one_found groups v : found (concat groups) = [v] ->
  exists pre g post, groups = pre ++ g :: post /\ found g = [v] /\ (forall o, In o (concat pre ++ concat post) -> o = None).
Proof.
  induction groups as [|g groups IH]; cbn [concat]; [ discriminate | ]. rewrite found_app. intro E.
  destruct (found g) as [|x [|y l]] eqn:Eg.
  - destruct (IH E) as (pre & g' & post & -> & Eg' & N). exists (g :: pre), g', post. split; [ reflexivity | ]. split; [ exact Eg' | ].
    intros o Ho. cbn [concat] in Ho. rewrite <- app_assoc in Ho. apply in_app_or in Ho. destruct Ho as [Ho|Ho]; [ | exact (N o Ho) ].
    exact (proj1 (found_nil g) Eg o Ho).
  - cbn [app] in E. injection E as -> E. exists [], g, groups. split; [ reflexivity | ]. split; [ exact Eg | ].
    cbn [concat app]. exact (proj1 (found_nil (concat groups)) E).
  - discriminate E.
Qed.
Lemma found_one_in g v : found g = [v] -> In (Some v) g /\ forall x, In (Some x) g -> x = v.
Proof.
  induction g as [|[y|] g IH]; cbn [found]; [ discriminate | | ].
  - intro E. injection E as -> E. split; [ now left | ]. intros x [K|K]; [ congruence | ].
    pose proof (proj1 (found_nil g) E _ K). discriminate.
  - intro E. destruct (IH E) as [A B]. split; [ now right | ]. intros x [K|K]; [ discriminate K | exact (B x K) ].
Qed.
Lemma none_results (l : list (list (option value))) : (forall o, In o (concat l) -> o = None) -> found (map (pure_lookup SUnique) l) = [].
Proof.
  intro N. apply found_nil. intros o Ho. apply in_map_iff in Ho. destruct Ho as (g & <- & Hg).
  apply pure_lookup_none; [ discriminate | ]. intros o Ho. apply N. apply in_concat. eauto.
Qed.
Lemma unique_of_one outs v : found outs = [v] -> pure_lookup SUnique outs =
  Some (match outs, v with [_], VArr l => VArr (vunique (vflatten l)) | [_], _ => v | _, _ => VArr (vflat v) end).
Proof.
  intro E. unfold pure_lookup. destruct outs as [|o1 [|o2 outs]]; [ discriminate | | ].
  - destruct o1; [ | discriminate ]. injection E as ->. destruct v; reflexivity.
  - rewrite E. destruct v; reflexivity.
Qed.

Theorem C12_unique_one : forall groups v, found (concat groups) = [v] -> wf v = true ->
  (by_group SUnique groups = lookup_of SUnique (concat groups) <-> only_one_alike groups v).
Proof.
  intros groups v E W. rewrite by_group_grouped, lookup_of_pure. destruct (one_found groups v E) as (pre & g & post & -> & Eg & N).
  destruct (found_one_in g v Eg) as [Vin Vonly].
  assert (Np : forall o, In o (concat pre) -> o = None) by (intros o Ho; apply N, in_or_app; now left).
  assert (Nq : forall o, In o (concat post) -> o = None) by (intros o Ho; apply N, in_or_app; now right).
  rewrite (unique_of_one _ v E). unfold grouped.
  set (x := match g, v with [_], VArr l => VArr (vunique (vflatten l)) | [_], _ => v | _, _ => VArr (vflat v) end).
  assert (Ex : pure_lookup SUnique g = Some x) by exact (unique_of_one g v Eg).
  assert (Eo : found (map (pure_lookup SUnique) (pre ++ g :: post)) = [x]).
  { rewrite map_app. cbn [map]. rewrite found_app, (none_results pre Np), Ex. cbn [found app]. rewrite (none_results post Nq). reflexivity. }
  rewrite (unique_of_one _ x Eo).
  assert (T1 : List.length (concat (pre ++ g :: post)) = 1 -> List.length g = 1).
  { rewrite concat_app. cbn [concat]. rewrite !app_length. destruct g; [ destruct Vin | cbn [List.length]; lia ]. }
  assert (T2 : List.length g <> 0) by (destruct g; [ destruct Vin | discriminate ]).
  assert (T3 : List.length (pre ++ g :: post) = 1 -> List.length (concat (pre ++ g :: post)) = List.length g).
  { destruct pre as [|p0 pre]; destruct post as [|q post]; cbn [List.length app]; intro K; try (rewrite app_length in K; cbn [List.length] in K; lia); try lia.
    cbn [concat]. rewrite app_nil_r. reflexivity. }
  assert (T4 : List.length (concat (pre ++ g :: post)) >= List.length g).
  { rewrite concat_app. cbn [concat]. rewrite !app_length. lia. }
  assert (T5 : forall g', In g' (pre ++ g :: post) -> In (Some v) g' -> g' = g).
  { intros g' Hg Hv. apply in_app_or in Hg. destruct Hg as [Hg|[Hg|Hg]].
    - assert (K : In (Some v) (concat pre)) by (apply in_concat; eauto). specialize (Np _ K). discriminate.
    - congruence.
    - assert (K : In (Some v) (concat post)) by (apply in_concat; eauto). specialize (Nq _ K). discriminate. }
  assert (C1 : forall (A : Type) (l : list A) (X Y : value), match l with [_] => X | _ => Y end = if Nat.eqb (List.length l) 1 then X else Y)
    by (intros A [|? [|? l]] X Y; reflexivity).
  assert (C2 : forall (A : Type) (l : list A) (y : value), match l, y with [_], VArr l' => VArr (vunique (vflatten l')) | [_], _ => y | _, _ => VArr (vflat y) end
                 = if Nat.eqb (List.length l) 1 then match y with VArr l' => VArr (vunique (vflatten l')) | _ => y end else VArr (vflat y))
    by (intros A [|? [|? l]] y; reflexivity).
  unfold x. clear x Ex Eo. rewrite !C2. rewrite map_length. clear C1 C2.
  set (N1 := List.length (pre ++ g :: post)) in *. set (T := List.length (concat (pre ++ g :: post))) in *. unfold only_one_alike. fold N1 T.
  assert (N0 : N1 <> 0) by (unfold N1; rewrite app_length; cbn [List.length]; lia).
  assert (V : not_array v \/ exists l, v = VArr l) by (destruct v; try (left; intros ? K; discriminate K); right; eauto).
  destruct V as [V|[l ->]].
  - assert (F1 : forall X : list value -> value, match v with VArr l' => X l' | _ => v end = v) by (intro X; destruct v as [| | | | |l| |]; try reflexivity; elim (V l eq_refl)).
    assert (F2 : vflat v = [v]) by (destruct v as [| | | | |l| |]; try reflexivity; elim (V l eq_refl)).
    rewrite (F1 (fun l' => VArr (vunique (vflatten l')))), F2.
    assert (D : VArr [v] <> v) by (intro K; exact (V _ (eq_sym K))).
    assert (F3 : match VArr [v] with VArr l' => VArr (vunique (vflatten l')) | y => y end = VArr [v]).
    { cbn iota. unfold vflatten. cbn [flat_map]. rewrite F2. reflexivity. }
    assert (F4 : vflat (VArr [v]) = [v]) by (cbn [vflat flat_map]; rewrite F2; reflexivity).
    destruct (Nat.eqb_spec (List.length g) 1) as [Lg|Lg]; destruct (Nat.eqb_spec N1 1) as [Ln|Ln]; destruct (Nat.eqb_spec T 1) as [Lt|Lt];
      rewrite ?(F1 (fun l' => VArr (vunique (vflatten l')))), ?F2, ?F3, ?F4.
    all: try (exfalso; specialize (T3 Ln); lia).
    all: try (exfalso; specialize (T1 Lt); lia).
    all: split; [ intro K; split; [ intros _ | let K' := fresh in intros ? K'; elim (V _ K') ] | intros [K _]; specialize (K V) ].
    all: try reflexivity; try lia; try congruence.
    all: try (injection K as K; elim (D K)).
  - assert (Wl : wfl l) by (apply wf_arr; exact W).
    assert (WF : wfl (vflatten l)) by (apply vflatten_wf; exact Wl).
    assert (NF : Forall not_array (vflatten l)) by (apply (as_flat_noarr (VArr l))).
    assert (NU : Forall not_array (vunique (vflatten l))) by (apply vunique_noarr; exact NF).
    assert (FF : vflatten (vflatten l) = vflatten l) by (apply vflatten_noarr; exact NF).
    assert (FU : vflatten (vunique (vflatten l)) = vunique (vflatten l)) by (apply vflatten_noarr; exact NU).
    assert (UU : vunique (vunique (vflatten l)) = vunique (vflatten l)) by (apply vunique_idem; exact WF).
    assert (Dup : (exists r, flat (VArr l) r /\ first_occurrences r r) <-> vunique (vflatten l) = vflatten l).
    { rewrite (vunique_unfold _ _ WF). split.
      - intros (r & Hr & Ho). apply flat_det in Hr. subst r. exact Ho.
      - intro Ho. exists (vflatten l). split; [ apply (vflat_flat (VArr l)) | exact Ho ]. }
    change (vflat (VArr l)) with (vflatten l).
    assert (Inner : (1 < N1 /\ exists g', In g' (pre ++ g :: post) /\ In (Some (VArr l)) g' /\ 1 < List.length g') <-> (1 < N1 /\ 1 < List.length g)).
    { split.
      - intros (A & g' & B & C & D). split; [ exact A | ]. rewrite (T5 g' B C) in D. exact D.
      - intros (A & B). split; [ exact A | ]. exists g. split; [ apply in_or_app; right; now left | ]. auto. }
    destruct (Nat.eqb_spec (List.length g) 1) as [Lg|Lg]; destruct (Nat.eqb_spec N1 1) as [Ln|Ln]; destruct (Nat.eqb_spec T 1) as [Lt|Lt];
      cbn iota; cbn [vflat]; fold (vflatten (vflatten l)) (vflatten (vunique (vflatten l))); rewrite ?FF, ?FU, ?UU.
    all: try (exfalso; specialize (T3 Ln); lia).
    all: try (exfalso; specialize (T1 Lt); lia).
    all: split; [ intro K; split; [ let K' := fresh in intro K'; elim (K' l eq_refl) | let K' := fresh in intros ? K'; injection K' as <- ] |
                  intros [_ K]; specialize (K l eq_refl) ].
    all: rewrite ?Dup, ?Inner in *.
    all: try reflexivity; try (left; congruence); try lia.
    all: try (destruct K as [K|[K|[K1 K2]]]; [ congruence | lia | lia ]).
Qed.
Print Assumptions C12_unique_one.

(** The array of C12_unique_refuted in a group of two variants, beside another group. *)
Example C12_unique_one_ex : only_one_alike [[Some (VArr [VInt 1; VInt 1]); None]; [None]] (VArr [VInt 1; VInt 1]) /\
  by_group SUnique [[Some (VArr [VInt 1; VInt 1]); None]; [None]] = Ok (Some (VArr [VInt 1; VInt 1])) /\
  ~ only_one_alike [[Some (VArr [VInt 1; VInt 1])]; [None]] (VArr [VInt 1; VInt 1]) /\ ~ only_one_alike [[Some (VInt 1)]; []] (VInt 1).
Proof.
  split; [ | split; [ reflexivity | split ] ].
  - split; [ intro K; elim (K _ eq_refl) | ]. intros l _. right. right. split; [ cbn; lia | ]. eexists. split; [ now left | ]. split; [ now left | cbn; lia ].
  - intro K. apply C12_unique_one in K; [ | reflexivity | reflexivity ]. vm_compute in K. discriminate K.
  - intro K. apply C12_unique_one in K; [ | reflexivity | reflexivity ]. vm_compute in K. discriminate K.
Qed.


(** Missing for deep: found values that disagree on the kind (map, array or
    scalar) of the value at some path. *)
Theorem C12_deep_partial : forall opts groups, Forall (fun v => wf v = true) (found (concat groups)) ->
  ForallOrdPairs agree (found (concat groups)) ->
  by_group (SDeep opts) groups = lookup_of (SDeep opts) (concat groups).
Proof. intros opts groups W H. rewrite by_group_grouped, lookup_of_pure. f_equal. apply grouping_deep. now split. Qed.
Print Assumptions C12_deep_partial.

Example C12_ex : let groups := [[Some (str_map [("a", VArr [VInt 1])])]; [None; Some (str_map [("a", VArr [VInt 2]); ("b", VInt 1)])];
                                [Some (str_map [("b", VInt 2); ("a", VArr [VInt 1; VInt 3])])]]%string in
  Forall (fun v => is_map v = true /\ wf v = true) (found (concat groups)) /\ 2 <= List.length (found (concat groups)) /\
  by_group (SDeep []) groups = Ok (Some (str_map [("a", VArr [VInt 1; VInt 2; VInt 3]); ("b", VInt 1)]%string)) /\
  by_group SHash groups = Ok (Some (str_map [("b", VInt 1); ("a", VArr [VInt 1])]%string)).
Proof. split; [repeat constructor|]. split; [simpl; lia|]. split; reflexivity. Qed.

Example C12_ex_agree : agree (str_map [("a", VArr [VInt 1]); ("c", VInt 1)]%string) (str_map [("a", VArr [VInt 2]); ("b", VInt 1)]%string).
Proof.
  constructor. intros k va vb Wk Ha Hb. simpl in Ha, Hb.
  destruct k; simpl in *; try discriminate.
  destruct (String.eqb s "a") eqn:E1; [injection Ha as <-; injection Hb as <-; constructor|].
  destruct (String.eqb s "c") eqn:E2; [|discriminate]. injection Ha as <-.
  apply String.eqb_eq in E2. subst s. discriminate.
Qed.
