(** What an explanation says about the values that were found: C66. *)

From Coq Require Import String List ZArith Bool Arith Lia.
From Verif Require Import SpecPlace PlaceFacts.
From Verif Require Import Str Value Outcome Key Merge Fpath Config Ipl Explain State Engine Worlds Meta Kept Session SpecExplain Transparent.
From Verif Require Import SpecKey KeyFacts SpecMerge MergeLookup P_Merge.
Import ListNotations.
Open Scope string_scope.
Open Scope list_scope.
Open Scope bool_scope.
Open Scope monad_scope.

(** ** What a true explanation is *)

(** The current node of an explainer and a change of it. *)
Definition here (x : explainer) : frame :=
  match x_open x with [] => x_root x | (_, f) :: _ => f end.
Definition with_here (g : frame -> frame) (x : explainer) : explainer :=
  match x_open x with
  | [] => mk_explainer (x_options x) (x_only x) (g (x_root x)) [] (x_nil x)
  | (k, f) :: r => mk_explainer (x_options x) (x_only x) (x_root x) ((k, g f) :: r) (x_nil x)
  end.

(** A node says what came out of asking an entry of the hierarchy: found with
    the value, or not found.  A data_dig function gives the value at the end of
    the key. *)
Definition outcome_told (k : key) (kind : fkind) (r : option value) (e : string) (v : option value) : Prop :=
  match r with
  | Some x => e = "found" /\ match kind with KDataDig => exists y, v = Some y /\ x = bury k y | _ => v = Some x end
  | None => e = "not_found"
  end.
Definition key_told (k : key) (kind : fkind) (nk : string) : Prop :=
  match kind with KDataDig => nk = k_source k | _ => exists r, hd_error (k_parts k) = Some (PStr r) /\ nk = r end.

(** The node of a location of an entry. *)
Inductive location_told (k : key) (kind : fkind) (l : location) : option value -> node -> Prop :=
| told_absent : ~ there l ->
    location_told k kind l None (Node (NLocation l) [] [] "location_not_found" None "")
| told_present : forall r bs ts e v nk, there l -> outcome_told k kind r e v -> key_told k kind nk ->
    location_told k kind l r (Node (NLocation l) bs ts e v nk).

Section Told.
  Context {X : Type} (item : X -> option value -> node -> Prop).

  (** Nodes of all things asked, in order. *)
  Inductive all_told : list X -> list (option value) -> list node -> Prop :=
  | all_none : all_told [] [] []
  | all_next : forall x r nd xs rs ns, item x r nd -> all_told xs rs ns -> all_told (x :: xs) (r :: rs) (nd :: ns).

  (** Nodes up to the first that had something. *)
  Inductive first_told : list X -> option value -> list node -> Prop :=
  | first_none : first_told [] None []
  | first_found : forall x xs v nd, item x (Some v) nd -> first_told (x :: xs) (Some v) [nd]
  | first_next : forall x xs r nd ns, item x None nd -> first_told xs r ns -> first_told (x :: xs) r (nd :: ns).

  (** The nodes added for asking things and merging with a strategy, and the
      result noted in the node that they are added to, if any. *)
  Inductive merge_told (s : strategy) : list X -> option value -> list node -> option value -> Prop :=
  | merge_nothing : merge_told s [] None [] None
  | merge_one : forall x r r' nd, item x r nd -> lookup_of s [r] = Ok r' -> merge_told s [x] r' [nd] None
  | merge_first : forall x y xs r ns, s = SFirst -> first_told (x :: y :: xs) r ns -> merge_told s (x :: y :: xs) r ns r
  | merge_all : forall x y xs rs ns r, s <> SFirst -> all_told (x :: y :: xs) rs ns -> lookup_of s rs = Ok r ->
      merge_told s (x :: y :: xs) r
        [Node (NMerge s) ns [] (match r with Some _ => "result" | None => "" end) r ""] None.
End Told.

(** What the function of an entry is called. *)
Inductive called (f : fdef) : string -> Prop :=
| called_dig : f_kind f = KDataDig -> called f ("data_dig function '" ++ f_name f ++ "'")
| called_hash : f_kind f = KDataHash -> called f ("data_hash function '" ++ f_name f ++ "'")
| called_key : f_kind f = KLookupKey -> called f ("lookup_key function '" ++ f_name f ++ "'").

(** The node of an entry of the hierarchy. *)
Inductive provider_told (k : key) (s : strategy) (p : provider) : option value -> node -> Prop :=
| told_entry : forall f t r bs ts e v nk,
    e_function (p_entry p) = Some f -> called f t -> e_locations (p_entry p) = None ->
    outcome_told k (f_kind f) r e v -> key_told k (f_kind f) nk ->
    provider_told k s p r (Node (NProvider t) bs ts e v nk)
| told_locations : forall f t ls r r' bs,
    e_function (p_entry p) = Some f -> called f t -> e_locations (p_entry p) = Some ls ->
    merge_told (location_told k (f_kind f)) (match ls with [_] => SFirst | _ => s end) ls r bs r' ->
    provider_told k s p r (Node (NProvider t) bs [] (match r' with Some _ => "result" | None => "" end) r' "").

(** ** Explaining *)

Lemma full_called f : called f (full_name f).
Proof. unfold full_name. destruct (f_kind f) eqn:E; [ apply called_dig | apply called_hash | apply called_key ]; exact E. Qed.

Definition on (s : st) : Prop := iv_expl (s_iv s) = true /\ x_nil (s_ex s) = false.

Definition add_branches (ns : list node) (f : frame) : frame :=
  mk_frame (fr_bs f ++ ns) (fr_ts f) (fr_e f) (fr_v f) (fr_k f).
Definition mark (r : option value) (f : frame) : frame :=
  match r with Some v => mk_frame (fr_bs f) (fr_ts f) "result" (Some v) (fr_k f) | None => f end.

Definition moves {A} (m : M st A) : Prop := forall s r s', on s -> m s = (Ok r, s') ->
  on s' /\ same_place (s_ex s) (s_ex s').

Lemma sim_moves A (m : M st A) : sim_run A m m -> moves m.
Proof.
  intros H s r s' [O1 O2] E.
  destruct (H s (with_iv (iv_with_expl false (s_iv s)) s) (conj eq_refl eq_refl) O2) as (_ & _ & H3 & H4).
  rewrite E in H3, H4. cbn [fst snd is_ok] in H3, H4. split; [ | exact H4 ].
  destruct (H3 I) as [_ H5]. split; [ congruence | ]. destruct H4 as (_ & _ & H4 & _). congruence.
Qed.

Lemma report_on r s : on s ->
  run_op (OReport r) s = (Ok tt, with_ex (with_here (report_frame r) (s_ex s)) s).
Proof.
  intros [O1 O2]. unfold run_op, xaccept, with_here. rewrite O1, O2.
  destruct (x_open (s_ex s)) as [|[k f] o]; reflexivity.
Qed.

Lemma report_here r s s' : on s -> run_op (OReport r) s = (Ok tt, s') ->
  on s' /\ here (s_ex s') = report_frame r (here (s_ex s)) /\ s_ex s' = with_here (report_frame r) (s_ex s).
Proof.
  intros O E. rewrite report_on in E by exact O. injection E as <-. destruct O as [O1 O2].
  unfold with_here, here. cbn [with_ex s_ex s_iv]. destruct (x_open (s_ex s)) as [|[k f] o] eqn:Eo; cbn [s_ex with_ex x_open x_root];
    (split; [ split; [ exact O1 | exact O2 ] | split; reflexivity ]).
Qed.

(** Something about a state that only has to do with the invocation and with
    what is to be explained. *)
Definition steady (J : st -> Prop) : Prop := forall s s', s_iv s' = s_iv s ->
  x_only (s_ex s') = x_only (s_ex s) -> x_options (s_ex s') = x_options (s_ex s) -> J s -> J s'.

(** A node opened, worked below and closed again. *)
Lemma node_when (J : st -> Prop) A k i (m : M st A) s r s' : steady J -> on s -> J s ->
  (forall s r s', on s -> J s -> m s = (Ok r, s') -> (on s' /\ J s') /\ same_place (s_ex s) (s_ex s')) ->
  run_scoped (SNode k i) m s = (Ok r, s') ->
  exists s0 s1, (on s0 /\ J s0) /\ here (s_ex s0) = new_frame i /\ m s0 = (Ok r, s1) /\ (on s1 /\ J s1) /\ (on s' /\ J s') /\
    s_ex s' = with_here (add_branches [close k (here (s_ex s1))]) (s_ex s).
Proof.
  intros St [O1 O2] Hi Hm E. unfold run_scoped in E. rewrite O1 in E. unfold xpush in E. rewrite O2 in E.
  match type of E with (let (o, s'0) := m ?x in _) = _ => set (s0 := x) in * end.
  destruct (m s0) as [o s1] eqn:Em. injection E as -> <-. exists s0, s1.
  assert (O0 : on s0) by (split; [ exact O1 | reflexivity ]).
  assert (J0 : J s0) by exact (St s s0 eq_refl eq_refl eq_refl Hi).
  destruct (Hm s0 r s1 O0 J0 Em) as [[On1 J1] (P1 & P2 & P3 & P4)].
  assert (J2 : J (with_ex (xpop (s_ex s1)) s1)).
  { apply (St s1); auto; cbn [s_ex with_ex]; unfold xpop; destruct (x_open (s_ex s1)) as [|[] [|[] ?]]; reflexivity. }
  cbn [s0 with_ex s_ex x_open x_options x_only x_nil x_root] in P1, P2, P3, P4.
  destruct P4 as (P4 & f' & P5 & P6).
  split; [ exact (conj O0 J0) | ]. split; [ reflexivity | ]. split; [ exact Em | ]. split; [ exact (conj On1 J1) | ].
  cut (on (with_ex (xpop (s_ex s1)) s1) /\
    s_ex (with_ex (xpop (s_ex s1)) s1) = with_here (add_branches [close k (here (s_ex s1))]) (s_ex s)); [ tauto | ].
  clear J2. unfold on, xpop, with_here, here. cbn [s_iv s_ex with_ex]. rewrite P5.
  destruct (x_open (s_ex s)) as [|[k0 f0] o]; cbn [x_nil];
    (split; [ split; [ apply On1 | apply On1 ] | ]); rewrite P1, P2, P3, P4, O2; reflexivity.
Qed.

Lemma node_on A k i (m : M st A) s r s' : on s -> moves m -> run_scoped (SNode k i) m s = (Ok r, s') ->
  exists s0 s1, on s0 /\ here (s_ex s0) = new_frame i /\ m s0 = (Ok r, s1) /\ on s1 /\ on s' /\
    s_ex s' = with_here (add_branches [close k (here (s_ex s1))]) (s_ex s).
Proof.
  intros O Hm E. destruct (node_when (fun _ => True) A k i m s r s') as (s0 & s1 & H); auto.
  - intros ? ? _ _ _ _. exact I.
  - intros t q t' Ot _ Et. destruct (Hm t q t' Ot Et). auto.
  - exists s0, s1. tauto.
Qed.

Lemma report_iv r s s' : run_op (OReport r) s = (Ok tt, s') -> s_iv s' = s_iv s.
Proof.
  unfold run_op. destruct (iv_expl (s_iv s)); [ destruct (xaccept r (s_ex s)) | ]; intro H; inversion H; reflexivity.
Qed.

Lemma with_here_here g x : here (with_here g x) = g (here x).
Proof. unfold here, with_here. destruct (x_open x) as [|[k f] o]; reflexivity. Qed.

Lemma with_here_twice g h x : with_here g (with_here h x) = with_here (fun f => g (h f)) x.
Proof. unfold with_here. destruct (x_open x) as [|[k f] o]; reflexivity. Qed.

Lemma with_here_eq g h x : (forall f, g f = h f) -> with_here g x = with_here h x.
Proof. intro H. unfold with_here. destruct (x_open x) as [|[k f] o]; rewrite H; reflexivity. Qed.

Lemma add_branches_twice a b f : add_branches a (add_branches b f) = add_branches (b ++ a) f.
Proof. unfold add_branches. cbn [fr_bs fr_ts fr_e fr_v fr_k]. rewrite app_assoc. reflexivity. Qed.

Lemma add_branches_nil f : add_branches [] f = f.
Proof. unfold add_branches. rewrite app_nil_r. destruct f. reflexivity. Qed.

Lemma with_here_id x : with_here (add_branches []) x = x.
Proof.
  unfold with_here. destruct x as [a b c o d]. cbn [x_open x_root x_options x_only x_nil].
  destruct o as [|[k f] o]; rewrite add_branches_nil; reflexivity.
Qed.

(** ** Merging *)

Section Merges.
  Context {X : Type} (item : X -> option value -> node -> Prop) (f : X -> M st (option value)).
  (** Something about the state that asking keeps. *)
  Variable J : st -> Prop.
  Hypothesis steady_J : steady J.
  Hypothesis asks : forall x s r s', on s /\ J s -> f x s = (Ok r, s') ->
    (on s' /\ J s') /\ exists nd, item x r nd /\ s_ex s' = with_here (add_branches [nd]) (s_ex s).

  Lemma asks_all : forall vs s outs s', consults f vs s outs s' -> on s /\ J s ->
    (on s' /\ J s') /\ exists ns, all_told item vs outs ns /\ s_ex s' = with_here (add_branches ns) (s_ex s).
  Proof.
    induction 1 as [s|x r s v s' outs s'' E C IH]; intro O.
    - split; [ exact O | ]. exists []. split; [ constructor | ]. symmetry. apply with_here_id.
    - destruct (asks x s v s' O E) as (O' & nd & I & E1). destruct (IH O') as (O'' & ns & T & E2).
      split; [ exact O'' | ]. exists (nd :: ns). split; [ constructor; assumption | ].
      rewrite E2, E1, with_here_twice. apply with_here_eq. intro g. apply (add_branches_twice ns [nd] g).
  Qed.

  Lemma asks_first : forall vs s r s', first_loop f vs s = (Ok r, s') -> on s /\ J s ->
    (on s' /\ J s') /\ exists ns, first_told item vs r ns /\ s_ex s' = with_here (add_branches ns) (s_ex s).
  Proof.
    induction vs as [|x vs IH]; intros s r s' E O; cbn [first_loop] in E.
    - injection E as <- <-. split; [ exact O | ]. exists []. split; [ constructor | ]. symmetry. apply with_here_id.
    - apply bind_ok in E as (v & s1 & E1 & E). destruct (asks x s v s1 O E1) as (O' & nd & I & X1).
      destruct v as [v|].
      + injection E as <- <-. split; [ exact O' | ]. exists [nd]. split; [ constructor; exact I | exact X1 ].
      + destruct (IH s1 r s' E O') as (O'' & ns & T & X2). split; [ exact O'' | ]. exists (nd :: ns).
        split; [ constructor; assumption | ].
        rewrite X2, X1, with_here_twice. apply with_here_eq. intro g. apply (add_branches_twice ns [nd] g).
  Qed.

  Lemma loop_consults st : forall vs memo s r s', merge_loop f st memo vs s = (Ok r, s') -> exists outs, consults f vs s outs s'.
  Proof.
    induction vs as [|x vs IH]; intros memo s r s' E; cbn [merge_loop] in E.
    - injection E as _ <-. exists []. constructor.
    - apply bind_ok in E as (v & s1 & E1 & E). destruct (IH _ _ _ _ E) as (outs & C). exists (v :: outs). econstructor; eassumption.
  Qed.

  Lemma some_on r s o s' : on s /\ J s -> report_some report_result r s = (Ok o, s') ->
    o = r /\ (on s' /\ J s') /\ s_ex s' = with_here (mark r) (s_ex s).
  Proof.
    intros O E. destruct r as [v|]; cbn [report_some mark] in *.
    - apply bind_ok in E as ([] & s1 & E1 & E). injection E as <- <-. unfold report_result in E1.
      destruct (report_here _ _ _ (proj1 O) E1) as (O1 & _ & E2).
      split; [ reflexivity | ]. split; [ | exact E2 ]. split; [ exact O1 | ]. refine (steady_J s s1 (report_iv _ _ _ E1) _ _ (proj2 O));
        rewrite E2; unfold with_here; destruct (x_open (s_ex s)) as [|[] ?]; reflexivity.
    - injection E as <- <-. split; [ reflexivity | ]. split; [ exact O | ].
      unfold with_here. destruct (s_ex s) as [a b c o d]. destruct o as [|[k g] o]; reflexivity.
  Qed.

  Lemma asks_merge st vs s r s' : on s /\ J s -> merging st vs f s = (Ok r, s') ->
    (on s' /\ J s') /\ exists ns r', merge_told item st vs r ns r' /\
      s_ex s' = with_here (fun g => mark r' (add_branches ns g)) (s_ex s).
  Proof.
    intros O E. unfold merging, merge_lookup in E.
    destruct vs as [|x [|y vs]].
    - assert (E' : (Ok None, s) = (Ok r, s')) by (destruct st; exact E). injection E' as <- <-.
      split; [ exact O | ]. exists [], None. split; [ constructor | ]. symmetry. apply with_here_id.
    - assert (G : exists v, f x s = (Ok v, s') /\ lookup_of st [v] = Ok r).
      { destruct st; try (apply bind_ok in E as (v & s1 & E1 & E); injection E as <- <-; exists v; split; [ exact E1 | rewrite lookup_of_pure; reflexivity ]).
        exists r. split; [ exact E | ]. rewrite lookup_of_pure. destruct r; reflexivity. }
      destruct G as (v & E1 & Hr). destruct (asks x s v s' O E1) as (O' & nd & I & X1).
      split; [ exact O' | ]. exists [nd], None. split; [ econstructor; eassumption | exact X1 ].
    - assert (D : st = SFirst \/ st <> SFirst) by (destruct st; (left; reflexivity) || (right; discriminate)).
      destruct D as [->|N].
      + apply bind_ok in E as (v & s1 & E1 & E). destruct (asks_first _ _ _ _ E1 O) as (O1 & ns & T & X1).
        destruct (some_on v s1 r s' O1 E) as (-> & O2 & X2). split; [ exact O2 | ].
        exists ns, v. split; [ constructor; auto | ]. rewrite X2, X1, with_here_twice. reflexivity.
      + assert (E' : with_merge st (v <- merge_loop f st None (x :: y :: vs) ;; report_some report_result v) s = (Ok r, s')).
        { destruct st; [ congruence | exact E.. ]. }
        unfold with_merge in E'. clear E.
        assert (Hmv : forall s r s', on s -> J s -> (v <- merge_loop f st None (x :: y :: vs) ;; report_some report_result v) s = (Ok r, s') ->
          (on s' /\ J s') /\ same_place (s_ex s) (s_ex s')).
        { clear - asks steady_J. intros s r s' O0 Oj E. pose proof (conj O0 Oj) as O. apply bind_ok in E as (v & s1 & E1 & E).
          destruct (loop_consults _ _ _ _ _ _ E1) as (outs & C). destruct (asks_all _ _ _ _ C O) as (O1 & ns & T & X1).
          destruct (some_on v s1 r s' O1 E) as (-> & O2 & X2). split; [ exact O2 | ].
          rewrite X2, X1, with_here_twice. unfold same_place, with_here, mark.
          destruct (x_open (s_ex s)) as [|[k g] o]; cbn [x_options x_only x_nil x_open x_root];
            (split; [ reflexivity | split; [ reflexivity | split; [ reflexivity | ] ] ]); (split; [ reflexivity | ]).
          - destruct v; split; cbn [report_frame add_branches fr_bs fr_ts]; eauto; exists []; rewrite app_nil_r; reflexivity.
          - eexists. split; [ reflexivity | ].
            destruct v; split; cbn [report_frame add_branches fr_bs fr_ts]; eauto; exists []; rewrite app_nil_r; reflexivity. }
        destruct (node_when J _ _ _ _ _ _ _ steady_J (proj1 O) (proj2 O) Hmv E') as (s0 & s1 & T0 & F0 & E1 & O1 & O2 & X0).
        apply bind_ok in E1 as (v & s2 & E1 & E2). destruct (loop_consults _ _ _ _ _ _ E1) as (outs & C).
        destruct (asks_all _ _ _ _ C T0) as (O3 & ns & T & X1).
        destruct (some_on v s2 r s1 O3 E2) as (-> & O4 & X2).
        split; [ exact O2 | ].
        rewrite X2, X1, with_here_twice, with_here_here, F0 in X0.
        rewrite (merge_loop_eq f st (x :: y :: vs) None s0 outs s2 C) in E1. injection E1 as Ev.
        assert (L : lookup_of st outs = Ok v).
        { rewrite lookup_of_pure. inversion C as [|? ? ? v1 s3 outs1 ? E3 C1]; subst. inversion C1; subst.
          unfold pure_lookup. destruct st; [ congruence | reflexivity.. ]. }
        exists [Node (NMerge st) ns [] (match v with Some _ => "result" | None => "" end) v ""], None.
        split; [ econstructor; eassumption | ]. cbn [mark]. rewrite X0. destruct v; reflexivity.
  Qed.
End Merges.

Lemma always_steady : steady (fun _ => True).
Proof. intros ? ? _ _ _ _. exact I. Qed.

Lemma whatever (A B : Prop) (s : st) : A /\ B -> (A /\ (fun _ : st => True) s) /\ B.
Proof. tauto. Qed.

(** ** Providers and hierarchies *)

Section Hierarchy.
  Variables (w : world) (n : nat).

  Notation rec := (run w n).
  Definition sim_closed : closed w sim_run := full_closed w _ sim_run_full.

  Lemma answer_told k p loc f s r s' : e_function (p_entry p) = Some f -> on s ->
    provider_lookup w rec k p loc s = (Ok r, s') ->
    outcome_told k (f_kind f) r (fr_e (here (s_ex s'))) (fr_v (here (s_ex s'))) /\
    key_told k (f_kind f) (fr_k (here (s_ex s'))).
  Proof.
    intros Hf O E. unfold provider_lookup in E. rewrite Hf in E.
    assert (W := c_run w _ sim_closed n).
    assert (FF : forall q v s1 o s2, on s1 -> (report_found q v ;;; ret o) s1 = (Ok r, s2) -> r = o /\
      fr_k (here (s_ex s2)) = q /\ match v with Some x => fr_e (here (s_ex s2)) = "found" /\ fr_v (here (s_ex s2)) = Some x
                                              | None => fr_e (here (s_ex s2)) = "not_found" end).
    { clear. intros q v s1 o s2 O E. apply bind_ok in E as ([] & s3 & E1 & E). injection E as <- <-.
      unfold report_found in E1. destruct v as [x|]; destruct (report_here _ _ _ O E1) as (_ & H & _); rewrite H; cbn; auto. }
    assert (MO : forall e l, moves (provider_options e l)) by (intros; apply sim_moves; apply (c_provider_options w _ sim_closed)).
    assert (MF : forall i e d, moves (provider_function w i e d)) by (intros; apply sim_moves; apply (c_provider_function w _ sim_closed)).
    destruct (f_kind f) eqn:Ek.
    - apply bind_ok in E as (os & s1 & E1 & E). destruct (MO _ _ _ _ _ O E1) as [O1 _].
      apply bind_ok in E as (l & s2 & E2 & E). destruct (MF _ _ _ _ _ _ O1 E2) as [O2 _].
      apply bind_ok in E as (v & s3 & E3 & E).
      assert (O3 : on s3).
      { refine (proj1 (sim_moves _ _ _ s2 v s3 O2 E3)). apply (c_call_dig w _ sim_closed). }
      destruct v as [x|]; destruct (FF _ _ _ _ _ O3 E) as (-> & Fk & Fv); cbn [outcome_told key_told]; split; auto.
      destruct Fv as [Fe Fv]. split; [ exact Fe | ]. exists x. auto.
    - apply bind_ok in E as (q & s1 & E1 & E). unfold lift in E1. injection E1 as E1 <-.
      apply bind_ok in E as (h & s2 & E2 & E).
      assert (O2 : on s2).
      { refine (proj1 (sim_moves _ _ _ s h s2 O E2)). apply (c_data_hash w _ sim_closed). exact W. }
      apply bind_ok in E as (v & s3 & E3 & E).
      assert (O3 : on s3).
      { destruct (mgets q h) as [x|]; [ | injection E3 as _ <-; exact O2 ].
        refine (proj1 (sim_moves _ _ _ s2 v s3 O2 E3)). apply (c_interpolate w _ sim_closed). exact W. }
      destruct (FF _ _ _ _ _ O3 E) as (-> & Fk & Fv). split.
      + destruct v; exact Fv.
      + exists q. split; [ | exact Fk ]. unfold root in E1. destruct (k_parts k) as [|[z|t] ps]; try discriminate E1. injection E1 as ->. reflexivity.
    - apply bind_ok in E as (q & s1 & E1 & E). unfold lift in E1. injection E1 as E1 <-.
      apply bind_ok in E as (os & s1 & E4 & E). destruct (MO _ _ _ _ _ O E4) as [O1 _].
      apply bind_ok in E as (l & s2 & E2 & E). destruct (MF _ _ _ _ _ _ O1 E2) as [O2 _].
      apply bind_ok in E as (v & s3 & E3 & E).
      assert (O3 : on s3).
      { refine (proj1 (sim_moves _ _ _ s2 v s3 O2 E3)). apply (c_call_key w _ sim_closed). exact W. }
      destruct (FF _ _ _ _ _ O3 E) as (-> & Fk & Fv). split.
      + destruct v; exact Fv.
      + exists q. split; [ | exact Fk ]. unfold root in E1. destruct (k_parts k) as [|[z|t] ps]; try discriminate E1. injection E1 as ->. reflexivity.
  Qed.

  Lemma lookup_moves k p loc : moves (provider_lookup w rec k p loc).
  Proof. apply sim_moves. apply (c_provider_lookup w _ sim_closed). exact (c_run w _ sim_closed n). Qed.

  Lemma location_asked k p l f s r s' : e_function (p_entry p) = Some f -> on s ->
    invoke w rec k p l s = (Ok r, s') ->
    on s' /\ exists nd, location_told k (f_kind f) l r nd /\ s_ex s' = with_here (add_branches [nd]) (s_ex s).
  Proof.
    intros Hf O E. unfold invoke in E.
    assert (Hm : moves (if loc_exists l then provider_lookup w rec k p (Some l) else run_op (OReport RLocationNotFound) ;;; ret None)).
    { destruct (loc_exists l); [ apply lookup_moves | ]. intros s1 r1 s2 O1 E1.
      apply bind_ok in E1 as ([] & s3 & E1 & E2). injection E2 as <- <-.
      pose proof (accept_place RLocationNotFound (s_ex s1)) as A. unfold run_op in E1. rewrite (proj1 O1) in E1.
      destruct (xaccept RLocationNotFound (s_ex s1)) as [x|] eqn:Ex; [ | discriminate E1 ]. injection E1 as <-.
      specialize (A x eq_refl). split; [ | exact A ]. split; [ exact (proj1 O1) | ]. destruct A as (_ & _ & A & _). cbn [with_ex s_ex]. rewrite A. exact (proj2 O1). }
    destruct (node_on _ _ _ _ _ _ _ O Hm E) as (s0 & s1 & O0 & F0 & E1 & O1 & O2 & X).
    split; [ exact O2 | ]. eexists. split; [ | exact X ]. unfold close.
    destruct (loc_exists l) eqn:El.
    - destruct (answer_told k p (Some l) f s0 r s1 Hf O0 E1) as [T1 T2]. apply told_present; [ apply there_exists; exact El | assumption | assumption ].
    - apply bind_ok in E1 as ([] & s3 & E1 & E2). injection E2 as <- <-.
      destruct (report_here _ _ _ O0 E1) as (_ & H & _). rewrite H, F0. cbn. apply told_absent. apply not_there. exact El.
  Qed.

  Lemma provider_asked k st p s r s' : on s -> merge_locations w rec k st p s = (Ok r, s') ->
    on s' /\ exists nd, provider_told k st p r nd /\ s_ex s' = with_here (add_branches [nd]) (s_ex s).
  Proof.
    intros O E. assert (E0 := E). unfold merge_locations in E.
    destruct (e_function (p_entry p)) as [f|] eqn:Hf; [ | discriminate E ].
    match type of E with run_scoped _ ?m _ = _ => assert (Hm : moves m) end.
    { apply sim_moves. pose proof (c_provider_lookup w _ sim_closed rec rec (c_run w _ sim_closed n)) as P1.
      pose proof (c_invoke w _ sim_closed rec rec (c_run w _ sim_closed n)) as P2.
      destruct (e_locations (p_entry p)) as [[|x [|y ls]]|]; [ apply (f_lift _ sim_run_full _ (Ok None)) | apply P2 | | apply P1 ].
      apply (c_merging w _ sim_closed). intro. apply P2. }
    destruct (node_on _ _ _ _ _ _ _ O Hm E) as (s0 & s1 & O0 & F0 & E1 & O1 & O2 & X).
    split; [ exact O2 | ]. eexists. split; [ | exact X ]. unfold close.
    destruct (e_locations (p_entry p)) as [[|x [|y ls]]|] eqn:El.
    - injection E1 as <- <-. rewrite F0. apply (told_locations k st p f (full_name f) [] None None []); [ first [ assumption | apply full_called ].. | ]. constructor.
    - destruct (location_asked k p x f s0 r s1 Hf O0 E1) as (_ & nd & T & X1). rewrite X1, with_here_here, F0.
      apply (told_locations k st p f (full_name f) [x] r None [nd]); [ first [ assumption | apply full_called ].. | ]. econstructor; [ exact T | ].
      rewrite lookup_of_pure. destruct r; reflexivity.
    - destruct (asks_merge (location_told k (f_kind f)) (invoke w rec k p) (fun _ => True) always_steady
                  (fun x s r s' O E => whatever _ _ _ (location_asked k p x f s r s' Hf (proj1 O) E))
                  st (x :: y :: ls) s0 r s1 (conj O0 I) E1) as (_ & ns & r' & T & X1).
      rewrite X1, with_here_here, F0.
      pose proof (told_locations k st p f (full_name f) (x :: y :: ls) r r' ns Hf (full_called f) El T) as G.
      destruct r'; exact G.
    - destruct (answer_told k p None f s0 r s1 Hf O0 E1) as [T1 T2]. apply (told_entry k st p f (full_name f)); first [ assumption | apply full_called ].
  Qed.
End Hierarchy.

(** While explaining, asking a hierarchy adds nodes to the current node that say
    exactly what was asked and what came out of it: which entries, in which
    order, up to the first that had a value or all of them; the locations of
    each, with those that do not exist; the value or that there is none; and the
    result of merging. *)
Theorem C66_hierarchy : forall w n k ps st s r s',
  iv_expl (s_iv s) = true -> x_nil (s_ex s) = false ->
  merge_hierarchy w (run w n) k ps (Some st) s = (Ok r, s') ->
  exists ns r', merge_told (provider_told k st) st ps r ns r' /\
    s_ex s' = with_here (fun f => mark r' (add_branches ns f)) (s_ex s).
Proof.
  intros w n k ps st s r s' O1 O2 E.
  exact (proj2 (asks_merge (provider_told k st) (merge_locations w (run w n) k st) (fun _ => True) always_steady
                  (fun p s r s' O E => whatever _ _ _ (provider_asked w n k st p s r s' (proj1 O) E)) st ps s r s' (conj (conj O1 O2) I) E)).
Qed.
Print Assumptions C66_hierarchy.

(** ** Digging *)

(** The nodes of the parts of a key that are followed into a value: one for each
    part up to the first that leads nowhere. *)
Inductive parts_told : list part -> value -> option value -> list node -> Prop :=
| parts_end : forall v, parts_told [] v (Some v) []
| parts_found : forall p ps v x r ns, step_into v p x -> parts_told ps x r ns ->
    parts_told (p :: ps) v r (Node (NSegment p) [] [] "found" (Some x) (match p with PStr t => t | PInt i => show_int i end) :: ns)
| parts_missing : forall p ps v, (forall x, ~ step_into v p x) ->
    parts_told (p :: ps) v None [Node (NSegment p) [] [] "not_found" None (match p with PStr t => t | PInt i => show_int i end)].

Lemma step_told p v s r s' : on s -> dig_step p (Some v) s = (Ok r, s') ->
  on s' /\ r = dig_part p v /\
  s_ex s' = with_here (add_branches [Node (NSegment p) [] [] (match r with Some _ => "found" | None => "not_found" end) r (part_string p)]) (s_ex s).
Proof.
  intros O E. unfold dig_step in E.
  match type of E with run_scoped _ ?m _ = _ => assert (Hm : moves m) end.
  { apply sim_moves. destruct (dig_part p v);
      (apply (f_bind _ sim_run_full); [ apply (f_op _ sim_run_full) | intro; apply (f_lift _ sim_run_full _ (Ok _)) ]). }
  destruct (node_on _ _ _ _ _ _ _ O Hm E) as (s0 & s1 & O0 & F0 & E1 & O1 & O2 & X). split; [ exact O2 | ].
  destruct (dig_part p v) as [x|]; apply bind_ok in E1 as ([] & s2 & E1 & E2); injection E2 as <- <-;
    destruct (report_here _ _ _ O0 E1) as (_ & H & _); rewrite H, F0 in X; auto.
Qed.

Lemma loop_told : forall ps v s r s', on s -> dig_loop ps (Some v) s = (Ok r, s') ->
  on s' /\ exists ns, parts_told ps v r ns /\ s_ex s' = with_here (add_branches ns) (s_ex s).
Proof.
  induction ps as [|p ps IH]; intros v s r s' O E; cbn [dig_loop] in E.
  - injection E as <- <-. split; [ exact O | ]. exists []. split; [ constructor | symmetry; apply with_here_id ].
  - apply bind_ok in E as (x & s1 & E1 & E). destruct (step_told p v s x s1 O E1) as (O1 & Ex & X1).
    destruct x as [x|].
    + destruct (IH x s1 r s' O1 E) as (O2 & ns & T & X2). split; [ exact O2 | ]. eexists. split.
      * apply parts_found; [ apply dig_part_step; symmetry; exact Ex | exact T ].
      * rewrite X2, X1, with_here_twice. apply with_here_eq. intro g. rewrite add_branches_twice. destruct p; reflexivity.
    + injection E as <- <-. split; [ exact O1 | ]. eexists. split.
      * apply parts_missing. intros x S. apply dig_part_step in S. congruence.
      * rewrite X1. apply with_here_eq. intro g. destruct p; reflexivity.
Qed.

(** Digging into a value adds one node with the parts followed; without further
    parts it adds nothing. *)
Theorem C66_dig : forall k v s r s',
  iv_expl (s_iv s) = true -> x_nil (s_ex s) = false ->
  dig_in k (Some v) s = (Ok r, s') ->
  match tl (k_parts k) with
  | [] => r = Some v /\ s' = s
  | ps => exists ns, parts_told ps v r ns /\
            s_ex s' = with_here (add_branches [Node (NSubLookup k) ns [] "" None ""]) (s_ex s)
  end.
Proof.
  intros k v s r s' O1 O2 E. unfold dig_in in E. destruct (tl (k_parts k)) as [|p ps]; [ injection E as <- <-; auto | ].
  assert (Hm : moves (dig_loop (p :: ps) (Some v))).
  { intros s1 r1 s2 O E1. destruct (loop_told _ _ _ _ _ O E1) as (O' & ns & _ & X). split; [ exact O' | ].
    rewrite X. unfold same_place, with_here. destruct (x_open (s_ex s1)) as [|[kd g] o]; cbn [x_options x_only x_nil x_open x_root];
      (split; [ reflexivity | split; [ reflexivity | split; [ reflexivity | ] ] ]); (split; [ reflexivity | ]).
    - split; cbn [add_branches fr_bs fr_ts]; eauto. exists []. rewrite app_nil_r. reflexivity.
    - eexists. split; [ reflexivity | ]. split; cbn [add_branches fr_bs fr_ts]; eauto. exists []. rewrite app_nil_r. reflexivity. }
  destruct (node_on _ _ _ _ _ _ _ (conj O1 O2) Hm E) as (s0 & s1 & O0 & F0 & E1 & O1' & O2' & X).
  destruct (loop_told _ _ _ _ _ O0 E1) as (_ & ns & T & X1). exists ns. split; [ exact T | ].
  rewrite X, X1, with_here_here, F0. reflexivity.
Qed.
Print Assumptions C66_dig.

(** ** Whole lookups *)

(** Where the merge strategy of a lookup comes from: the option of the lookup,
    or else the lookup options of the key. *)
Definition source_told (cli : option value) (lo : option entries) (ns : list node) : Prop :=
  match cli, lo with
  | Some _, _ => ns = [Node (NMergeSource "CLI option") [] [] "" None ""]
  | None, Some m => match mgets "merge" m with
                    | Some _ => ns = [Node (NMergeSource """lookup_options"" hash") [] [] "" None ""]
                    | None => ns = []
                    end
  | None, None => ns = []
  end.

Lemma set_merge_told cli lo s s' : on s -> set_merge cli lo s = (Ok tt, s') ->
  on s' /\ exists ns, source_told cli lo ns /\ s_ex s' = with_here (add_branches ns) (s_ex s).
Proof.
  intros O E. unfold set_merge in E. apply bind_ok in E as (os & s1 & E1 & E).
  assert (G : on s1 /\ exists ns, source_told cli lo ns /\ s_ex s1 = with_here (add_branches ns) (s_ex s)).
  { destruct cli as [v|].
    - apply bind_ok in E1 as ([] & s2 & E1 & E2). injection E2 as _ <-. destruct (report_here _ _ _ O E1) as (O' & _ & X).
      split; [ exact O' | ]. eexists. split; [ reflexivity | exact X ].
    - cbn [source_told]. assert (N : forall x, (Ok x, s) = (Ok os, s1) -> on s1 /\ exists ns, ns = [] /\ s_ex s1 = with_here (add_branches ns) (s_ex s)).
      { intros x Ex. injection Ex as _ <-. split; [ exact O | ]. exists []. split; [ reflexivity | symmetry; apply with_here_id ]. }
      destruct lo as [m|]; [ | exact (N _ E1) ]. destruct (mgets "merge" m) as [v|]; [ | exact (N _ E1) ].
      apply bind_ok in E1 as ([] & s2 & E1 & E2). injection E2 as _ <-. destruct (report_here _ _ _ O E1) as (O' & _ & X).
      split; [ exact O' | ]. eexists. split; [ reflexivity | exact X ]. }
  destruct G as ((G1 & G2) & ns & T & X).
  apply bind_ok in E as ([] & s2 & E2 & E). unfold run_op in E2. injection E2 as <-.
  apply bind_ok in E as (g & s3 & E3 & E). unfold lift in E3. injection E3 as E3 <-. unfold run_op in E. injection E as <-.
  split; [ split; [ exact G1 | exact G2 ] | ]. exists ns. split; [ exact T | exact X ].
Qed.

(** The nodes of a lookup in a configuration, once the configuration is there:
    where the strategy comes from, and what was asked and came out of it; a
    conversion of the value is not told. *)
Theorem C66_lookup : forall w n opts path key module s cfg s1 r s',
  iv_expl (s_iv s) = true -> x_nil (s_ex s) = false -> x_only (s_ex s) = false -> iv_mode (s_iv s) = MdTop ->
  get_config w (run w n) path module s = (Ok cfg, s1) ->
  config_lookup_at w (run w n) opts path key module s = (Ok r, s') ->
  exists k lo st src ns r0 r', new_key key = Ok k /\ lookup_options cfg k = Ok lo /\
    source_told (mgets "merge" opts) lo src /\
    merge_told (provider_told k st) st (rc_providers cfg) r0 ns r' /\
    (r0 = None <-> r = None) /\
    s_ex s' = with_here (add_branches
      [Node NLookup (src ++ ns) [] (match r' with Some _ => "result" | None => "" end) r' (k_source k)]) (s_ex s1).
Proof.
  intros w n opts path key module s cfg s1 r s' O1 O2 Oo Om Ec E. unfold config_lookup_at in E.
  apply bind_ok in E as (cfg' & s1' & Ec' & E). rewrite Ec in Ec'. injection Ec' as <- <-.
  assert (W := c_run w _ (sim_closed w) n).
  assert (Wk := c_run w _ (kept_closed w) n).
  assert (K1 : on s1 /\ same_place (s_ex s) (s_ex s1)).
  { refine (sim_moves _ _ _ s cfg s1 (conj O1 O2) Ec). apply (c_get_config w _ (sim_closed w)); try exact W; try (intro; apply quiet_run). }
  destruct K1 as (K1 & (_ & K2 & _)).
  assert (Md : iv_mode (s_iv s1) = MdTop).
  { pose proof (c_get_config w (steps kept) (kept_closed w) (run w n) (run w n) Wk (fun t => quiet_run w n t) (fun t => quiet_run w n t) path module s) as G.
    rewrite Ec in G. cbn [snd] in G. rewrite (kp_mode _ _ G). exact Om. }
  apply bind_ok in E as (k & s2 & Ek & E). unfold lift in Ek. injection Ek as Ek <-.
  apply bind_ok in E as (md & s2 & Em & E). unfold run_op in Em. injection Em as <- <-. rewrite Md in E.
  unfold run_scoped at 1 in E. rewrite Md in E. unfold with_copy in E.
  match type of E with (let (o, s'0) := run_scoped _ _ ?x in _) = _ => set (sd := x) in * end.
  destruct (run_scoped (SNode NLookup (k_source k)) _ sd) as [o s3] eqn:En in E. injection E as -> <-.
  cbn [s_ex with_iv].
  assert (Od : on sd).
  { split; [ | exact (proj2 K1) ]. unfold sd. cbn [s_iv with_iv iv_with_mode iv_with_expl iv_expl].
    rewrite (proj1 K1), K2, Oo. reflexivity. }
  assert (Hm : moves (lo <- lift (lookup_options cfg k);;
           set_merge (mgets "merge" opts) lo;;;
           lookup_and_convert w (s <- run_op OStrat;; merge_hierarchy w (run w n) k (rc_providers cfg) s))).
  { apply sim_moves. pose proof sim_run_full as F.
    apply (f_bind _ F); [ apply (f_lift _ F) | intro lo ].
    apply (f_bind _ F); [ apply (c_set_merge w _ (sim_closed w)) | intro ].
    apply (c_lookup_and_convert w _ (sim_closed w)). apply (f_bind _ F); [ apply (f_op _ F) | intro st ].
    apply (c_merge_hierarchy w _ (sim_closed w)). exact W. }
  destruct (node_on _ _ _ _ _ _ _ Od Hm En) as (s4 & s5 & O4 & F4 & E4 & O5 & O6 & X). clear En.
  apply bind_ok in E4 as (lo & s6 & El & E4). unfold lift in El. injection El as El <-.
  apply bind_ok in E4 as ([] & s6 & Es & E4). destruct (set_merge_told _ _ _ _ O4 Es) as (O7 & src & T & X6).
  unfold lookup_and_convert in E4. apply bind_ok in E4 as (c & s7 & Ex & E4).
  assert (S7 : s7 = s6).
  { unfold extract_conversion in Ex. apply bind_ok in Ex as (lu & s8 & Eu & Ex). unfold run_op in Eu. injection Eu as _ <-.
    destruct (conversion lu) as [[[]]|]; try discriminate Ex; try (injection Ex as _ <-; reflexivity).
    apply bind_ok in Ex as (ty & s8 & Ey & Ex). unfold lift in Ey. injection Ey as _ <-. injection Ex as _ <-. reflexivity. }
  subst s7. apply bind_ok in E4 as (r0 & s7 & Er & E4).
  assert (G : exists st sa sb, on sa /\ s_ex sa = s_ex s6 /\ s_ex s7 = s_ex sb /\
            merge_hierarchy w (run w n) k (rc_providers cfg) st sa = (Ok r0, sb)).
  { assert (A : forall sa sb, on sa -> s_ex sa = s_ex s6 -> s_ex s7 = s_ex sb ->
              (s <- run_op OStrat;; merge_hierarchy w (run w n) k (rc_providers cfg) s) sa = (Ok r0, sb) ->
              exists st sa sb, on sa /\ s_ex sa = s_ex s6 /\ s_ex s7 = s_ex sb /\
                merge_hierarchy w (run w n) k (rc_providers cfg) st sa = (Ok r0, sb)).
    { intros sa sb Oa Ea Eb H. apply bind_ok in H as (st & s8 & H1 & H2). unfold run_op in H1. injection H1 as _ <-.
      exists st, sa, sb. auto. }
    destruct c as [[[] a]|]; try (apply (A s6 s7 O7 eq_refl eq_refl Er)).
    unfold run_scoped in Er. destruct (iv_redacted (s_iv s6)) eqn:Rd; [ apply (A s6 s7 O7 eq_refl eq_refl Er) | ].
    match type of Er with (let (o, s'0) := _ ?x in _) = _ => set (sa := x) in * end.
    destruct ((s <- run_op OStrat;; merge_hierarchy w (run w n) k (rc_providers cfg) s) sa) as [o sb] eqn:Eb.
    injection Er as -> <-. apply (A sa sb); [ exact O7 | reflexivity | reflexivity | exact Eb ]. }
  destruct G as (st & sa & sb & Oa & Ea & Eb & H).
  destruct st as [st|]; [ | discriminate H ].
  destruct (C66_hierarchy w n k (rc_providers cfg) st sa r0 sb (proj1 Oa) (proj2 Oa) H) as (ns & r' & T2 & X2).
  exists k, lo, st, src, ns, r0, r'. split; [ exact Ek | ]. split; [ exact El | ]. split; [ exact T | ]. split; [ exact T2 | ].
  assert (R : (r0 = None <-> r = None) /\ s5 = s7).
  { destruct r0 as [v|]; [ | injection E4 as <- <-; tauto ].
    destruct c as [[ty a]|]; [ | injection E4 as <- <-; split; [ split; discriminate | reflexivity ] ].
    apply bind_ok in E4 as (y & s8 & E5 & E4). unfold lift in E5. injection E5 as _ <-. injection E4 as <- <-. split; [ split; discriminate | reflexivity ]. }
  destruct R as [R ->]. split; [ exact R | ].
  rewrite X. change (s_ex sd) with (s_ex s1). apply with_here_eq. intro g. f_equal. f_equal.
  rewrite Eb, X2, Ea, X6, with_here_twice, with_here_here, F4. unfold close, mark.
  destruct r'; reflexivity.
Qed.
Print Assumptions C66_lookup.

(** ** Examples *)

(** Two levels; the first has a location that does not exist and nothing about
    the key. *)
Definition truth_w : world :=
  file_world
    [("/h/hiera.yaml",
      vmap [("version", VInt 5);
            ("hierarchy", VArr [vmap [("name", VStr "a"); ("paths", VArr [VStr "none.yaml"; VStr "a.yaml"])];
                                vmap [("name", VStr "b"); ("path", VStr "b.yaml")]])])]
    [("/h/data/a.yaml", vmap [("other", VInt 1)]); ("/h/data/b.yaml", vmap [("k", vmap [("x", VInt 7)])])].
Definition truth_st : st := invocation (ScMap []) true (init_st (ScMap []) (Some (new_explainer false false))).
Definition truth_cfg : outcome rconfig * st := get_config truth_w (run truth_w 10) "/h/hiera.yaml" "" truth_st.
Definition truth_tree (k : string) (opts : entries) : list node :=
  fr_bs (x_root (s_ex (snd (config_lookup_at truth_w (run truth_w 10) opts "/h/hiera.yaml" k "" truth_st)))).

Definition yaml_node (bs : list node) (e : string) : node :=
  Node (NProvider "data_hash function 'yaml_data'") bs [] e None "".
Definition a_none : node :=
  Node (NLocation (LPath "none.yaml" "/h/data/none.yaml" false)) [] [] "location_not_found" None "".
Definition a_there : node := Node (NLocation (LPath "a.yaml" "/h/data/a.yaml" true)) [] [] "not_found" None "k".
Definition b_there : node :=
  Node (NLocation (LPath "b.yaml" "/h/data/b.yaml" true)) [] [] "found" (Some (vmap [("x", VInt 7)])) "k".

Example C66_ex_hypotheses :
  iv_expl (s_iv truth_st) = true /\ x_nil (s_ex truth_st) = false /\ x_only (s_ex truth_st) = false /\
  iv_mode (s_iv truth_st) = MdTop /\
  match truth_cfg with
  | (Ok cfg, _) => map (fun p => option_map full_name (e_function (p_entry p))) (rc_providers cfg)
                   = [Some "data_hash function 'yaml_data'"; Some "data_hash function 'yaml_data'"]
  | _ => False
  end /\
  fst (config_lookup_at truth_w (run truth_w 10) [] "/h/hiera.yaml" "k" "" truth_st) = Ok (Some (vmap [("x", VInt 7)])).
Proof. do 5 (split; [ vm_compute; reflexivity | ]). vm_compute. reflexivity. Qed.

(** With the first found value. *)
Example C66_ex_first :
  truth_tree "k" []
  = [Node NLookup [yaml_node [a_none; a_there] ""; yaml_node [b_there] ""] [] "result" (Some (vmap [("x", VInt 7)])) "k"].
Proof. vm_compute. reflexivity. Qed.

(** Merged, as asked for by the lookup. *)
Example C66_ex_hash :
  truth_tree "k" [(VStr "merge", VStr "hash")]
  = [Node NLookup
      [Node (NMergeSource "CLI option") [] [] "" None "";
       Node (NMerge SHash)
         [yaml_node [Node (NMerge SHash) [a_none; a_there] [] "" None ""] ""; yaml_node [b_there] ""]
         [] "result" (Some (vmap [("x", VInt 7)])) ""]
      [] "" None "k"].
Proof. vm_compute. reflexivity. Qed.

(** Digging for a part that is there and one that is not. *)
Example C66_ex_dig :
  let k := mk_key "k.a.1.b" [PStr "k"; PStr "a"; PInt 1; PStr "b"] in
  let v := vmap [("a", VArr [VInt 1; VStr "t"])] in
  fst (dig_in k (Some v) truth_st) = Ok None /\
  fr_bs (x_root (s_ex (snd (dig_in k (Some v) truth_st))))
  = [Node (NSubLookup k)
      [Node (NSegment (PStr "a")) [] [] "found" (Some (VArr [VInt 1; VStr "t"])) "a";
       Node (NSegment (PInt 1)) [] [] "found" (Some (VStr "t")) "1";
       Node (NSegment (PStr "b")) [] [] "not_found" None "b"] [] "" None ""].
Proof. vm_compute. auto. Qed.
