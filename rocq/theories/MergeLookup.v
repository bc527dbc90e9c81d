(** Proofs about MergeLookup of the strategies. *)

From Coq Require Import String List ZArith Bool Arith Lia.
From Verif Require Import Str Value ValueFacts Outcome Merge SpecMerge MergeFacts.
Import ListNotations.
Open Scope list_scope.

(** The value a strategy makes of the values found, without effects. *)
Fixpoint first_some (outs : list (option value)) : option value :=
  match outs with
  | [] => None
  | Some v :: _ => Some v
  | None :: r => first_some r
  end.

Definition merge_fold (st : strategy) (vs : list value) : option value :=
  match vs with
  | [] => None
  | v :: r => Some (fold_left (merge2 st) r (convert_value st v))
  end.

Definition pure_lookup (st : strategy) (outs : list (option value)) : option value :=
  match st with
  | SFirst => first_some outs
  | _ => match outs with
         | [] => None
         | [v] => merge_single st v
         | _ => merge_fold st (found outs)
         end
  end.

Section Hooks.
  Context {S L : Type}.
  Variable with_merge : strategy -> M S (option value) -> M S (option value).
  Variable report : value -> M S unit.
  Variable f : L -> M S (option value).
  (** The hooks run their body and only change the state around it. *)
  Variable enter leave : strategy -> S -> S.
  Variable rep : value -> S -> S.
  Hypothesis Hwm : forall st m s, with_merge st m s = (fst (m (enter st s)), leave st (snd (m (enter st s)))).
  Hypothesis Hrep : forall v s, report v s = (Ok tt, rep v s).

  Definition rep_some (o : option value) (s : S) : S := match o with Some v => rep v s | None => s end.

  Lemma report_some_eq o s : report_some report o s = (Ok o, rep_some o s).
  Proof. unfold report_some. destruct o; [|reflexivity]. unfold bind. rewrite Hrep. reflexivity. Qed.

  Lemma consults_app pre : forall post s outs1 s1 outs2 s2,
    consults f pre s outs1 s1 -> consults f post s1 outs2 s2 -> consults f (pre ++ post) s (outs1 ++ outs2) s2.
  Proof.
    induction pre as [|x pre IH]; intros post s outs1 s1 outs2 s2 H1 H2; inversion H1; subst; simpl; auto.
    econstructor; eauto.
  Qed.

  Lemma consults_length vs s outs s' : consults f vs s outs s' -> List.length outs = List.length vs.
  Proof. induction 1; simpl; auto. Qed.

  Lemma consults_det vs s outs s' : consults f vs s outs s' -> forall outs2 s2, consults f vs s outs2 s2 -> outs = outs2 /\ s' = s2.
  Proof.
    induction 1 as [s|x r s v s' outs s'' Hx H IH]; intros outs2 s2 H2; inversion H2; subst; auto.
    rewrite Hx in *. match goal with E : (Ok v, s') = _ |- _ => injection E as <- <- end.
    match goal with E : consults f r s' _ _ |- _ => destruct (IH _ _ E) as [-> ->] end. auto.
  Qed.

  Lemma first_loop_none vs s outs s' :
    consults f vs s outs s' -> (forall o, In o outs -> o = None) -> first_loop f vs s = (Ok None, s').
  Proof.
    induction 1 as [s|x r s v s' outs s'' Hx H IH]; intros Hn; [reflexivity|].
    simpl. unfold bind. rewrite Hx. rewrite (Hn v); [|now left]. apply IH. intros o Ho. apply Hn. now right.
  Qed.

  Lemma first_loop_stop pre s outs s1 x r :
    consults f pre s outs s1 -> (forall o, In o outs -> o = None) ->
    first_loop f (pre ++ x :: r) s = first_loop f (x :: r) s1.
  Proof.
    induction 1 as [s|y pre s v s' outs s'' Hy H IH]; intros Hn; [reflexivity|].
    simpl. unfold bind. rewrite Hy. rewrite (Hn v); [|now left]. apply IH. intros o Ho. apply Hn. now right.
  Qed.

  Lemma merge_loop_eq st vs : forall memo s outs s',
    consults f vs s outs s' ->
    merge_loop f st memo vs s =
      (Ok (match memo with
           | None => merge_fold st (found outs)
           | Some m => Some (fold_left (merge2 st) (found outs) m)
           end), s').
  Proof.
    induction vs as [|x vs IH]; intros memo s outs s' H; inversion H as [|? ? ? v s1 outs' ? Hx Hr]; subst.
    - destruct memo; reflexivity.
    - simpl. unfold bind. rewrite Hx. rewrite (IH _ _ _ _ Hr).
      destruct v as [v|]; [|reflexivity]. destruct memo; reflexivity.
  Qed.

  (** The final state of a merging lookup that consulted its variants. *)
  Definition merged_state (st : strategy) (n : nat) (o : option value) (s : S) : S :=
    if Nat.leb 2 n then leave st (rep_some o s) else s.
  Definition start_state (st : strategy) (n : nat) (s : S) : S :=
    if Nat.leb 2 n then enter st s else s.

  Lemma merge_lookup_merging st vs s outs s' :
    st <> SFirst ->
    consults f vs (start_state st (List.length vs) s) outs s' ->
    merge_lookup with_merge report f st vs s =
      (Ok (pure_lookup st outs), merged_state st (List.length vs) (pure_lookup st outs) s').
  Proof.
    intros Hst H. unfold merge_lookup, pure_lookup, merged_state, start_state in *.
    destruct vs as [|x [|y vs]].
    - inversion H; subst. destruct st; [congruence|..]; reflexivity.
    - simpl in H. inversion H as [|? ? ? v s1 outs' ? Hx Hr]; subst. inversion Hr; subst.
      destruct st; [congruence|..]; simpl; unfold bind; rewrite Hx; reflexivity.
    - simpl in H. simpl List.length. cbn [Nat.leb].
      assert (exists o1 o2 outs2, outs = o1 :: o2 :: outs2) as (o1 & o2 & outs2 & ->).
      { inversion H as [|? ? ? v s1 outs' ? Hx Hr]; subst. inversion Hr; subst. eauto. }
      destruct st; [congruence|..]; rewrite Hwm; unfold bind; rewrite (merge_loop_eq _ _ _ _ _ _ H);
        rewrite report_some_eq; reflexivity.
  Qed.

  (** The final state of a first-found lookup. *)
  Definition first_state (n : nat) (o : option value) (s : S) : S :=
    if Nat.leb 2 n then rep_some o s else s.

  Lemma merge_lookup_first_found pre x post s outs s1 v s2 :
    consults f pre s outs s1 -> (forall o, In o outs -> o = None) ->
    f x s1 = (Ok (Some v), s2) ->
    merge_lookup with_merge report f SFirst (pre ++ x :: post) s =
      (Ok (Some v), first_state (List.length (pre ++ x :: post)) (Some v) s2).
  Proof.
    intros H Hn Hx. unfold merge_lookup, first_state.
    assert (first_loop f (pre ++ x :: post) s = (Ok (Some v), s2)) as HL.
    { rewrite (first_loop_stop _ _ _ _ _ _ H Hn). simpl. unfold bind. now rewrite Hx. }
    remember (pre ++ x :: post) as vs. destruct vs as [|y [|z vs]].
    - destruct pre; discriminate.
    - destruct pre; simpl in Heqvs; [|destruct pre; discriminate].
      injection Heqvs as -> _. inversion H; subst. exact Hx.
    - unfold bind. rewrite HL. rewrite report_some_eq. reflexivity.
  Qed.

  Lemma merge_lookup_first_panic pre x post s outs s1 e s2 :
    consults f pre s outs s1 -> (forall o, In o outs -> o = None) ->
    f x s1 = (Panic e, s2) ->
    merge_lookup with_merge report f SFirst (pre ++ x :: post) s = (Panic e, s2).
  Proof.
    intros H Hn Hx. unfold merge_lookup.
    assert (first_loop f (pre ++ x :: post) s = (Panic e, s2)) as HL.
    { rewrite (first_loop_stop _ _ _ _ _ _ H Hn). simpl. unfold bind. now rewrite Hx. }
    remember (pre ++ x :: post) as vs. destruct vs as [|y [|z vs]].
    - destruct pre; discriminate.
    - destruct pre; simpl in Heqvs; [|destruct pre; discriminate].
      injection Heqvs as -> _. inversion H; subst. exact Hx.
    - unfold bind. rewrite HL. reflexivity.
  Qed.

  Lemma merge_lookup_first_none vs s outs s' :
    consults f vs s outs s' -> (forall o, In o outs -> o = None) ->
    merge_lookup with_merge report f SFirst vs s = (Ok None, s').
  Proof.
    intros H Hn. unfold merge_lookup. pose proof (first_loop_none _ _ _ _ H Hn) as HL.
    destruct vs as [|x [|y vs]].
    - inversion H; subst. reflexivity.
    - inversion H as [|? ? ? v s1 outs' ? Hx Hr]; subst. inversion Hr; subst. rewrite Hx.
      rewrite (Hn v); auto. now left.
    - unfold bind. rewrite HL. reflexivity.
  Qed.
End Hooks.

(** * Found values *)

Lemma found_app a b : found (a ++ b) = found a ++ found b.
Proof. induction a as [|[v|] a IH]; simpl; auto. now rewrite IH. Qed.

Lemma found_nil outs : found outs = [] <-> forall o, In o outs -> o = None.
Proof.
  induction outs as [|[v|] outs IH]; simpl.
  - split; auto. intros _ o [].
  - split; [discriminate|]. intros H. specialize (H (Some v) (or_introl eq_refl)). discriminate.
  - rewrite IH. split; intros H o; [intros [<-|Ho]; auto|auto].
Qed.

Lemma pure_lookup_none st outs : st <> SFirst ->
  (pure_lookup st outs = None <-> forall o, In o outs -> o = None).
Proof.
  intros Hst. rewrite <- found_nil. unfold pure_lookup.
  destruct outs as [|v [|w outs]].
  - destruct st; [congruence|..]; simpl; tauto.
  - destruct v as [v|]; destruct st; try congruence; simpl; try tauto; try (split; discriminate).
    destruct v; split; discriminate.
  - assert (merge_fold st (found (v :: w :: outs)) = None <-> found (v :: w :: outs) = []) as HM.
    { unfold merge_fold. destruct (found (v :: w :: outs)); split; congruence. }
    destruct st; [congruence|..]; exact HM.
Qed.

(** * Hash *)

Lemma hash_fold_scalar vs a : is_map a = false -> fold_left (merge2 SHash) vs a = a.
Proof.
  intros Ha. induction vs as [|v vs IH]; [reflexivity|]. simpl.
  destruct a; try discriminate; exact IH.
Qed.

Lemma hash_fold_maps vs : forall m, wfm m -> (forall x, In x (maps_of vs) -> wfm x) ->
  exists mr, fold_left (merge2 SHash) vs (VMap m) = VMap mr /\ wfm mr /\
             forall k, wf k = true -> mget k mr = first_with k (m :: maps_of vs).
Proof.
  induction vs as [|v vs IH]; intros m Wm Wv.
  - exists m. split; [reflexivity|]. split; auto. intros k Wk. simpl. now destruct (mget k m).
  - simpl. destruct v as [| | | | | |mv|]; simpl in Wv |- *; try (apply IH; auto; fail).
    assert (wfm mv) as Wmv by (apply Wv; now left).
    destruct (IH (mmerge mv m)) as (mr & E & Wr & Hr); [now apply mputall_wf|intros; apply Wv; now right|].
    exists mr. split; auto. split; auto. intros k Wk. rewrite Hr; auto. simpl.
    unfold mmerge. rewrite mget_mputall; auto. destruct (mget k m); auto.
Qed.

Lemma pure_hash outs : pure_lookup SHash outs = merge_fold SHash (found outs).
Proof. unfold pure_lookup. destruct outs as [|[v|] [|w outs]]; reflexivity. Qed.
Lemma pure_deep o outs : pure_lookup (SDeep o) outs = merge_fold (SDeep o) (found outs).
Proof. unfold pure_lookup. destruct outs as [|[v|] [|w outs]]; reflexivity. Qed.
Lemma pure_first outs : pure_lookup SFirst outs = hd_error (found outs).
Proof. induction outs as [|[v|] outs IH]; simpl in *; auto. Qed.

Lemma maps_of_wf vs : wfl vs -> forall x, In x (maps_of vs) -> wfm x.
Proof.
  induction 1 as [|v vs Hv W IH]; simpl; [contradiction|]. intros x Hx.
  destruct v; auto. destruct Hx as [<-|Hx]; auto.
Qed.

Arguments pure_lookup : simpl never.

(** * Unique *)

Definition flats (vs : list value) : list value := flat_map as_flat vs.

Lemma as_flat_wf v : wf v = true -> wfl (as_flat v).
Proof.
  intros W. destruct v; simpl; try (constructor; [exact W|constructor]).
  apply vflatten_wf. now apply wf_arr.
Qed.
Lemma flats_wf vs : wfl vs -> wfl (flats vs).
Proof. induction 1; simpl; [constructor|]. apply wfl_app. split; auto. now apply as_flat_wf. Qed.

Lemma as_flat_is_flat v : flat v (as_flat v).
Proof.
  destruct v; simpl; try (constructor; intros l' E; discriminate). constructor. apply vflatten_flat.
Qed.
Lemma as_flat_noarr v : Forall not_array (as_flat v).
Proof. apply (flat_not_array v), as_flat_is_flat. Qed.
Lemma flats_noarr vs : Forall not_array (flats vs).
Proof. induction vs; simpl; [constructor|]. apply Forall_app. auto using as_flat_noarr. Qed.

Lemma sub_noarr l r : (forall x, In x r -> In x l) -> Forall not_array l -> Forall not_array r.
Proof. rewrite !Forall_forall. auto. Qed.
Lemma vunique_noarr l : Forall not_array l -> Forall not_array (vunique l).
Proof. apply sub_noarr. apply vunique_in. Qed.

Lemma as_flat_arr l : Forall not_array l -> as_flat (VArr l) = l.
Proof. apply vflatten_noarr. Qed.

Lemma unique_fold vs : forall l, wfl l -> Forall not_array l -> wfl vs ->
  fold_left (merge2 SUnique) vs (VArr l) = VArr (match vs with [] => l | _ => vunique (l ++ flats vs) end).
Proof.
  induction vs as [|v vs IH]; intros l Wl Hl Wv; [reflexivity|].
  inversion Wv as [|? ? Wv0 Wvs]; subst.
  assert (wfl (l ++ as_flat v)) as W1 by (apply wfl_app; auto using as_flat_wf).
  cbn [fold_left]. unfold merge2 at 2. rewrite as_flat_arr; auto.
  rewrite IH; auto using vunique_wfl.
  - f_equal. simpl flats. destruct vs as [|v2 vs].
    + simpl. now rewrite app_nil_r.
    + rewrite vunique_app_l; auto using flats_wf. now rewrite <- app_assoc.
  - apply vunique_noarr. apply Forall_app. auto using as_flat_noarr.
Qed.

Lemma unique_two v w vs : wfl (v :: w :: vs) ->
  merge_fold SUnique (v :: w :: vs) = Some (VArr (vunique (flats (v :: w :: vs)))).
Proof.
  intros W. inversion W as [|? ? Wv Wr]; subst. unfold merge_fold.
  assert (convert_value SUnique v = VArr (as_flat v)) as -> by (destruct v; reflexivity).
  rewrite unique_fold; auto using as_flat_wf, as_flat_noarr.
Qed.

Lemma pure_unique_two outs v w vs : found outs = v :: w :: vs -> wfl (found outs) ->
  pure_lookup SUnique outs = Some (VArr (vunique (flats (found outs)))).
Proof.
  intros E W. unfold pure_lookup. destruct outs as [|o1 [|o2 outs]].
  - discriminate.
  - destruct o1; discriminate.
  - rewrite E in *. now apply unique_two.
Qed.

(** Whatever the number of values found, the result has the right elements. *)
Lemma pure_unique_any outs : wfl (found outs) -> found outs <> [] ->
  exists r, pure_lookup SUnique outs = Some r /\ wf r = true /\ vunique (as_flat r) = vunique (flats (found outs)).
Proof.
  intros W Hne. destruct (found outs) as [|v [|w vs]] eqn:E; [congruence| |].
  - inversion W as [|? ? Wv _]; subst. unfold flats. simpl. rewrite app_nil_r.
    destruct outs as [|o1 [|o2 outs]].
    + discriminate.
    + destruct o1 as [v'|]; [|discriminate]. simpl in E. injection E as ->. simpl.
      destruct v; try (eexists; split; [reflexivity|split; [exact Wv|reflexivity]]).
      eexists. split; [reflexivity|]. pose proof (vflatten_wf l (proj1 (wf_arr l) Wv)) as Wf.
      split; [now apply wf_arr, vunique_wfl|].
      rewrite as_flat_arr; [|apply vunique_noarr; apply (as_flat_noarr (VArr l))].
      simpl. now apply vunique_idem.
    + unfold pure_lookup. rewrite E. unfold merge_fold. cbn [fold_left].
      assert (convert_value SUnique v = VArr (as_flat v)) as -> by (destruct v; reflexivity).
      eexists. split; [reflexivity|]. split; [apply wf_arr; now apply as_flat_wf|].
      rewrite as_flat_arr; auto using as_flat_noarr.
  - exists (VArr (vunique (flats (v :: w :: vs)))). rewrite <- E in W |- *. split; [eapply pure_unique_two; eauto|].
    split; [apply wf_arr, vunique_wfl, flats_wf; auto|].
    rewrite as_flat_arr; [|apply vunique_noarr, flats_noarr]. apply vunique_idem. now apply flats_wf.
Qed.

(** * Grouping *)

Definition grouped (st : strategy) (groups : list (list (option value))) : option value :=
  pure_lookup st (map (pure_lookup st) groups).

Lemma grouping_first groups : grouped SFirst groups = pure_lookup SFirst (concat groups).
Proof.
  unfold grouped. rewrite !pure_first. induction groups as [|g groups IH]; [reflexivity|].
  cbn [map concat]. rewrite found_app. rewrite pure_first. destruct (found g) as [|v vs].
  - exact IH.
  - reflexivity.
Qed.

Lemma flats_app a b : flats (a ++ b) = flats a ++ flats b.
Proof. apply flat_map_app. Qed.

Lemma found_groups_unique groups : wfl (found (concat groups)) ->
  wfl (found (map (pure_lookup SUnique) groups)) /\
  vunique (flats (found (map (pure_lookup SUnique) groups))) = vunique (flats (found (concat groups))).
Proof.
  induction groups as [|g groups IH]; intros W; [split; [constructor|reflexivity]|].
  simpl in *. rewrite found_app in *. apply wfl_app in W. destruct W as [Wg Wr]. specialize (IH Wr). destruct IH as [IHw IHe].
  destruct (found g) as [|v vs] eqn:E.
  - assert (pure_lookup SUnique g = None) as EN by (apply pure_lookup_none; [discriminate|now apply found_nil]).
    rewrite EN. simpl. auto.
  - destruct (pure_unique_any g) as (r & Er & Wr' & Hr); [now rewrite E|now rewrite E|].
    rewrite Er. cbn [found]. split; [constructor; auto|].
    rewrite flats_app. simpl flats at 1. rewrite <- E in *.
    rewrite <- (vunique_app_l (as_flat r)), <- (vunique_app_r (vunique (as_flat r)) (flats _)); auto using as_flat_wf, flats_wf, vunique_wfl.
    rewrite Hr, IHe. rewrite vunique_app_r, vunique_app_l; auto using flats_wf, vunique_wfl.
Qed.

Lemma grouping_unique groups v w vs : found (concat groups) = v :: w :: vs -> wfl (found (concat groups)) ->
  grouped SUnique groups = pure_lookup SUnique (concat groups).
Proof.
  intros E W. rewrite (pure_unique_two _ _ _ _ E W). unfold grouped.
  destruct (found_groups_unique groups W) as [Wg Hg].
  destruct (found (map (pure_lookup SUnique) groups)) as [|r1 [|r2 rs]] eqn:F.
  - exfalso. assert (found (concat groups) = []) as EN; [|congruence].
    clear -F. induction groups as [|g groups IH]; [reflexivity|]. simpl in *. rewrite found_app.
    destruct (pure_lookup SUnique g) eqn:Eg; [discriminate|].
    rewrite pure_lookup_none in Eg by discriminate. apply found_nil in Eg. rewrite Eg. auto.
  - (* all the values are in one group *)
    assert (exists l, r1 = VArr (vunique l) /\ Forall not_array l /\ wfl l) as (l & -> & Hl & Wl).
    { clear -E F W. induction groups as [|g groups IH]; [discriminate|]. simpl in *. rewrite found_app in *.
      destruct (pure_lookup SUnique g) as [r|] eqn:Eg; simpl in F.
      - injection F as -> F.
        assert (found (concat groups) = []) as EN.
        { clear -F. induction groups as [|g groups IH]; [reflexivity|]. simpl in *. rewrite found_app.
          destruct (pure_lookup SUnique g) eqn:Eg; [discriminate|].
          rewrite pure_lookup_none in Eg by discriminate. apply found_nil in Eg. rewrite Eg. auto. }
        rewrite EN, app_nil_r in *. rewrite (pure_unique_two _ _ _ _ E W) in Eg. injection Eg as <-.
        exists (flats (found g)). auto using flats_noarr, flats_wf.
      - rewrite pure_lookup_none in Eg by discriminate. apply found_nil in Eg. rewrite Eg in *. auto. }
    rewrite <- Hg. simpl flats. rewrite app_nil_r.
    rewrite vflatten_noarr by now apply vunique_noarr. rewrite vunique_idem by auto.
    unfold pure_lookup at 1.
    remember (map (pure_lookup SUnique) groups) as outs. destruct outs as [|o1 [|o2 outs]].
    + discriminate.
    + destruct o1 as [o|]; simpl in F; [|discriminate]. injection F as ->. simpl.
      rewrite vflatten_noarr by now apply vunique_noarr. now rewrite vunique_idem.
    + rewrite F. unfold merge_fold. simpl. now rewrite vflatten_noarr by now apply vunique_noarr.
  - rewrite <- F in *. rewrite (pure_unique_two _ r1 r2 rs F); auto. now rewrite Hg.
Qed.

Lemma hash_step a b : is_map a = true -> is_map b = true -> wf a = true -> wf b = true ->
  is_map (merge2 SHash a b) = true /\ wf (merge2 SHash a b) = true.
Proof. destruct a, b; try discriminate. intros _ _ Wa Wb. simpl. split; auto. now apply mputall_wf. Qed.

Definition all_maps (vs : list value) : Prop := Forall (fun v => is_map v = true /\ wf v = true) vs.

Lemma hash_fold_ok vs : forall a, is_map a = true -> wf a = true -> all_maps vs ->
  is_map (fold_left (merge2 SHash) vs a) = true /\ wf (fold_left (merge2 SHash) vs a) = true.
Proof.
  induction vs as [|v vs IH]; intros a Ha Wa H; [auto|]. inversion H as [|? ? [Hv Wv] Hr]; subst. simpl.
  destruct (hash_step a v); auto.
Qed.

Lemma hash_assoc a b c : all_maps [a; b; c] ->
  merge2 SHash (merge2 SHash a b) c = merge2 SHash a (merge2 SHash b c).
Proof.
  intros H. inversion H as [|? ? [Ha Wa] H2]; subst. inversion H2 as [|? ? [Hb Wb] H3]; subst.
  inversion H3 as [|? ? [Hc Wc] _]; subst. destruct a, b, c; try discriminate. simpl. f_equal.
  now apply mmerge_assoc.
Qed.

Lemma hash_fold_assoc vs : forall a v, all_maps (a :: v :: vs) ->
  fold_left (merge2 SHash) (v :: vs) a = merge2 SHash a (fold_left (merge2 SHash) vs v).
Proof.
  induction vs as [|w vs IH]; intros a v H; [reflexivity|].
  inversion H as [|? ? Ha H2]; subst. inversion H2 as [|? ? Hv H3]; subst. inversion H3 as [|? ? Hw H4]; subst.
  change (fold_left (merge2 SHash) (v :: w :: vs) a) with (fold_left (merge2 SHash) (w :: vs) (merge2 SHash a v)).
  destruct (hash_step a v) as [? ?]; try tauto.
  rewrite IH; [|constructor; auto].
  change (fold_left (merge2 SHash) (w :: vs) v) with (fold_left (merge2 SHash) vs (merge2 SHash v w)).
  change (fold_left (merge2 SHash) vs (merge2 SHash v w)) with (fold_left (merge2 SHash) (w :: vs) v).
  rewrite (IH v w) by auto.
  apply hash_assoc. repeat constructor; try tauto.
  - apply hash_fold_ok; try tauto.
  - apply hash_fold_ok; try tauto.
Qed.

(** Grouping for an associative binary merge. *)
Section Assoc.
  Variable st : strategy.
  Variable good : list value -> Prop.
  Hypothesis Hconv : forall v, convert_value st v = v.
  Hypothesis Hpure : forall outs, pure_lookup st outs = merge_fold st (found outs).
  Hypothesis good_app : forall a b, good (a ++ b) -> good a /\ good b.
  (** A prefix can be replaced by its merge. *)
  Hypothesis good_merge : forall v vs rest, good ((v :: vs) ++ rest) -> good (fold_left (merge2 st) vs v :: rest).
  Hypothesis assoc : forall a v vs, good (a :: v :: vs) ->
    fold_left (merge2 st) (v :: vs) a = merge2 st a (fold_left (merge2 st) vs v).

  Lemma grouping_assoc groups : good (found (concat groups)) ->
    grouped st groups = pure_lookup st (concat groups).
  Proof.
    unfold grouped. rewrite !Hpure.
    assert (forall acc, good (acc :: found (concat groups)) ->
              fold_left (merge2 st) (found (map (pure_lookup st) groups)) acc =
              fold_left (merge2 st) (found (concat groups)) acc) as HA.
    { induction groups as [|g groups IH]; intros acc H; [reflexivity|].
      simpl in *. rewrite found_app in *. rewrite fold_left_app. rewrite Hpure.
      destruct (found g) as [|v vs] eqn:E.
      - simpl. auto.
      - cbn [merge_fold]. rewrite Hconv. cbn [found fold_left].
        assert (good (acc :: v :: vs)) as Hg.
        { apply (good_app (acc :: v :: vs) (found (concat groups))). exact H. }
        rewrite <- assoc by exact Hg. apply IH.
        change (good (fold_left (merge2 st) (v :: vs) acc :: found (concat groups))).
        apply good_merge. exact H. }
    induction groups as [|g groups IH]; intros H; [reflexivity|].
    simpl in *. rewrite found_app in *. rewrite Hpure.
    destruct (found g) as [|v vs] eqn:E.
    - simpl. apply IH; auto. intros acc Hacc. specialize (HA acc). simpl in HA. rewrite Hpure, E in HA. simpl in HA. auto.
    - cbn [merge_fold]. rewrite Hconv. cbn [found merge_fold app]. rewrite !Hconv. f_equal.
      rewrite fold_left_app.
      assert (forall acc, good (acc :: found (concat groups)) ->
              fold_left (merge2 st) (found (map (pure_lookup st) groups)) acc =
              fold_left (merge2 st) (found (concat groups)) acc) as HB.
      { clear IH HA H. intros acc. revert acc. induction groups as [|g2 groups IH]; intros acc H; [reflexivity|].
        simpl in *. rewrite found_app in *. rewrite fold_left_app. rewrite Hpure.
        destruct (found g2) as [|v2 vs2] eqn:E2.
        - simpl. auto.
        - cbn [merge_fold]. rewrite Hconv. cbn [found fold_left].
          assert (good (acc :: v2 :: vs2)) as Hg.
          { apply (good_app (acc :: v2 :: vs2) (found (concat groups))). exact H. }
          rewrite <- assoc by exact Hg. apply IH.
          change (good (fold_left (merge2 st) (v2 :: vs2) acc :: found (concat groups))).
          apply good_merge. exact H. }
      apply HB. apply good_merge. exact H.
  Qed.
End Assoc.

Lemma all_maps_app a b : all_maps (a ++ b) <-> all_maps a /\ all_maps b.
Proof. apply Forall_app. Qed.

Lemma grouping_hash groups : all_maps (found (concat groups)) ->
  grouped SHash groups = pure_lookup SHash (concat groups).
Proof.
  apply (grouping_assoc SHash all_maps).
  - reflexivity.
  - apply pure_hash.
  - intros a b H. now apply all_maps_app in H.
  - intros v vs rest H. apply all_maps_app in H. destruct H as [H1 H2]. inversion H1 as [|? ? [Hv Wv] Hr]; subst.
    constructor; auto. now apply hash_fold_ok.
  - intros a v vs H. now apply hash_fold_assoc.
Qed.

(** Deep merge of agreeing values. *)
Definition agreeing (vs : list value) : Prop := wfl vs /\ ForallOrdPairs agree vs.

Lemma deep_merge2 o a b : wf a = true -> wf b = true -> merge2 (SDeep o) a b = raw a b.
Proof. intros Wa Wb. simpl. unfold Deep. now rewrite deep_raw. Qed.

Lemma agreeing_cons a vs : agreeing (a :: vs) <-> wf a = true /\ (forall v, In v vs -> agree a v) /\ agreeing vs.
Proof.
  unfold agreeing, wfl. split.
  - intros [W H]. inversion W; inversion H; subst. rewrite Forall_forall in *. auto.
  - intros (Wa & Ha & W & H). split; constructor; auto. now apply Forall_forall.
Qed.

Lemma deep_fold_ok o vs : forall a, agreeing (a :: vs) ->
  wf (fold_left (merge2 (SDeep o)) vs a) = true /\
  (forall x, wf x = true -> (forall v, In v (a :: vs) -> agree x v) -> agree x (fold_left (merge2 (SDeep o)) vs a)).
Proof.
  induction vs as [|v vs IH]; intros a H.
  - apply agreeing_cons in H. simpl. split; [tauto|]. intros x _ Hx. apply Hx. now left.
  - apply agreeing_cons in H. destruct H as (Wa & Ha & Hv). apply agreeing_cons in Hv. destruct Hv as (Wv & Hvv & Hvs).
    cbn [fold_left]. rewrite deep_merge2 by auto.
    assert (forall w, In w vs -> wf w = true) as Wvs by (destruct Hvs as [W _]; unfold wfl in W; now rewrite Forall_forall in W).
    destruct (IH (raw a v)) as [H1 H2].
    { apply agreeing_cons. split; [now apply raw_wf|]. split; auto.
      intros w Hw. apply agree_raw_l; auto. apply Ha. now right. }
    split; auto. intros x Wx Hx. apply H2; auto. intros w [<-|Hw].
    + apply agree_raw_r; auto; apply Hx; simpl; auto.
    + apply Hx. simpl. auto.
Qed.

Lemma deep_fold_assoc o vs : forall a v, agreeing (a :: v :: vs) ->
  fold_left (merge2 (SDeep o)) (v :: vs) a = merge2 (SDeep o) a (fold_left (merge2 (SDeep o)) vs v).
Proof.
  induction vs as [|w vs IH]; intros a v H; [reflexivity|].
  pose proof H as H'. apply agreeing_cons in H. destruct H as (Wa & Ha & Hv).
  pose proof Hv as Hv'. apply agreeing_cons in Hv'. destruct Hv' as (Wv & Hvv & Hw).
  pose proof Hw as Hw'. apply agreeing_cons in Hw'. destruct Hw' as (Ww & Hww & Hvs).
  assert (forall x, In x vs -> wf x = true) as Wvs by (destruct Hvs as [W _]; unfold wfl in W; now rewrite Forall_forall in W).
  change (fold_left (merge2 (SDeep o)) (v :: w :: vs) a) with (fold_left (merge2 (SDeep o)) (w :: vs) (merge2 (SDeep o) a v)).
  rewrite IH.
  2: { apply agreeing_cons. rewrite deep_merge2 by auto. split; [now apply raw_wf|]. split; auto.
       intros x Hx. apply agree_raw_l; auto.
       - destruct Hx as [<-|Hx]; auto.
       - apply Ha. now right. }
  change (fold_left (merge2 (SDeep o)) (w :: vs) v) with (fold_left (merge2 (SDeep o)) (w :: vs) v).
  rewrite (IH v w) by auto.
  destruct (deep_fold_ok o vs w Hw) as [WF HF].
  rewrite (deep_merge2 o a v), (deep_merge2 o v), !deep_merge2; auto using raw_wf.
  apply raw_assoc; auto.
  - apply Ha. now left.
  - apply HF; auto. intros x Hx. apply Ha. now right.
Qed.

Lemma grouping_deep o groups : agreeing (found (concat groups)) ->
  grouped (SDeep o) groups = pure_lookup (SDeep o) (concat groups).
Proof.
  apply (grouping_assoc (SDeep o) agreeing).
  - reflexivity.
  - apply pure_deep.
  - intros a b [W H]. apply wfl_app in W. split; split; try tauto.
    + induction a as [|x a IH]; [constructor|]. simpl in H. inversion H as [|? ? H1 H2]; subst.
      destruct W as [Wa Wb]. inversion Wa; subst.
      constructor; [|now apply IH]. rewrite Forall_forall in *. intros y Hy. apply H1. apply in_or_app. auto.
    + induction a as [|x a IH]; [exact H|]. simpl in H. inversion H; subst. apply IH; auto.
      destruct W as [Wa Wb]. inversion Wa; auto.
  - intros v vs rest H.
    assert (agreeing (v :: vs)) as Hv.
    { destruct H as [W H]. apply wfl_app in W. split; [tauto|]. clear W. revert H. generalize (v :: vs) as l.
      induction l as [|x a IH]; intros H; [constructor|]. simpl in H. inversion H as [|? ? H1 H2]; subst.
      constructor; [|now apply IH]. rewrite Forall_forall in *. intros y Hy. apply H1. apply in_or_app. auto. }
    assert (agreeing rest /\ forall r x, In r rest -> In x (v :: vs) -> agree x r) as [Hr Hx].
    { destruct H as [W H]. apply wfl_app in W. destruct W as [_ W]. revert H. generalize (v :: vs) as l.
      induction l as [|x a IH]; intros H.
      - split; [split; auto|]. intros r x _ [].
      - simpl in H. inversion H as [|? ? H1 H2]; subst. destruct (IH H2) as [I1 I2]. split; auto.
        intros r y Hr [<-|Hy]; [|auto]. rewrite Forall_forall in H1. apply H1. apply in_or_app. auto. }
    destruct (deep_fold_ok o vs v Hv) as [W F]. apply agreeing_cons. split; auto. split; auto.
    intros r Hr'. apply agree_sym. apply F.
    + destruct Hr as [Wr _]. unfold wfl in Wr. rewrite Forall_forall in Wr. auto.
    + intros x Hx'. apply agree_sym. auto.
  - intros a v vs H. now apply deep_fold_assoc.
Qed.
