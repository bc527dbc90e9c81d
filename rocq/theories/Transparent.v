(** Explaining a lookup does not change it, and leaves the explainer where it
    was. *)

From Coq Require Import String List ZArith Bool Arith Lia.
From Verif Require Import Str Value Outcome Key Merge Fpath Config Ipl Explain State Engine Meta Session SpecExplain.
Import ListNotations.
Open Scope bool_scope.

(** ** The place of the explainer *)

Lemma grows_refl : forall f, grows f f.
Proof. intros f. split; exists []; rewrite app_nil_r; reflexivity. Qed.

Lemma grows_trans : forall f g h, grows f g -> grows g h -> grows f h.
Proof.
  intros f g h [[a A] [b B]] [[c C] [d D]]. split.
  - exists (a ++ c)%list. rewrite C, A, app_assoc. reflexivity.
  - exists (b ++ d)%list. rewrite D, B, app_assoc. reflexivity.
Qed.

Lemma grows_report : forall r f, grows f (report_frame r f).
Proof.
  intros r f. destruct r; split; simpl; try (exists []; rewrite app_nil_r; reflexivity); eauto.
Qed.

Lemma grows_branch : forall n f, grows f (add_branch n f).
Proof. intros n f. split; simpl; [ eauto | exists []; rewrite app_nil_r; reflexivity ]. Qed.

Lemma same_place_refl : forall x, same_place x x.
Proof.
  intros x. unfold same_place. repeat split.
  destruct (x_open x) as [|[k f] r]; (split; [ reflexivity | ]); [ apply grows_refl | ].
  exists f. split; [ reflexivity | apply grows_refl ].
Qed.

Lemma same_place_trans : forall x y z, same_place x y -> same_place y z -> same_place x z.
Proof.
  unfold same_place. intros x y z (A1 & A2 & A3 & A4) (B1 & B2 & B3 & B4).
  split; [ congruence | split; [ congruence | split; [ congruence | ] ] ].
  destruct (x_open x) as [|[k f] r].
  - destruct A4 as [A4 A5]. rewrite A4 in B4. destruct B4 as [B4 B5].
    split; [ exact B4 | exact (grows_trans _ _ _ A5 B5) ].
  - destruct A4 as (A4 & f' & A5 & A6). rewrite A5 in B4. destruct B4 as (B4 & f'' & B5 & B6).
    split; [ congruence | ]. exists f''. split; [ exact B5 | exact (grows_trans _ _ _ A6 B6) ].
Qed.

Lemma accept_place : forall r x y, xaccept r x = Some y -> same_place x y.
Proof.
  unfold xaccept. intros r x y H. destruct (x_nil x) eqn:En; [ discriminate | ].
  injection H as <-. destruct x as [o l rt op n]; simpl in *. subst n.
  destruct op as [|[k f] op]; unfold same_place; simpl;
    (split; [ reflexivity | split; [ reflexivity | split; [ reflexivity | ] ] ]); (split; [ reflexivity | ]).
  - apply grows_report.
  - eexists. split; [ reflexivity | apply grows_report ].
Qed.

(** Pushing a node, staying in place, and popping it, stays in place. *)
Lemma push_pop_place : forall k i x y z,
    xpush k i x = Some y -> same_place y z -> same_place x (xpop z).
Proof.
  unfold xpush. intros k i x y z H S. destruct (x_nil x) eqn:En; [ discriminate | ].
  injection H as <-. unfold same_place in S; simpl in S. destruct S as (S1 & S2 & S3 & S4 & f' & S5 & _).
  unfold same_place, xpop. rewrite S5.
  destruct (x_open x) as [|[k0 f0] r]; simpl;
    (split; [ congruence | split; [ congruence | split; [ congruence | ] ] ]).
  - split; [ reflexivity | ]. rewrite S4. apply grows_branch.
  - split; [ exact S4 | ]. eexists. split; [ reflexivity | apply grows_branch ].
Qed.

(** ** Same run without the explainer *)

(** The state without the ivContext and the explainer. *)
Definition strip (s : st) : st :=
  with_ex (new_explainer false false) (with_iv (new_iv (ScMap []) false) s).

Definition sim (s s' : st) : Prop :=
  strip s = strip s' /\ s_iv s' = iv_with_expl false (s_iv s).

Definition is_ok {A} (o : outcome A) : Prop := match o with Ok _ => True | _ => False end.

Definition sim_run : rel := fun A m m' =>
  forall s s', sim s s' -> x_nil (s_ex s) = false ->
  fst (m s) = fst (m' s') /\
  strip (snd (m s)) = strip (snd (m' s')) /\
  (is_ok (fst (m s)) ->
     s_iv (snd (m' s')) = iv_with_expl false (s_iv (snd (m s))) /\
     iv_expl (s_iv (snd (m s))) = iv_expl (s_iv s)) /\
  same_place (s_ex s) (s_ex (snd (m s))).

Lemma strip_fields : forall s s', strip s = strip s' ->
  s_configs s = s_configs s' /\ s_shared s = s_shared s' /\ s_tpc s = s_tpc s' /\ s_mods s = s_mods s' /\
  s_provs s = s_provs s' /\ s_next s = s_next s' /\ s_trace s = s_trace s'.
Proof.
  unfold strip, with_ex, with_iv; simpl. intros s s' H. injection H. intros. repeat split; assumption.
Qed.

Lemma fields_strip : forall s s',
  s_configs s = s_configs s' -> s_shared s = s_shared s' -> s_tpc s = s_tpc s' -> s_mods s = s_mods s' ->
  s_provs s = s_provs s' -> s_next s = s_next s' -> s_trace s = s_trace s' -> strip s = strip s'.
Proof. unfold strip, with_ex, with_iv; simpl. intros. congruence. Qed.

Lemma strip_with_iv : forall i s, strip (with_iv i s) = strip s.
Proof. reflexivity. Qed.
Lemma strip_with_ex : forall x s, strip (with_ex x s) = strip s.
Proof. reflexivity. Qed.
Lemma strip_with_configs : forall c s, strip (with_configs c s) = with_configs c (strip s).
Proof. reflexivity. Qed.
Lemma strip_with_prov : forall s s' id p, strip s = strip s' -> strip (with_prov id p s) = strip (with_prov id p s').
Proof.
  intros [] [] id p H. unfold strip, with_ex, with_iv in H; simpl in H. injection H; intros; subst. reflexivity.
Qed.

Lemma expl_false_idem : forall i, iv_with_expl false (iv_with_expl false i) = iv_with_expl false i.
Proof. reflexivity. Qed.

Lemma iv_fields : forall i i', i' = iv_with_expl false i ->
  iv_scope i' = iv_scope i /\ iv_luopts i' = iv_luopts i /\ iv_strat i' = iv_strat i /\ iv_mode i' = iv_mode i /\
  iv_redacted i' = iv_redacted i /\ iv_expl i' = false.
Proof. intros i i' ->. repeat split. Qed.

(** A run in a changed copy on both sides. *)
Lemma sim_copy : forall A (f f' : iv -> iv) (m m' : M st A),
    sim_run A m m' ->
    (forall i, f' (iv_with_expl false i) = iv_with_expl false (f i)) ->
    sim_run A (with_copy f m) (with_copy f' m').
Proof.
  intros A f f' m m' Hm Hf s s' [H1 H2] Hn. unfold with_copy.
  specialize (Hm (with_iv (f (s_iv s)) s) (with_iv (f' (s_iv s')) s')).
  destruct (m _) as [o t]. destruct (m' _) as [o' t']. simpl in Hm.
  destruct Hm as (M1 & M2 & M3 & M4).
  - split; [ exact H1 | ]. simpl. rewrite H2. apply Hf.
  - exact Hn.
  - simpl. split; [ exact M1 | split; [ exact M2 | split; [ | exact M4 ] ] ].
    intros _. split; [ exact H2 | reflexivity ].
Qed.

Lemma sim_op : forall A (o : op A), sim_run A (run_op o) (run_op o).
Proof.
  intros A o s s' [H1 H2] Hn.
  destruct s as [i x c sh tp mo pr nx tr]. destruct s' as [i' x' c' sh' tp' mo' pr' nx' tr'].
  unfold strip, with_ex, with_iv in H1; simpl in H1, H2, Hn. injection H1; intros; subst. clear H1.
  destruct o; unfold run_op; simpl;
    try (split; [ reflexivity | split; [ reflexivity | split; [ intros _; split; reflexivity | apply same_place_refl ] ] ]).
  destruct (iv_expl i) eqn:Ee.
  - destruct (xaccept r x) as [y|] eqn:Ex.
    + split; [ reflexivity | split; [ reflexivity | split; [ intros _; split; [ reflexivity | exact Ee ] | ] ] ].
      exact (accept_place _ _ _ Ex).
    + unfold xaccept in Ex. rewrite Hn in Ex. discriminate.
  - split; [ reflexivity | split; [ reflexivity | split; [ intros _; split; [ reflexivity | exact Ee ] | ] ] ].
    apply same_place_refl.
Qed.

Lemma sim_bind : forall A B (m m' : M st A) (f f' : A -> M st B),
    sim_run A m m' -> (forall a, sim_run B (f a) (f' a)) -> sim_run B (bind m f) (bind m' f').
Proof.
  intros A B m m' f f' Hm Hf s s' H Hn. specialize (Hm s s' H Hn). unfold bind.
  destruct (m s) as [o t]. destruct (m' s') as [o' t']. simpl in Hm.
  destruct Hm as (M1 & M2 & M3 & M4). subst o'.
  destruct o as [a|e| |]; simpl;
    [ | repeat split; try assumption; try contradiction; apply M4 .. ].
  destruct (M3 I) as [M5 M6].
  assert (Hn' : x_nil (s_ex t) = false) by (destruct M4 as (_ & _ & -> & _); exact Hn).
  specialize (Hf a t t' (conj M2 M5) Hn').
  destruct (f a t) as [o u]. destruct (f' a t') as [o' u']. simpl in *.
  destruct Hf as (N1 & N2 & N3 & N4).
  split; [ exact N1 | split; [ exact N2 | split ] ].
  - intro Ho. destruct (N3 Ho) as [N5 N6]. split; [ exact N5 | congruence ].
  - exact (same_place_trans _ _ _ M4 N4).
Qed.

Lemma sim_node : forall A k i (m m' : M st A), sim_run A m m' ->
    sim_run A (run_scoped (SNode k i) m) (run_scoped (SNode k i) m').
Proof.
  intros A k i m m' Hm s s' H Hn. unfold run_scoped.
  pose proof (iv_fields _ _ (proj2 H)) as (I1 & I2 & I3 & I4 & I5 & I6). rewrite I6.
  destruct (iv_expl (s_iv s)) eqn:Ee; [ | pose proof (Hm s s' H Hn) as X; rewrite Ee in X; exact X ].
  destruct (xpush k i (s_ex s)) as [x|] eqn:Ex.
  2: unfold xpush in Ex; rewrite Hn in Ex; discriminate.
  specialize (Hm (with_ex x s) s').
  destruct (m (with_ex x s)) as [o t]. destruct (m' s') as [o' t']. simpl in *.
  destruct Hm as (M1 & M2 & M3 & M4).
  - exact H.
  - unfold xpush in Ex. rewrite Hn in Ex. injection Ex as <-. reflexivity.
  - split; [ exact M1 | split; [ exact M2 | split ] ].
    + rewrite Ee in M3. exact M3.
    + exact (push_pop_place _ _ _ _ _ Ex M4).
Qed.

Lemma sim_scope : forall A sc (m m' : M st A), sim_run A m m' ->
    sim_run A (run_scoped (SScope sc) m) (run_scoped (SScope sc) m').
Proof.
  intros A sc m m' Hm s s' H Hn. unfold run_scoped.
  specialize (Hm (with_iv (iv_with_scope sc (s_iv s)) s) (with_iv (iv_with_scope sc (s_iv s')) s')).
  destruct (m _) as [o t]. destruct (m' _) as [o' t']. simpl in Hm.
  destruct Hm as (M1 & M2 & M3 & M4).
  - split; [ exact (proj1 H) | ]. simpl. rewrite (proj2 H). reflexivity.
  - exact Hn.
  - subst o'. destruct o as [a|e| |]; simpl.
    + destruct (M3 I) as [M5 M6].
      split; [ reflexivity | split; [ exact M2 | split; [ intros _; split | exact M4 ] ] ].
      * rewrite M5, (proj2 H). reflexivity.
      * exact M6.
    + repeat split; try assumption; try contradiction; apply M4.
    + repeat split; try assumption; try contradiction; apply M4.
    + repeat split; try assumption; try contradiction; apply M4.
Qed.

Lemma sim_redacted : forall A (m m' : M st A), sim_run A m m' ->
    sim_run A (run_scoped SRedacted m) (run_scoped SRedacted m').
Proof.
  intros A m m' Hm s s' H Hn. unfold run_scoped.
  pose proof (iv_fields _ _ (proj2 H)) as (I1 & I2 & I3 & I4 & I5 & I6). rewrite I5.
  destruct (iv_redacted (s_iv s)); [ exact (Hm s s' H Hn) | ].
  specialize (Hm (with_iv (iv_with_redacted true (s_iv s)) s) (with_iv (iv_with_redacted true (s_iv s')) s')).
  destruct (m _) as [o t]. destruct (m' _) as [o' t']. simpl in *.
  destruct Hm as (M1 & M2 & M3 & M4).
  - split; [ exact (proj1 H) | ]. simpl. rewrite (proj2 H). reflexivity.
  - exact Hn.
  - split; [ exact M1 | split; [ exact M2 | split; [ | exact M4 ] ] ].
    intro Ho. destruct (M3 Ho) as [M5 M6]. split; [ rewrite M5; reflexivity | exact M6 ].
Qed.

Lemma sim_locked : forall A id (m m' : M st A), sim_run A m m' ->
    sim_run A (run_scoped (SLocked id) m) (run_scoped (SLocked id) m').
Proof.
  intros A id m m' Hm s s' H Hn. unfold run_scoped.
  pose proof (strip_fields _ _ (proj1 H)) as (F1 & F2 & F3 & F4 & F5 & F6 & F7). rewrite <- F5.
  destruct (ps_locked (s_provs s id)) eqn:El.
  - simpl. split; [ reflexivity | split; [ exact (proj1 H) | split; [ contradiction | apply same_place_refl ] ] ].
  - specialize (Hm (with_prov id (mk_pstate (ps_fn (s_provs s id)) (ps_hashes (s_provs s id)) true) s)
                   (with_prov id (mk_pstate (ps_fn (s_provs s id)) (ps_hashes (s_provs s id)) true) s')).
    destruct (m _) as [o t]. destruct (m' _) as [o' t'].
    cbn [fst snd] in *.
    destruct Hm as (M1 & M2 & M3 & M4).
    + split; [ apply strip_with_prov; exact (proj1 H) | exact (proj2 H) ].
    + exact Hn.
    + split; [ exact M1 | split; [ | split; [ exact M3 | exact M4 ] ] ].
      pose proof (strip_fields _ _ M2) as (G1 & G2 & G3 & G4 & G5 & G6 & G7). rewrite G5.
      apply strip_with_prov. exact M2.
Qed.

Lemma sim_run_full : full sim_run.
Proof.
  constructor.
  - intros A o s s' H Hn. simpl. split; [ reflexivity | split; [ exact (proj1 H) | split; [ | apply same_place_refl ] ] ].
    intros _. split; [ exact (proj2 H) | reflexivity ].
  - exact sim_bind.
  - exact sim_op.
  - intros A sc m m' Hsc Hm. destruct sc.
    + apply sim_node. exact Hm.
    + intros s s' H Hn. unfold run_scoped.
      pose proof (iv_fields _ _ (proj2 H)) as (I1 & I2 & I3 & I4 & I5 & I6). rewrite I4.
      destruct (iv_mode (s_iv s)); [ .. | exact (Hm s s' H Hn) ];
        (refine (sim_copy A _ _ m m' Hm _ s s' H Hn); reflexivity).
    + intros s s' H Hn. unfold run_scoped.
      pose proof (iv_fields _ _ (proj2 H)) as (I1 & I2 & I3 & I4 & I5 & I6). rewrite I4.
      destruct (iv_mode (s_iv s)); [ | exact (Hm s s' H Hn) | ];
        (refine (sim_copy A _ _ m m' Hm _ s s' H Hn); reflexivity).
    + contradiction Hsc. reflexivity.
    + apply sim_scope. exact Hm.
    + apply sim_redacted. exact Hm.
    + apply sim_locked. exact Hm.
  - intros A m m' Hq Hq' Hm s s' H Hn. unfold run_scoped.
    pose proof (iv_fields _ _ (proj2 H)) as (I1 & I2 & I3 & I4 & I5 & I6). rewrite I6.
    destruct (iv_expl (s_iv s)) eqn:Ee; [ | pose proof (Hm s s' H Hn) as X; rewrite Ee in X; exact X ].
    unfold with_copy.
    specialize (Hm (with_iv (iv_with_expl false (s_iv s)) s) s').
    destruct (m _) as [o t] eqn:Em. destruct (m' _) as [o' t'] eqn:Em'. simpl in *.
    destruct Hm as (M1 & M2 & M3 & M4).
    + split; [ exact (proj1 H) | rewrite (proj2 H); reflexivity ].
    + exact Hn.
    + split; [ exact M1 | split; [ exact M2 | split; [ | exact M4 ] ] ].
      intro Ho. destruct o' as [a| | |]; subst o; try contradiction.
      rewrite (Hq' _ _ _ Em'). split; [ exact (proj2 H) | exact Ee ].
Qed.

(** The whole engine. *)
Lemma sim_engine : forall w n r, sim_run _ (run w n r) (run w n r).
Proof. intros w n r. apply (c_run w). apply full_closed. exact sim_run_full. Qed.

(** Serving requests in states that differ in the explainer only. *)
Lemma sim_serve : forall w n rs s s',
    strip s = strip s' -> x_nil (s_ex s) = false ->
    fst (serve w n true rs s) = fst (serve w n false rs s') /\
    strip (snd (serve w n true rs s)) = strip (snd (serve w n false rs s')) /\
    same_place (s_ex s) (s_ex (snd (serve w n true rs s))).
Proof.
  intros w n rs. induction rs as [|r rs IH]; intros s s' H Hn.
  - simpl. split; [ reflexivity | split; [ exact H | apply same_place_refl ] ].
  - cbn [serve].
    assert (H0 : sim (invocation (q_scope r) true s) (invocation (q_scope r) false s')).
    { split; [ | reflexivity ]. unfold invocation. rewrite !strip_with_configs. rewrite !strip_with_iv, H. reflexivity. }
    pose proof (sim_bind _ _ _ _ _ _ (sim_engine w n (RLookup (q_key r) (q_opts r)))
                         (fun x => f_lift _ sim_run_full _ (Ok (fst x))) _ _ H0 Hn) as X.
    change (bind (run w n (RLookup (q_key r) (q_opts r))) (fun x => lift (Ok (fst x))))
      with (run_lookup w n (q_key r) (q_opts r)) in X.
    destruct (run_lookup w n (q_key r) (q_opts r) (invocation (q_scope r) true s)) as [o t].
    destruct (run_lookup w n (q_key r) (q_opts r) (invocation (q_scope r) false s')) as [o' t'].
    cbn [fst snd] in X. destruct X as (X1 & X2 & X3 & X4).
    assert (Ht : x_nil (s_ex t) = false) by (destruct X4 as (_ & _ & -> & _); exact Hn).
    specialize (IH t t' X2 Ht).
    destruct (serve w n true rs t) as [os u]. destruct (serve w n false rs t') as [os' u'].
    cbn [fst snd] in *. destruct IH as (Y1 & Y2 & Y3).
    split; [ congruence | split; [ exact Y2 | exact (same_place_trans _ _ _ X4 Y3) ] ].
Qed.

(** Serving does not forget or close anything. *)
Lemma serve_place : forall w n rs s,
    x_nil (s_ex s) = false -> same_place (s_ex s) (s_ex (snd (serve w n true rs s))).
Proof. intros w n rs s H. exact (proj2 (proj2 (sim_serve w n rs s s eq_refl H))). Qed.

Lemma run_place : forall w n r s,
    x_nil (s_ex s) = false -> same_place (s_ex s) (s_ex (snd (run w n r s))).
Proof.
  intros w n r s H.
  refine (proj2 (proj2 (proj2 (sim_engine w n r s (with_iv (iv_with_expl false (s_iv s)) s) _ H)))).
  split; reflexivity.
Qed.
