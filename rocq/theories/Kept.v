(** Facts about states that every part of the engine keeps. *)

From Coq Require Import String List ZArith Bool Arith.
From Verif Require Import Str Value Outcome Key Merge Fpath Config Ipl Explain State Engine Meta.
Import ListNotations.
Open Scope bool_scope.

(** A relation between the states before and after a computation, as a relation
    between computations. *)
Definition steps (Q : st -> st -> Prop) : rel := fun A m _ => forall s, Q s (snd (m s)).

Section Steps.
  Variable Q : st -> st -> Prop.
  Hypothesis Qrefl : forall s, Q s s.
  Hypothesis Qtrans : forall s1 s2 s3, Q s1 s2 -> Q s2 s3 -> Q s1 s3.

  Lemma steps_lift : forall A (o : outcome A), steps Q A (lift o) (lift o).
  Proof. intros A o s. apply Qrefl. Qed.

  Lemma steps_bind : forall A B (m m' : M st A) (f f' : A -> M st B),
      steps Q A m m' -> (forall a, steps Q B (f a) (f' a)) -> steps Q B (bind m f) (bind m' f').
  Proof.
    intros A B m m' f f' Hm Hf s. unfold bind. specialize (Hm s).
    destruct (m s) as [[a|e| |] s']; simpl in *; auto.
    apply (Qtrans _ s'); [ exact Hm | apply Hf ].
  Qed.

  Lemma steps_full :
    (forall A (o : op A) s, Q s (snd (run_op o s))) ->
    (forall A sc (m : M st A), (forall s, Q s (snd (m s))) -> forall s, Q s (snd (run_scoped sc m s))) ->
    full (steps Q).
  Proof.
    intros Ho Hs. constructor.
    - apply steps_lift.
    - apply steps_bind.
    - intros A o. exact (Ho A o).
    - intros A sc m m' _ H. exact (Hs A sc m H).
    - intros A m m' _ _ H. exact (Hs A SConfig m H).
  Qed.
End Steps.

(** ** The parts of the invocation that no one changes *)

(** What lookups leave as it is: the names, the mode, the explainer in use and
    the redacted flag of the invocation, and an explainer that is not in use. *)
Record kept (s s' : st) : Prop := mk_kept {
  kp_names : iv_names (s_iv s') = iv_names (s_iv s);
  kp_expl : iv_expl (s_iv s') = iv_expl (s_iv s);
  kp_mode : iv_mode (s_iv s') = iv_mode (s_iv s);
  kp_redacted : iv_redacted (s_iv s') = iv_redacted (s_iv s);
  kp_ex : iv_expl (s_iv s) = false -> s_ex s' = s_ex s
}.

Lemma kept_refl : forall s, kept s s.
Proof. intro s. constructor; reflexivity. Qed.

Lemma kept_trans : forall s1 s2 s3, kept s1 s2 -> kept s2 s3 -> kept s1 s3.
Proof.
  intros s1 s2 s3 [A1 A2 A3 A4 A5] [B1 B2 B3 B4 B5]. constructor; try congruence.
  intro H. rewrite B5 by congruence. auto.
Qed.

Lemma kept_full : full (steps kept).
Proof.
  apply steps_full; [ exact kept_refl | exact kept_trans | | ].
  - intros A o s. destruct o; unfold run_op; try (constructor; reflexivity).
    destruct (iv_expl (s_iv s)) eqn:E; [ | apply kept_refl ].
    destruct (xaccept r (s_ex s)); [ | apply kept_refl ].
    constructor; simpl; try reflexivity. congruence.
  - intros A sc m H s. destruct sc; unfold run_scoped, with_copy.
    + destruct (iv_expl (s_iv s)) eqn:E; [ | apply H ].
      destruct (xpush k init (s_ex s)) as [x|].
      * specialize (H (with_ex x s)). destruct (m (with_ex x s)) as [o s']. destruct H as [H1 H2 H3 H4 H5].
        constructor; simpl in *; auto. congruence.
      * constructor; simpl; auto. congruence.
    + assert (C : forall i, (iv_expl (s_iv s) = false -> iv_expl i = false) ->
                  kept s (snd (let (o, s') := m (with_iv i s) in (o, with_iv (s_iv s) s')))).
      { intros i Hi. specialize (H (with_iv i s)).
        destruct (m (with_iv i s)) as [o s']. destruct H as [_ _ _ _ H5].
        constructor; simpl in *; auto. }
      destruct (iv_mode (s_iv s)); [ apply C | apply C | apply H ]; intros Hi; simpl; rewrite Hi; reflexivity.
    + assert (C : forall i, (iv_expl (s_iv s) = false -> iv_expl i = false) ->
                  kept s (snd (let (o, s') := m (with_iv i s) in (o, with_iv (s_iv s) s')))).
      { intros i Hi. specialize (H (with_iv i s)).
        destruct (m (with_iv i s)) as [o s']. destruct H as [_ _ _ _ H5].
        constructor; simpl in *; auto. }
      destruct (iv_mode (s_iv s)); [ apply C | apply H | apply C ]; intros Hi; simpl; rewrite Hi; reflexivity.
    + destruct (iv_expl (s_iv s)) eqn:E; [ | apply H ].
      destruct (m (with_iv (iv_with_expl false (s_iv s)) s)) as [o s'].
      constructor; simpl; auto. congruence.
    + specialize (H (with_iv (iv_with_scope sc (s_iv s)) s)).
      destruct (m (with_iv (iv_with_scope sc (s_iv s)) s)) as [[a|e| |] s']; destruct H as [H1 H2 H3 H4 H5];
        constructor; simpl in *; auto.
    + destruct (iv_redacted (s_iv s)) eqn:E; [ apply H | ].
      specialize (H (with_iv (iv_with_redacted true (s_iv s)) s)).
      destruct (m (with_iv (iv_with_redacted true (s_iv s)) s)) as [o s']; destruct H as [H1 H2 H3 H4 H5].
      constructor; simpl in *; auto.
    + destruct (ps_locked (s_provs s id)); [ apply kept_refl | ].
      match goal with |- context [m ?x] => specialize (H x); destruct (m x) as [o s'] end.
      destruct H as [H1 H2 H3 H4 H5]. constructor; simpl in *; auto.
Qed.

Lemma kept_closed : forall w, closed w (steps kept).
Proof. intro w. apply full_closed. exact kept_full. Qed.

(** ** The trace only grows *)

Definition longer (s s' : st) : Prop := exists t, s_trace s' = (s_trace s ++ t)%list.

Lemma longer_refl : forall s, longer s s.
Proof. intro s. exists []. rewrite app_nil_r. reflexivity. Qed.

Lemma longer_trans : forall s1 s2 s3, longer s1 s2 -> longer s2 s3 -> longer s1 s3.
Proof. intros s1 s2 s3 [a A] [b B]. exists (a ++ b)%list. rewrite B, A, app_assoc. reflexivity. Qed.

Lemma longer_full : full (steps longer).
Proof.
  apply steps_full; [ exact longer_refl | exact longer_trans | | ].
  - intros A o s. destruct o; unfold run_op; try (exists []; rewrite app_nil_r; reflexivity).
    + exists [e]. reflexivity.
    + destruct (iv_expl (s_iv s)); [ | apply longer_refl ].
      destruct (xaccept r (s_ex s)); exists []; rewrite app_nil_r; reflexivity.
  - intros A sc m H s. destruct sc; unfold run_scoped, with_copy.
    + destruct (iv_expl (s_iv s)); [ | apply H ].
      destruct (xpush k init (s_ex s)) as [x|]; [ | exists []; rewrite app_nil_r; reflexivity ].
      specialize (H (with_ex x s)). destruct (m (with_ex x s)) as [o s']. exact H.
    + destruct (iv_mode (s_iv s)); try apply H;
        match goal with |- context [m ?x] => specialize (H x); destruct (m x) as [o s'] end; exact H.
    + destruct (iv_mode (s_iv s)); try apply H;
        match goal with |- context [m ?x] => specialize (H x); destruct (m x) as [o s'] end; exact H.
    + destruct (iv_expl (s_iv s)); [ | apply H ].
      match goal with |- context [m ?x] => specialize (H x); destruct (m x) as [o s'] end; exact H.
    + match goal with |- context [m ?x] => specialize (H x); destruct (m x) as [[a|e| |] s'] end; exact H.
    + destruct (iv_redacted (s_iv s)); [ apply H | ].
      match goal with |- context [m ?x] => specialize (H x); destruct (m x) as [o s'] end; exact H.
    + destruct (ps_locked (s_provs s id)); [ apply longer_refl | ].
      match goal with |- context [m ?x] => specialize (H x); destruct (m x) as [o s'] end; exact H.
Qed.

Lemma longer_closed : forall w, closed w (steps longer).
Proof. intro w. apply full_closed. exact longer_full. Qed.
