(** More fuel does not change an outcome once there is one. *)

From Coq Require Import String List ZArith Bool Arith Lia.
From Verif Require Import Str Value Outcome Key Merge Fpath Config Ipl Explain State Engine Meta.
Import ListNotations.
Open Scope bool_scope.

Definition le_run : rel := fun A m m' => forall s, fst (m s) = NoFuel \/ m' s = m s.

Lemma le_run_full : full le_run.
Proof.
  constructor; unfold le_run.
  - auto.
  - intros A B m m' f f' Hm Hf s. unfold bind. destruct (Hm s) as [H|H].
    + destruct (m s) as [o s1]. simpl in H. subst o. left. reflexivity.
    + rewrite H. destruct (m s) as [[a|e| |] s1]; [ apply Hf | right; reflexivity .. ].
  - auto.
  - intros A sc m m' _ Hm s. destruct sc; unfold run_scoped, with_copy.
    + destruct (iv_expl (s_iv s)); [ | apply Hm ]. destruct (xpush k init (s_ex s)) as [x|]; [ | auto ].
      destruct (Hm (with_ex x s)) as [H|H]; [ left | right; rewrite H; reflexivity ].
      destruct (m (with_ex x s)) as [o s1]. exact H.
    + destruct (iv_mode (s_iv s)); try apply Hm;
        (match goal with |- context [m ?x] => destruct (Hm x) as [H|H]; [ left | right; rewrite H; reflexivity ];
           destruct (m x) as [o s1]; exact H end).
    + destruct (iv_mode (s_iv s)); try apply Hm;
        (match goal with |- context [m ?x] => destruct (Hm x) as [H|H]; [ left | right; rewrite H; reflexivity ];
           destruct (m x) as [o s1]; exact H end).
    + destruct (iv_expl (s_iv s)); try apply Hm;
        (match goal with |- context [m ?x] => destruct (Hm x) as [H|H]; [ left | right; rewrite H; reflexivity ];
           destruct (m x) as [o s1]; exact H end).
    + match goal with |- context [m ?x] => destruct (Hm x) as [H|H]; [ left | right; rewrite H; reflexivity ];
           destruct (m x) as [o s1]; simpl in H; rewrite H; reflexivity end.
    + destruct (iv_redacted (s_iv s)); try apply Hm;
        (match goal with |- context [m ?x] => destruct (Hm x) as [H|H]; [ left | right; rewrite H; reflexivity ];
           destruct (m x) as [o s1]; exact H end).
    + destruct (ps_locked (s_provs s id)); [ auto | ].
      match goal with |- context [m ?x] => destruct (Hm x) as [H|H]; [ left | right; rewrite H; reflexivity ];
           destruct (m x) as [o s1]; exact H end.
  - intros A m m' _ _ Hm s. unfold run_scoped, with_copy.
    destruct (iv_expl (s_iv s)); try apply Hm;
        (match goal with |- context [m ?x] => destruct (Hm x) as [H|H]; [ left | right; rewrite H; reflexivity ];
           destruct (m x) as [o s1]; exact H end).
Qed.

Lemma run_step : forall w n r, le_run _ (run w n r) (run w (S n) r).
Proof.
  intros w. induction n as [|n IH]; intro r.
  - intro s. left. reflexivity.
  - exact (c_body w le_run (full_closed w le_run le_run_full) (run w n) (run w (S n)) IH
                  (quiet_run w n) (quiet_run w (S n)) r).
Qed.

Theorem run_mono : forall w n n' r s, (n <= n')%nat -> fst (run w n r s) <> NoFuel -> run w n' r s = run w n r s.
Proof.
  intros w n n' r s H Hn. induction H as [|n' H IH]; [ reflexivity | ].
  destruct (run_step w n' r s) as [E|E].
  - rewrite IH in E. contradiction.
  - rewrite E. exact IH.
Qed.

Theorem run_lookup_mono : forall w n n' k o s,
    (n <= n')%nat -> fst (run_lookup w n k o s) <> NoFuel -> run_lookup w n' k o s = run_lookup w n k o s.
Proof.
  intros w n n' k o s H Hn. unfold run_lookup, bind in *.
  destruct (run w n (RLookup k o) s) as [x s1] eqn:E.
  rewrite (run_mono w n n' (RLookup k o) s H).
  - rewrite E. reflexivity.
  - rewrite E. simpl. destruct x; try discriminate. simpl in Hn. congruence.
Qed.
