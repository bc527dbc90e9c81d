(** The flag that DoRedacted sets is never read. *)

From Coq Require Import String List ZArith Bool Arith Lia.
From Verif Require Import Str Value Outcome Key Merge Fpath Config Ipl Explain State Engine Meta.
Import ListNotations.
Open Scope bool_scope.

(** The state with the flag of DoRedacted off. *)
Definition unredacted (s : st) : st := with_iv (iv_with_redacted false (s_iv s)) s.

Definition but_redacted : rel := fun A m m' => forall s s', unredacted s = unredacted s' ->
  fst (m s) = fst (m' s') /\ unredacted (snd (m s)) = unredacted (snd (m' s')).

Lemma unredacted_is s s' : unredacted s = unredacted s' -> exists b, s = with_iv (iv_with_redacted b (s_iv s')) s'.
Proof.
  destruct s as [[] ? ? ? ? ? ? ? ?], s' as [[] ? ? ? ? ? ? ? ?]. unfold unredacted, with_iv, iv_with_redacted. cbn.
  intro H. injection H. intros. subst. eexists. reflexivity.
Qed.

(** Around a part that ignores the flag. *)
Lemma red_around A (m m' : M st A) s s' (f f' g g' : st -> st) : but_redacted A m m' ->
  unredacted (f s) = unredacted (f' s') ->
  (forall t t', unredacted t = unredacted t' -> unredacted (g t) = unredacted (g' t')) ->
  let r := (let (o, t) := m (f s) in (o, g t)) in let r' := (let (o, t) := m' (f' s') in (o, g' t)) in
  fst r = fst r' /\ unredacted (snd r) = unredacted (snd r').
Proof.
  intros Hm Hf Hg. destruct (Hm (f s) (f' s') Hf) as [H1 H2]. destruct (m (f s)) as [o t], (m' (f' s')) as [o' t']. cbn in *. auto.
Qed.

Lemma red_ex x s s' : unredacted s = unredacted s' -> unredacted (with_ex x s) = unredacted (with_ex x s').
Proof. intro H. apply unredacted_is in H as [b ->]. reflexivity. Qed.
Lemma red_iv i i' s s' : unredacted s = unredacted s' -> iv_with_redacted false i = iv_with_redacted false i' -> unredacted (with_iv i s) = unredacted (with_iv i' s').
Proof. intros H E. apply unredacted_is in H as [b ->]. unfold unredacted, with_iv. cbn. rewrite E. reflexivity. Qed.
Lemma red_prov id p s s' : unredacted s = unredacted s' -> unredacted (with_prov id p s) = unredacted (with_prov id p s').
Proof. intro H. apply unredacted_is in H as [b ->]. reflexivity. Qed.

Lemma but_redacted_full : full but_redacted.
Proof.
  assert (Copy : forall A (m m' : M st A) s s' f f', but_redacted A m m' -> unredacted s = unredacted s' ->
    iv_with_redacted false (f (s_iv s)) = iv_with_redacted false (f' (s_iv s')) ->
    fst (with_copy f m s) = fst (with_copy f' m' s') /\ unredacted (snd (with_copy f m s)) = unredacted (snd (with_copy f' m' s'))).
  { intros A m m' s s' f f' Hm H E. unfold with_copy.
    apply (red_around A m m' s s' (with_iv (f (s_iv s))) (with_iv (f' (s_iv s'))) (with_iv (s_iv s)) (with_iv (s_iv s')) Hm).
    - apply red_iv; assumption.
    - intros t t' Ht. apply red_iv; [ exact Ht | ]. apply unredacted_is in H as [b ->]. reflexivity. }
  split.
  - intros A o s s' H. split; [ reflexivity | exact H ].
  - intros A B m m' f f' Hm Hf s s' H. unfold bind. destruct (Hm s s' H) as [H1 H2].
    destruct (m s) as [o t], (m' s') as [o' t']. cbn [fst snd] in *. subst o'. destruct o; cbn [fst snd]; auto. apply Hf. exact H2.
  - intros A o s s' H. apply unredacted_is in H as (b & ->).
    destruct s' as [[na sc lo sg e md rd] x ? ? ? ? ? ? ?]. destruct o; try (split; reflexivity).
    cbv beta iota zeta delta [run_op]. cbn [s_iv s_ex with_iv iv_expl iv_with_redacted].
    destruct e; [ destruct (xaccept r x) | ]; split; reflexivity.
  - intros A sc m m' NC Hm s s' H. pose proof H as H0. apply unredacted_is in H as (b & E).
    assert (E1 : s_ex s = s_ex s') by (rewrite E; reflexivity). assert (E2 : iv_expl (s_iv s) = iv_expl (s_iv s')) by (rewrite E; reflexivity).
    assert (E3 : iv_mode (s_iv s) = iv_mode (s_iv s')) by (rewrite E; reflexivity). assert (E4 : s_provs s = s_provs s') by (rewrite E; reflexivity).
    destruct sc; cbv beta iota zeta delta [run_scoped].
    + rewrite E1, E2. destruct (iv_expl (s_iv s')); [ | apply Hm; exact H0 ]. destruct (xpush k init (s_ex s')) as [x|].
      * apply (red_around A m m' s s' (with_ex x) (with_ex x) (fun t => with_ex (xpop (s_ex t)) t) (fun t => with_ex (xpop (s_ex t)) t) Hm).
        -- apply red_ex; exact H0.
        -- intros t t' Ht. replace (s_ex t) with (s_ex t') by (apply unredacted_is in Ht as [c ->]; reflexivity). apply red_ex; exact Ht.
      * cbn [fst snd]. split; [ reflexivity | apply red_ex; exact H0 ].
    + rewrite E1, E3. destruct (iv_mode (s_iv s')); try (apply Hm; exact H0); apply Copy; auto; rewrite E; reflexivity.
    + rewrite E1, E3. destruct (iv_mode (s_iv s')); try (apply Hm; exact H0); apply Copy; auto; rewrite E; reflexivity.
    + congruence.
    + assert (Hs : unredacted (with_iv (iv_with_scope sc (s_iv s)) s) = unredacted (with_iv (iv_with_scope sc (s_iv s')) s')) by (apply red_iv; [ exact H0 | rewrite E; reflexivity ]).
      destruct (Hm _ _ Hs) as [H1 H2]. destruct (m _) as [o t], (m' _) as [o' t']. cbn [fst snd] in *. subst o'.
      destruct o; cbn [fst snd]; split; auto. apply red_iv; [ exact H2 | ].
      apply unredacted_is in H2 as [c ->]. rewrite E. reflexivity.
    + destruct (iv_redacted (s_iv s)), (iv_redacted (s_iv s')).
      * apply Hm; exact H0.
      * assert (Hs : unredacted s = unredacted (with_iv (iv_with_redacted true (s_iv s')) s')) by (rewrite H0; reflexivity).
        destruct (Hm _ _ Hs) as [H1 H2]. destruct (m _) as [o t], (m' _) as [o' t']. cbn [fst snd] in *. split; [ exact H1 | rewrite H2; reflexivity ].
      * assert (Hs : unredacted (with_iv (iv_with_redacted true (s_iv s)) s) = unredacted s') by (rewrite <- H0; reflexivity).
        destruct (Hm _ _ Hs) as [H1 H2]. destruct (m _) as [o t], (m' _) as [o' t']. cbn [fst snd] in *. split; [ exact H1 | rewrite <- H2; reflexivity ].
      * apply (red_around A m m' s s' (with_iv (iv_with_redacted true (s_iv s))) (with_iv (iv_with_redacted true (s_iv s'))) (fun t => with_iv (iv_with_redacted false (s_iv t)) t) (fun t => with_iv (iv_with_redacted false (s_iv t)) t) Hm).
        -- apply red_iv; [ exact H0 | ]. rewrite E. reflexivity.
        -- intros t t' Ht. apply red_iv; [ exact Ht | ]. apply unredacted_is in Ht as [c ->]. reflexivity.
    + rewrite E4. destruct (ps_locked (s_provs s' id)); [ split; [ reflexivity | exact H0 ] | ].
      set (p := mk_pstate _ _ true).
      apply (red_around A m m' s s' (with_prov id p) (with_prov id p)
        (fun t => with_prov id (mk_pstate (ps_fn (s_provs t id)) (ps_hashes (s_provs t id)) false) t)
        (fun t => with_prov id (mk_pstate (ps_fn (s_provs t id)) (ps_hashes (s_provs t id)) false) t) Hm).
      * apply red_prov; exact H0.
      * intros t t' Ht. replace (s_provs t) with (s_provs t') by (apply unredacted_is in Ht as [c ->]; reflexivity). apply red_prov; exact Ht.
  - intros A m m' _ _ Hm s s' H. pose proof H as H0. apply unredacted_is in H as (b & E).
    cbv beta iota zeta delta [run_scoped]. replace (iv_expl (s_iv s)) with (iv_expl (s_iv s')) by (rewrite E; reflexivity).
    destruct (iv_expl (s_iv s')); [ | apply Hm; exact H0 ]. apply Copy; auto. rewrite E. reflexivity.
Qed.
