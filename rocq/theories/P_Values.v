(** C89: values are compared by content, and maps keep their entries in order. *)

From Coq Require Import String List ZArith Bool Arith Lia Permutation.
From Verif Require Import Value SpecValues ValueFacts.
Import ListNotations.
Open Scope nat_scope.
Open Scope list_scope.

Lemma matching {A B} (R : A -> B -> Prop) : forall m m', length m = length m' -> (forall e, In e m -> exists e', In e' m' /\ R e e') ->
  ForallOrdPairs (fun e e2 => forall e', In e' m' -> R e e' -> R e2 e' -> False) m -> exists p, Permutation m' p /\ Forall2 R m p.
Proof.
  induction m as [|e m IH]; intros m' L H D.
  - destruct m'; [ | discriminate L ]. exists []. split; constructor.
  - destruct (H e (or_introl eq_refl)) as (e' & Hin & Re). apply in_split in Hin. destruct Hin as (a & b & ->).
    inversion D as [|? ? D1 D2]; subst. rewrite Forall_forall in D1.
    assert (Mid : In e' (a ++ e' :: b)) by (apply in_or_app; right; left; reflexivity).
    assert (Sub : forall x, In x (a ++ b) -> In x (a ++ e' :: b)) by (intros x Hx; apply in_app_or in Hx; apply in_or_app; cbn; tauto).
    destruct (IH (a ++ b)) as (p & P & F).
    + rewrite app_length in *. cbn in L. lia.
    + intros x Hx. destruct (H x (or_intror Hx)) as (x' & Hx' & Rx). apply in_app_or in Hx'. destruct Hx' as [Hx'|[<-|Hx']].
      * exists x'. split; [ apply in_or_app; left; exact Hx' | exact Rx ].
      * elim (D1 x Hx e' Mid Re Rx).
      * exists x'. split; [ apply in_or_app; right; exact Hx' | exact Rx ].
    + clear - D2 Sub. induction D2 as [|x m Hx _ IH]; constructor; [ | exact IH ].
      eapply Forall_impl; [ | exact Hx ]. cbn. intros y Hy x' Hx'. exact (Hy x' (Sub x' Hx')).
    + exists (e' :: p). split; [ | constructor; assumption ]. transitivity (e' :: a ++ b); [ symmetry; apply Permutation_middle | constructor; exact P ].
Qed.

Lemma veq_equal_size : forall n a b, vsize a <= n -> wf a = true -> wf b = true -> (veq a b = true <-> equal a b).
Proof.
  induction n as [|n IH]; intros a b S Wa Wb; [ destruct a; cbn in S; lia | ]. split.
  - intro E. destruct a.
    + destruct b; try discriminate E. constructor. constructor.
    + destruct b; try discriminate E. cbn in E. apply Bool.eqb_prop in E. subst. constructor. constructor.
    + destruct b; try discriminate E. cbn in E. apply Z.eqb_eq in E. subst. constructor. constructor.
    + destruct b; try discriminate E. cbn in E. apply Z.eqb_eq in E. subst. constructor. constructor.
    + destruct b; try discriminate E. cbn in E. apply String.eqb_eq in E. subst. constructor. constructor.
    + destruct (veq_kind_arr _ _ E) as (l' & ->). rewrite veq_arr, all2_spec in E. apply wf_arr in Wa, Wb. rewrite Forall_forall in Wa, Wb. apply eq_list.
      assert (Z : forall x, In x l -> vsize x <= n) by (intros x Hx; pose proof (vsize_arr_in l x Hx); lia).
      clear S. revert Wa Wb Z. induction E as [|x y l l' Exy _ IHl]; intros Wa Wb Z; constructor.
      * apply IH; [ apply Z; left; reflexivity | apply Wa; left; reflexivity | apply Wb; left; reflexivity | exact Exy ].
      * apply IHl; intros; [ apply Wa | apply Wb | apply Z ]; right; assumption.
    + destruct (veq_kind_map _ _ E) as (m' & ->).
      destruct (matching (fun e e' => veq (fst e) (fst e') = true /\ veq (snd e) (snd e') = true) m m') as (p & P & F).
      * rewrite veq_map, andb_true_iff in E. apply Nat.eqb_eq. tauto.
      * intros e He. destruct (veq_map_entry m m' e E He) as (e' & ? & ? & ?). eauto.
      * apply wf_map in Wa. destruct Wa as [D W]. rewrite Forall_forall in W. apply wf_map in Wb. destruct Wb as [_ W']. rewrite Forall_forall in W'.
        clear - D W W'. induction D as [|x m Hx _ IHd]; constructor; [ | apply IHd; intros; apply W; right; assumption ].
        rewrite Forall_forall in *. intros y Hy e' He' [R1 _] [R2 _]. destruct (Hx y Hy) as [X _].
        assert (veq (fst x) (fst y) = true); [ | congruence ].
        destruct (W x (or_introl eq_refl)) as [Wx _], (W y (or_intror Hy)) as [Wy _], (W' e' He') as [We _].
        apply (veq_trans (fst x) (fst e') (fst y)); auto. apply veq_sym; auto.
      * apply (eq_map m m' p P). apply wf_map in Wa, Wb. destruct Wa as [_ Wa], Wb as [_ Wb]. rewrite Forall_forall in Wa, Wb.
        assert (Wp : forall e, In e p -> wf (fst e) = true /\ wf (snd e) = true) by (intros e He; apply Wb; apply (Permutation_in e (Permutation_sym P)); exact He).
        assert (Z : forall e, In e m -> vsize (fst e) <= n /\ vsize (snd e) <= n) by (intros e He; pose proof (vsize_map_in m e He); lia).
        clear - IH F Wa Wp Z. induction F as [|x y m p [R1 R2] _ IHf]; constructor.
        -- destruct (Wa x (or_introl eq_refl)), (Wp y (or_introl eq_refl)), (Z x (or_introl eq_refl)). split; apply IH; assumption.
        -- apply IHf; intros; [ apply Wa | apply Wp | apply Z ]; right; assumption.
    + destruct b; try discriminate E. cbn in *. apply eq_sens. apply IH; [ lia | assumption .. ].
  - intro E. destruct E as [v Hv|v v' E|l l' F|m m' p P F].
    + destruct Hv; cbn; auto using Bool.eqb_reflx, Z.eqb_refl, String.eqb_refl.
    + cbn in *. apply IH; [ lia | assumption .. ].
    + rewrite veq_arr, all2_spec. apply wf_arr in Wa, Wb. rewrite Forall_forall in Wa, Wb.
      assert (Z : forall x, In x l -> vsize x <= n) by (intros x Hx; pose proof (vsize_arr_in l x Hx); lia).
      clear S. revert Wa Wb Z. induction F as [|x y l l' Exy _ IHl]; intros Wa Wb Z; constructor.
      * apply IH; [ apply Z; left; reflexivity | apply Wa; left; reflexivity | apply Wb; left; reflexivity | exact Exy ].
      * apply IHl; intros; [ apply Wa | apply Wb | apply Z ]; right; assumption.
    + rewrite veq_map, andb_true_iff. split.
      * apply Nat.eqb_eq. rewrite (Permutation_length P). clear - F. induction F; cbn; lia.
      * apply forallb_forall. intros e He. unfold esub.
        assert (exists e', In e' p /\ equal (fst e) (fst e') /\ equal (snd e) (snd e')) as (e' & Hp & E1 & E2).
        { clear - F He. induction F as [|x y m p [R1 R2] _ IHf]; [ destruct He | ]. destruct He as [<-|He]; [ exists y; cbn; auto | ].
          destruct (IHf He) as (e' & ? & ?). exists e'. cbn. auto. }
        assert (Hin : In e' m') by (apply (Permutation_in e' (Permutation_sym P)); exact Hp).
        destruct (wfm_in m e Wa He) as [W1 W2], (wfm_in m' e' Wb Hin) as [W3 W4]. pose proof (vsize_map_in m e He).
        rewrite (mget_cong (fst e) (fst e') m'); [ | exact Wb | exact W1 | exact W3 | apply IH; [ lia | assumption .. ] ].
        rewrite (mget_self (fst e') (snd e') m' Wb) by (destruct e'; exact Hin). apply IH; [ lia | assumption .. ].
Qed.

Lemma wf_proper_size : forall n v, vsize v <= n -> (wf v = true <-> proper v).
Proof.
  induction n as [|n IH]; intros v S; [ destruct v; cbn in S; lia | ]. destruct v as [|b|z|z|s|l|m|x].
  1-5: split; [ intros _; constructor; constructor | reflexivity ].
  - assert (Z : forall x, In x l -> vsize x <= n) by (intros x Hx; pose proof (vsize_arr_in l x Hx); lia).
    rewrite wf_arr, Forall_forall. split.
    + intro H. apply pr_list. apply Forall_forall. intros x Hx. apply (IH x (Z x Hx)). auto.
    + intro H. inversion H as [? P|? P|? F|]; subst; [ inversion P | ]. rewrite Forall_forall in F. intros x Hx. apply (IH x (Z x Hx)). auto.
  - assert (Z : forall e, In e m -> vsize (fst e) <= n /\ vsize (snd e) <= n) by (intros e He; pose proof (vsize_map_in m e He); lia).
    rewrite wf_map. split.
    + intros [D W]. apply pr_map.
      * rewrite Forall_forall in *. intros e He. destruct (Z e He), (W e He). split; apply IH; assumption.
      * rewrite Forall_forall in W. clear - D W. induction D as [|x m Hx _ IHd]; constructor; [ | apply IHd; intros; apply W; right; assumption ].
        rewrite Forall_forall in *. intros y Hy E. destruct (Hx y Hy) as [X _], (W x (or_introl eq_refl)) as [Wx _], (W y (or_intror Hy)) as [Wy _].
        apply (veq_equal_size (vsize (fst x))) in E; [ congruence | lia | assumption .. ].
    + intro H. inversion H as [? P|? P|? F|? F D]; subst; [ inversion P | ].
      assert (W : Forall (fun e => wf (fst e) = true /\ wf (snd e) = true) m).
      { rewrite Forall_forall in *. intros e He. destruct (Z e He), (F e He). split; apply IH; assumption. }
      split; [ | exact W ]. rewrite Forall_forall in W. clear - D W. induction D as [|x m Hx _ IHd]; constructor; [ | apply IHd; intros; apply W; right; assumption ].
      rewrite Forall_forall in *. intros y Hy. specialize (Hx y Hy). destruct (W x (or_introl eq_refl)) as [Wx _], (W y (or_intror Hy)) as [Wy _].
      assert (veq (fst x) (fst y) = false).
      { destruct (veq (fst x) (fst y)) eqn:E; [ | reflexivity ]. elim Hx. apply (veq_equal_size (vsize (fst x))); [ lia | assumption .. ]. }
      split; [ assumption | ]. rewrite veq_sym_eq; assumption.
  - cbn in *. rewrite (IH x) by lia. split; [ apply pr_sens | ]. intro H. inversion H as [? P| | |]; subst; [ inversion P | assumption ].
Qed.

(** ** C89 *)
Theorem C89_proper : forall v, wf v = true <-> proper v.
Proof. intro v. exact (wf_proper_size (vsize v) v (le_n _)). Qed.
Print Assumptions C89_proper.

Theorem C89_equal : forall a b, proper a -> proper b -> (veq a b = true <-> equal a b).
Proof. intros a b Ha Hb. apply (veq_equal_size (vsize a)); [ lia | apply C89_proper; assumption .. ]. Qed.
Print Assumptions C89_equal.

Lemma unequal a b : proper a -> proper b -> (veq a b = false <-> ~ equal a b).
Proof. intros Ha Hb. rewrite <- (C89_equal a b Ha Hb). destruct (veq a b); split; congruence. Qed.
Lemma entries_proper m : proper (VMap m) -> forall e, In e m -> proper (fst e) /\ proper (snd e).
Proof. intros H e He. apply C89_proper in H. destruct (wfm_in m e H He). rewrite <- !C89_proper. auto. Qed.
Lemma no_entry_get m k : proper (VMap m) -> proper k -> (mget k m = None <-> no_entry m k).
Proof.
  intros Hm Hk. rewrite mget_none. unfold no_entry. split; intros H e He; specialize (H e He); destruct (entries_proper m Hm e He) as [P _];
    [ apply unequal | apply unequal in H ]; assumption.
Qed.

Theorem C89_get : forall m k, proper (VMap m) -> proper k ->
  (forall v, mget k m = Some v <-> entry_in m k v) /\ (mget k m = None <-> no_entry m k).
Proof.
  intros m k Hm Hk. split; [ | apply no_entry_get; assumption ]. intro v. split.
  - intro E. destruct (mget_in k m v E) as (k' & Hin & Ek). exists k'. split; [ exact Hin | ].
    apply C89_equal; [ exact Hk | exact (proj1 (entries_proper m Hm _ Hin)) | exact Ek ].
  - intros (k' & Hin & Ek). pose proof (proj1 (entries_proper m Hm _ Hin)) as Pk. cbn in Pk.
    rewrite (mget_cong k k' m); [ | apply C89_proper; assumption .. | apply C89_equal; assumption ]. apply mget_self; [ apply C89_proper; exact Hm | exact Hin ].
Qed.
Print Assumptions C89_get.

Lemma tail_proper e m : proper (VMap (e :: m)) -> proper (fst e) /\ proper (snd e) /\ proper (VMap m) /\ no_entry m (fst e).
Proof.
  intro H. pose proof (entries_proper _ H e (or_introl eq_refl)) as [P1 P2]. inversion H as [? P| | |? F D]; subst; [ inversion P | ].
  inversion F as [|? ? _ F']; subst. inversion D as [|? ? D1 D2]; subst. rewrite Forall_forall in D1. repeat split; try assumption. apply pr_map; assumption.
Qed.

Theorem C89_put : forall m k v r, proper (VMap m) -> proper k -> (mput k v m = r <-> with_entry k v m r).
Proof.
  intros m k v r Hm Hk.
  assert (Ex : with_entry k v m (mput k v m)).
  { clear r. induction m as [|[x w] m IH]; cbn [mput]; [ apply (we_new k v []); intros ? [] | ].
    destruct (tail_proper _ _ Hm) as (Px & _ & Pm & _). cbn [fst] in *. destruct (veq k x) eqn:E.
    - apply (we_old k v ((x, w) :: m) [] x w m eq_refl). apply C89_equal; assumption.
    - apply unequal in E; [ | assumption .. ]. destruct (IH Pm) as [N|a k' v' b -> E'].
      + apply (we_new k v ((x, w) :: m)). intros e [<-|He]; [ exact E | exact (N e He) ].
      + apply (we_old k v ((x, w) :: a ++ (k', v') :: b) ((x, w) :: a) k' v' b eq_refl E'). }
  split; [ intros <-; exact Ex | ]. intro H. 
  assert (Old : forall a k' v' b, m = a ++ (k', v') :: b -> equal k k' -> mput k v m = a ++ (k', v) :: b).
  { clear - Hm Hk. intros a. revert m Hm. induction a as [|[x w] a IH]; intros m Hm k' v' b -> E.
    - cbn [app mput]. destruct (tail_proper _ _ Hm) as (Px & _). cbn in Px. rewrite (proj2 (C89_equal k k' Hk Px) E). reflexivity.
    - cbn [app mput]. destruct (tail_proper _ _ Hm) as (Px & _ & Pm & N). cbn [fst] in *. fold (app a ((k', v') :: b)) in *.
      assert (Pk' : proper k') by (exact (proj1 (entries_proper _ Pm (k', v') ltac:(apply in_or_app; right; left; reflexivity)))).
      destruct (veq k x) eqn:E'; [ | f_equal; exact (IH _ Pm k' v' b eq_refl E) ]. exfalso.
      apply (N (k', v')); [ apply in_or_app; right; left; reflexivity | ]. cbn.
      apply C89_equal; [ assumption .. | ]. apply (veq_trans x k k'); try (apply C89_proper; assumption).
      + apply veq_sym; try (apply C89_proper; assumption). exact E'.
      + apply C89_equal; assumption. }
  destruct H as [N|a k' v' b E Ek]; [ | exact (Old a k' v' b E Ek) ].
  destruct Ex as [_|a k' v' b -> Ek]; [ reflexivity | ]. elim (N (k', v')); [ apply in_or_app; right; left; reflexivity | exact Ek ].
Qed.
Print Assumptions C89_put.

Theorem C89_without : forall m k r, proper (VMap m) -> proper k -> (mwithout k m = r <-> without_entry k m r).
Proof.
  intros m k r Hm Hk. split.
  - intros <-. induction m as [|[x w] m IH]; cbn [mwithout]; [ apply wo_none; intros ? [] | ].
    destruct (tail_proper _ _ Hm) as (Px & _ & Pm & _). cbn [fst] in *. destruct (veq k x) eqn:E.
    + apply (wo_one k ((x, w) :: m) [] x w m eq_refl). apply C89_equal; assumption.
    + apply unequal in E; [ | assumption .. ]. remember (mwithout k m) as r eqn:Er. destruct (IH Pm) as [N|a k' v' b -> E'].
      * apply wo_none. intros e [<-|He]; [ exact E | exact (N e He) ].
      * apply (wo_one k ((x, w) :: a ++ (k', v') :: b) ((x, w) :: a) k' v' b eq_refl E').
  - intro H. destruct H as [N|a k' v' b -> E].
    + induction m as [|[x w] m IH]; [ reflexivity | ]. cbn [mwithout]. destruct (tail_proper _ _ Hm) as (Px & _ & Pm & _). cbn [fst] in *.
      rewrite (proj2 (unequal k x Hk Px) (N _ (or_introl eq_refl))). f_equal. apply IH; [ exact Pm | ]. intros e He. apply N. right. exact He.
    + induction a as [|[x w] a IH]; cbn [app mwithout].
      * destruct (tail_proper _ _ Hm) as (Px & _). cbn in Px. rewrite (proj2 (C89_equal k k' Hk Px) E). reflexivity.
      * destruct (tail_proper _ _ Hm) as (Px & _ & Pm & N). cbn [fst] in *.
        assert (Pk' : proper k') by (exact (proj1 (entries_proper _ Pm (k', v') ltac:(apply in_or_app; right; left; reflexivity)))).
        destruct (veq k x) eqn:E'; [ | f_equal; exact (IH Pm) ]. exfalso.
        apply (N (k', v')); [ apply in_or_app; right; left; reflexivity | ]. cbn.
        apply C89_equal; [ assumption .. | ]. apply (veq_trans x k k'); try (apply C89_proper; assumption).
        -- apply veq_sym; try (apply C89_proper; assumption). exact E'.
        -- apply C89_equal; assumption.
Qed.
Print Assumptions C89_without.

Definition front (a m : entries) : entries := map (fun e => (fst e, match mget (fst e) a with Some v => v | None => snd e end)) m.
Definition back (m a : entries) : entries := filter (fun e => match mget (fst e) m with Some _ => false | None => true end) a.

Lemma put_proper k v m : proper (VMap m) -> proper k -> proper v -> proper (VMap (mput k v m)).
Proof. rewrite <- !C89_proper. exact (mput_wf k v m). Qed.

Lemma putall_closed : forall a m, proper (VMap m) -> proper (VMap a) -> mputall m a = front a m ++ back m a.
Proof.
  induction a as [|[k v] a IH]; intros m Hm Ha.
  - cbn. rewrite app_nil_r. unfold front. cbn. symmetry. erewrite map_ext; [ apply map_id | ]. intros [x w]. reflexivity.
  - destruct (tail_proper _ _ Ha) as (Pk & Pv & Pa & Na). cbn [fst snd] in *. rewrite mputall_cons. cbn [fst snd].
    rewrite (IH (mput k v m) (put_proper k v m Hm Pk Pv) Pa).
    pose proof (proj1 (C89_put m k v _ Hm Pk) eq_refl) as W.
    assert (Nk : forall e, In e a -> veq (fst e) k = false).
    { intros e He. apply unequal; [ exact (proj1 (entries_proper a Pa e He)) | exact Pk | ]. intro E. apply (Na e He).
      apply C89_equal; [ exact Pk | exact (proj1 (entries_proper a Pa e He)) | ]. apply veq_sym; try (apply C89_proper; try assumption; exact (proj1 (entries_proper a Pa e He))).
      apply C89_equal; [ exact (proj1 (entries_proper a Pa e He)) | exact Pk | exact E ]. }
    assert (Bk : back (mput k v m) a = back m a).
    { unfold back. apply filter_ext_in. intros e He. rewrite mget_mput; try (apply C89_proper; try assumption; exact (proj1 (entries_proper a Pa e He))).
      rewrite (Nk e He). reflexivity. }
    rewrite Bk. assert (Ga : mget k a = None) by (apply no_entry_get; assumption).
    assert (Same : forall l, (forall e, In e l -> proper (fst e)) -> (forall e, In e l -> ~ equal (fst e) k) -> front a l = front ((k, v) :: a) l).
    { intros l Pl Nl. unfold front. apply map_ext_in. intros e He. cbn [mget].
      rewrite (proj2 (unequal (fst e) k (Pl e He) Pk) (Nl e He)). reflexivity. }
    assert (Sym : forall x, proper x -> equal x k -> equal k x).
    { intros x Px E. apply C89_equal; [ assumption .. | ]. apply veq_sym; try (apply C89_proper; assumption). apply C89_equal; assumption. }
    destruct W as [N|x k' v' y -> E].
    + assert (Gm : mget k m = None) by (apply no_entry_get; assumption).
      cbn [back filter fst]. rewrite Gm. unfold front at 1. rewrite map_app. cbn [map fst snd]. rewrite Ga, <- app_assoc. cbn [app].
      f_equal. apply Same; [ intros e He; exact (proj1 (entries_proper m Hm e He)) | ].
      intros e He E. apply (N e He). apply Sym; [ exact (proj1 (entries_proper m Hm e He)) | exact E ].
    + assert (Pk' : proper k') by (exact (proj1 (entries_proper _ Hm (k', v') ltac:(apply in_or_app; right; left; reflexivity)))).
      assert (Gm : mget k (x ++ (k', v') :: y) = Some v') by (apply (proj1 (C89_get _ k Hm Pk)); exists k'; split; [ apply in_or_app; right; left; reflexivity | exact E ]).
      cbn [back filter fst]. rewrite Gm. f_equal. unfold front. rewrite !map_app. cbn [map fst snd mget].
      assert (Ek : veq k' k = true) by (apply veq_sym; try (apply C89_proper; assumption); apply C89_equal; assumption).
      rewrite Ek. rewrite (mget_cong k' k a), Ga; [ | apply C89_proper; assumption .. | exact Ek ].
      assert (Nx : forall e, In e x \/ In e y -> ~ equal (fst e) k).
      { intros e He Ee. assert (Pe : proper (fst e)) by (refine (proj1 (entries_proper _ Hm e _)); apply in_or_app; cbn; tauto).
        assert (veq (fst e) k' = true). { apply (veq_trans (fst e) k k'); try (apply C89_proper; assumption); apply C89_equal; assumption. }
        apply C89_proper in Hm. apply wf_map in Hm. destruct Hm as [D _]. clear - D He H.
        induction x as [|z x IHx]; cbn [app] in D; inversion D as [|? ? D1 D2]; subst; rewrite Forall_forall in D1.
        - destruct He as [[]|He]. destruct (D1 e He) as [_ D1']. cbn in D1'. congruence.
        - destruct He as [[<-|He]|He]; [ | apply IHx; auto | apply IHx; auto ].
          destruct (D1 (k', v') ltac:(apply in_or_app; right; left; reflexivity)) as [D1' _]. cbn in D1'. congruence. }
      assert (Px : forall e, In e x \/ In e y -> proper (fst e)) by (intros e He; refine (proj1 (entries_proper _ Hm e _)); apply in_or_app; cbn; tauto).
      f_equal; [ | f_equal ].
      * apply (Same x); intros e He; [ apply Px | apply Nx ]; left; exact He.
      * apply (Same y); intros e He; [ apply Px | apply Nx ]; right; exact He.
Qed.

Lemma others_back m : proper (VMap m) -> forall a r, (forall e, In e a -> proper (fst e)) -> (others m a r <-> back m a = r).
Proof.
  intro Hm. induction a as [|e a IH]; intros r Pa.
  - split; [ intro H; inversion H; reflexivity | intros <-; constructor ].
  - assert (Pe := Pa e (or_introl eq_refl)). pose proof (no_entry_get m (fst e) Hm Pe) as G. cbn [back filter]. fold (back m a). split.
    + intro H. inversion H as [|? ? ? N O|? ? ? N O]; subst; apply (IH _ (fun x Hx => Pa x (or_intror Hx))) in O.
      * destruct (mget (fst e) m) eqn:X; [ exact O | ]. elim N. apply G. reflexivity.
      * apply G in N. rewrite N, O. reflexivity.
    + intros <-. destruct (mget (fst e) m) eqn:X.
      * apply ot_old; [ intro N; apply G in N; discriminate N | ]. apply IH; [ intros x Hx; apply Pa; right; exact Hx | reflexivity ].
      * apply ot_new; [ apply G; reflexivity | ]. apply IH; [ intros x Hx; apply Pa; right; exact Hx | reflexivity ].
Qed.

Theorem C89_merge : forall m a r, proper (VMap m) -> proper (VMap a) -> (mmerge m a = r <-> merged_maps m a r).
Proof.
  intros m a r Hm Ha. unfold mmerge. rewrite (putall_closed a m Hm Ha).
  assert (F : forall f, Forall2 (fun e f => fst f = fst e /\ (entry_in a (fst e) (snd f) \/ no_entry a (fst e) /\ snd f = snd e)) m f <-> front a m = f).
  { pose proof (entries_proper m Hm) as Pm. clear Hm. revert Pm. induction m as [|e m IH]; intros Pm f.
    - split; [ intro H; inversion H; reflexivity | intros <-; constructor ].
    - destruct (Pm e (or_introl eq_refl)) as [Pe _]. destruct (C89_get a (fst e) Ha Pe) as [G1 G2].
      specialize (IH (fun x Hx => Pm x (or_intror Hx))). unfold front. cbn [map]. fold (front a m). split.
      + intro H. inversion H as [|? y ? l [H1 H2] H3]; subst. apply IH in H3. rewrite H3. f_equal. destruct y as [y1 y2]. cbn in H1, H2. subst y1. f_equal.
        destruct H2 as [H2|[H2 ->]]; [ apply G1 in H2; rewrite H2; reflexivity | apply G2 in H2; rewrite H2; reflexivity ].
      + intros <-. constructor; [ | apply IH; reflexivity ]. cbn. split; [ reflexivity | ].
        destruct (mget (fst e) a) eqn:X; [ left; apply G1; reflexivity | right; split; [ apply G2; reflexivity | reflexivity ] ]. }
  pose proof (fun r => others_back m Hm a r (fun e He => proj1 (entries_proper a Ha e He))) as O. split.
  - intros <-. exists (front a m), (back m a). split; [ reflexivity | ]. split; [ apply F; reflexivity | apply O; reflexivity ].
  - intros (f & b & -> & Hf & Hb). apply F in Hf. apply O in Hb. rewrite Hf, Hb. reflexivity.
Qed.
Print Assumptions C89_merge.

(** ** Examples *)
Definition two_keys : entries := [(VStr "a", VArr [VInt 1]); (VMap [(VStr "x", VNil); (VStr "y", VBool true)], VStr "b")].
Definition other_order : value := VMap [(VStr "y", VBool true); (VStr "x", VNil)].
Lemma by_wf v : wf v = true -> proper v. Proof. apply C89_proper. Qed.
Example C89_ex : proper (VMap two_keys) /\ proper other_order /\ ~ proper (VMap [(VInt 1, VNil); (VInt 1, VNil)]) /\
  equal (VMap [(VStr "x", VNil); (VStr "y", VBool true)]) other_order /\ ~ equal (VInt 1) (VFloat 1) /\
  entry_in two_keys other_order (VStr "b") /\ no_entry two_keys (VStr "c") /\
  with_entry other_order (VInt 2) two_keys [(VStr "a", VArr [VInt 1]); (VMap [(VStr "x", VNil); (VStr "y", VBool true)], VInt 2)] /\
  without_entry (VStr "a") two_keys [(VMap [(VStr "x", VNil); (VStr "y", VBool true)], VStr "b")] /\
  merged_maps two_keys [(VStr "c", VInt 3); (VStr "a", VInt 4)]
    [(VStr "a", VInt 4); (VMap [(VStr "x", VNil); (VStr "y", VBool true)], VStr "b"); (VStr "c", VInt 3)].
Proof.
  assert (P1 : proper (VMap two_keys)) by (apply by_wf; reflexivity). assert (P2 : proper other_order) by (apply by_wf; reflexivity).
  assert (P3 : forall s, proper (VStr s)) by (intro; apply by_wf; reflexivity).
  repeat split; try assumption.
  - intro H. apply C89_proper in H. discriminate H.
  - apply C89_equal; [ apply by_wf; reflexivity | exact P2 | reflexivity ].
  - intro H. inversion H. 
  - apply C89_get; [ assumption .. | reflexivity ].
  - apply C89_get; [ assumption | apply P3 | reflexivity ].
  - apply C89_put; [ assumption .. | reflexivity ].
  - apply C89_without; [ assumption | apply P3 | reflexivity ].
  - apply C89_merge; [ assumption | apply by_wf; reflexivity | reflexivity ].
Qed.
