(** Facts about [veq] and map operations. *)

From Coq Require Import String List ZArith Bool Arith Lia.
From Verif Require Import Str Value.
Import ListNotations.
Open Scope bool_scope.
Open Scope list_scope.

(** * Induction principle *)

Section Ind.
  Variable P : value -> Prop.
  Hypothesis Hnil : P VNil.
  Hypothesis Hbool : forall b, P (VBool b).
  Hypothesis Hint : forall z, P (VInt z).
  Hypothesis Hfloat : forall z, P (VFloat z).
  Hypothesis Hstr : forall s, P (VStr s).
  Hypothesis Harr : forall l, Forall P l -> P (VArr l).
  Hypothesis Hmap : forall m, Forall (fun e => P (fst e) /\ P (snd e)) m -> P (VMap m).
  Hypothesis Hsens : forall v, P v -> P (VSens v).

  Fixpoint value_ind2 (v : value) : P v :=
    match v with
    | VNil => Hnil
    | VBool b => Hbool b
    | VInt z => Hint z
    | VFloat z => Hfloat z
    | VStr s => Hstr s
    | VArr l =>
        Harr l ((fix go (l : list value) : Forall P l :=
                   match l with
                   | [] => Forall_nil _
                   | x :: r => Forall_cons x (value_ind2 x) (go r)
                   end) l)
    | VMap m =>
        Hmap m ((fix go (m : entries) : Forall (fun e => P (fst e) /\ P (snd e)) m :=
                   match m with
                   | [] => Forall_nil _
                   | e :: r => Forall_cons e (conj (value_ind2 (fst e)) (value_ind2 (snd e))) (go r)
                   end) m)
    | VSens x => Hsens x (value_ind2 x)
    end.
End Ind.

(** * Unfolding equations of [veq] *)

Fixpoint all2 (l l' : list value) : bool :=
  match l, l' with
  | [], [] => true
  | x :: r, y :: r' => veq x y && all2 r r'
  | _, _ => false
  end.

Definition esub (m' : entries) (e : value * value) : bool :=
  match mget (fst e) m' with Some v' => veq (snd e) v' | None => false end.

Lemma veq_arr l l' : veq (VArr l) (VArr l') = all2 l l'.
Proof.
  reflexivity.
Qed.

Lemma veq_map m m' :
  veq (VMap m) (VMap m') = Nat.eqb (List.length m) (List.length m') && forallb (esub m') m.
Proof.
  simpl. f_equal.
  induction m as [|[k v] m IH]; [reflexivity|].
  simpl. rewrite IH. f_equal.
  unfold esub. simpl. clear.
  induction m' as [|[k' v'] m' IH]; [reflexivity|].
  simpl. destruct (veq k k'); auto.
Qed.

Lemma all2_spec l l' : all2 l l' = true <-> Forall2 (fun x y => veq x y = true) l l'.
Proof.
  revert l'. induction l as [|x l IH]; intros [|y l']; simpl; split; intro H; try discriminate;
    try constructor; try (now inversion H).
  - apply andb_true_iff in H. tauto.
  - apply IH. apply andb_true_iff in H. tauto.
  - inversion H; subst. apply andb_true_iff; split; auto. now apply IH.
Qed.

(** * Size *)

Fixpoint vsize (v : value) : nat :=
  match v with
  | VArr l => S (list_sum (map vsize l))
  | VMap m => S (list_sum (map (fun e => vsize (fst e) + vsize (snd e)) m))
  | VSens x => S (vsize x)
  | _ => 1
  end.

Lemma list_sum_in (l : list nat) x : In x l -> x <= list_sum l.
Proof. induction l; simpl; intros H; destruct H; subst; try lia. specialize (IHl H). lia. Qed.

Lemma vsize_arr_in l x : In x l -> vsize x < vsize (VArr l).
Proof. intros H. simpl. apply (in_map vsize), list_sum_in in H. lia. Qed.

Lemma vsize_map_in m e : In e m -> vsize (fst e) < vsize (VMap m) /\ vsize (snd e) < vsize (VMap m).
Proof.
  intros H. simpl. apply (in_map (fun e => vsize (fst e) + vsize (snd e))), list_sum_in in H. lia.
Qed.

(** * Well-formedness *)

Lemma wf_arr l : wf (VArr l) = true <-> Forall (fun x => wf x = true) l.
Proof. simpl. rewrite forallb_forall, Forall_forall. reflexivity. Qed.

Definition distinct (k k' : value) : Prop := veq k k' = false /\ veq k' k = false.

Lemma nodup_keys_spec m :
  nodup_keys m = true <-> ForallOrdPairs (fun e e' => distinct (fst e) (fst e')) m.
Proof.
  induction m as [|[k v] m IH]; simpl.
  - split; auto using FOP_nil.
  - rewrite andb_true_iff, IH, forallb_forall. split.
    + intros [H1 H2]. constructor; auto. apply Forall_forall. intros e He. specialize (H1 e He).
      apply andb_true_iff in H1. destruct H1 as [Ha Hb]. apply negb_true_iff in Ha, Hb. split; auto.
    + intros H. inversion H as [|? ? H1 H2]; subst. split; auto. intros e He.
      rewrite Forall_forall in H1. destruct (H1 e He) as [Ha Hb]. simpl in *. now rewrite Ha, Hb.
Qed.

Lemma wf_map m :
  wf (VMap m) = true <->
  ForallOrdPairs (fun e e' => distinct (fst e) (fst e')) m /\
  Forall (fun e => wf (fst e) = true /\ wf (snd e) = true) m.
Proof.
  simpl. rewrite andb_true_iff, nodup_keys_spec, forallb_forall, Forall_forall.
  split; intros [H1 H2]; split; auto; intros e He; specialize (H2 e He);
    apply andb_true_iff in H2 || apply andb_true_iff; auto.
Qed.

Lemma fop_in {A} (R : A -> A -> Prop) l x y :
  ForallOrdPairs R l -> In x l -> In y l -> x = y \/ R x y \/ R y x.
Proof. intros H Hx Hy. apply (ForallOrdPairs_In H); auto. Qed.

Lemma mget_in k m v : mget k m = Some v -> exists k', In (k', v) m /\ veq k k' = true.
Proof.
  induction m as [|[k' v'] m IH]; simpl; [discriminate|].
  destruct (veq k k') eqn:E.
  - intros [= <-]. exists k'. auto.
  - intros H. destruct (IH H) as (k'' & Hin & He). exists k''. auto.
Qed.

Lemma mget_none k m : mget k m = None <-> forall e, In e m -> veq k (fst e) = false.
Proof.
  induction m as [|[k' v'] m IH]; simpl.
  - split; auto. intros _ e [].
  - destruct (veq k k') eqn:E.
    + split; [discriminate|]. intros H. specialize (H (k', v') (or_introl eq_refl)). simpl in H. congruence.
    + rewrite IH. split; intros H e.
      * intros [<-|Hin]; auto.
      * auto.
Qed.

Lemma mget_unique k m e :
  (forall e1 e2, In e1 m -> In e2 m -> veq k (fst e1) = true -> veq k (fst e2) = true -> e1 = e2) ->
  In e m -> veq k (fst e) = true -> mget k m = Some (snd e).
Proof.
  intros Hu Hin He. destruct (mget k m) as [v|] eqn:G.
  - apply mget_in in G. destruct G as (k' & Hin' & He').
    specialize (Hu (k', v) e Hin' Hin He' He). subst e. reflexivity.
  - rewrite mget_none in G. rewrite (G e Hin) in He. discriminate.
Qed.

(** * [veq] is an equivalence on well-formed values *)

Lemma veq_refl a : wf a = true -> veq a a = true.
Proof.
  induction a using value_ind2; intros W; simpl; auto using Bool.eqb_reflx, Z.eqb_refl, String.eqb_refl.
  - change (veq (VArr l) (VArr l) = true). rewrite veq_arr, all2_spec.
    apply wf_arr in W. induction l; constructor; inversion H; inversion W; auto.
  - change (veq (VMap m) (VMap m) = true). rewrite veq_map, Nat.eqb_refl. simpl.
    apply wf_map in W. destruct W as [Hd Hw]. apply forallb_forall. intros e He. unfold esub.
    rewrite Forall_forall in H, Hw. destruct (H e He) as [Hk Hv]. destruct (Hw e He) as [Wk Wv].
    rewrite (mget_unique (fst e) m e); auto.
    intros e1 e2 H1 H2 E1 E2.
    assert (e = e1) as <-.
    { destruct (fop_in _ _ e e1 Hd He H1) as [|[[? ?]|[? ?]]]; congruence. }
    destruct (fop_in _ _ e e2 Hd He H2) as [|[[? ?]|[? ?]]]; congruence.
Qed.

Definition eqv_upto (n : nat) : Prop :=
  forall a b c, vsize a <= n -> vsize b <= n -> vsize c <= n ->
    wf a = true -> wf b = true -> wf c = true ->
    (veq a b = true -> veq b a = true) /\
    (veq a b = true -> veq b c = true -> veq a c = true).

Lemma map_match n m m' :
  eqv_upto n ->
  wf (VMap m) = true -> wf (VMap m') = true ->
  vsize (VMap m) <= S n -> vsize (VMap m') <= S n ->
  forall k, wf k = true -> vsize k <= n ->
  forall e1 e2, In e1 m' -> In e2 m' -> veq k (fst e1) = true -> veq k (fst e2) = true -> e1 = e2.
Proof.
  intros HE W W' S1 S2 k Wk Sk e1 e2 H1 H2 E1 E2.
  apply wf_map in W'. destruct W' as [Hd Hw]. rewrite Forall_forall in Hw.
  destruct (Hw _ H1) as [W1 _], (Hw _ H2) as [W2 _].
  destruct (vsize_map_in _ _ H1) as [Z1 _], (vsize_map_in _ _ H2) as [Z2 _].
  assert (veq (fst e1) k = true) as E1'. { apply (HE k (fst e1) k); auto; lia. }
  assert (veq (fst e1) (fst e2) = true) as E12.
  { apply (HE (fst e1) k (fst e2)); auto; lia. }
  destruct (fop_in _ _ e1 e2 Hd H1 H2) as [|[[? ?]|[? ?]]]; congruence.
Qed.

Lemma veq_kind_map m b : veq (VMap m) b = true -> exists m', b = VMap m'.
Proof. destruct b; simpl; try discriminate. eauto. Qed.
Lemma veq_kind_arr l b : veq (VArr l) b = true -> exists l', b = VArr l'.
Proof. destruct b; simpl; try discriminate. eauto. Qed.

Lemma veq_map_entry m m' e :
  veq (VMap m) (VMap m') = true -> In e m ->
  exists e', In e' m' /\ veq (fst e) (fst e') = true /\ veq (snd e) (snd e') = true.
Proof.
  rewrite veq_map, andb_true_iff, forallb_forall. intros [_ H] He. specialize (H e He).
  unfold esub in H. destruct (mget (fst e) m') as [v|] eqn:G; [|discriminate].
  apply mget_in in G. destruct G as (k' & Hin & Hk). exists (k', v). auto.
Qed.

Lemma map_surj n m m' :
  eqv_upto n ->
  wf (VMap m) = true -> wf (VMap m') = true ->
  vsize (VMap m) <= S n -> vsize (VMap m') <= S n ->
  veq (VMap m) (VMap m') = true ->
  forall e', In e' m' -> exists e, In e m /\ veq (fst e) (fst e') = true /\ veq (snd e) (snd e') = true.
Proof.
  intros HE W W' S1 S2 E.
  assert (List.length m = List.length m') as HL.
  { rewrite veq_map, andb_true_iff in E. apply Nat.eqb_eq. tauto. }
  assert (exists l2, Forall2 (fun e e' => In e' m' /\ veq (fst e) (fst e') = true /\ veq (snd e) (snd e') = true) m l2) as [l2 HF].
  { assert (forall e, In e m -> exists e', In e' m' /\ veq (fst e) (fst e') = true /\ veq (snd e) (snd e') = true) as HX
      by (intros; now apply (veq_map_entry m m' e)).
    clear -HX. induction m as [|e m IH]; [exists []; constructor|].
    destruct (HX e (or_introl eq_refl)) as [e' He'].
    destruct IH as [l2 Hl2]; [intros; apply HX; now right|].
    exists (e' :: l2). constructor; auto. }
  assert (incl l2 m') as Hincl.
  { intros x Hx. clear -HF Hx. induction HF; [contradiction|]. destruct Hx as [<-|]; tauto. }
  assert (forall e e2, In e m -> In e2 m -> forall e', In e' m' ->
            veq (fst e) (fst e') = true -> veq (fst e2) (fst e') = true -> e = e2) as Hinj.
  { intros e e2 He He2 e' He' E1 E2.
    apply wf_map in W. destruct W as [Hd Hw]. rewrite Forall_forall in Hw.
    apply wf_map in W'. destruct W' as [_ Hw']. rewrite Forall_forall in Hw'.
    destruct (Hw _ He) as [? _], (Hw _ He2) as [? _], (Hw' _ He') as [? _].
    destruct (vsize_map_in _ _ He) as [? _], (vsize_map_in _ _ He2) as [? _], (vsize_map_in _ _ He') as [? _].
    assert (veq (fst e') (fst e2) = true). { apply (HE (fst e2) (fst e') (fst e)); auto; lia. }
    assert (veq (fst e) (fst e2) = true). { apply (HE (fst e) (fst e') (fst e2)); auto; lia. }
    destruct (fop_in _ _ e e2 Hd He He2) as [|[[? ?]|[? ?]]]; congruence. }
  assert (NoDup l2) as Hnd.
  { assert (NoDup m) as Hm.
    { apply wf_map in W. destruct W as [Hd Hw]. clear -Hd Hw.
      induction m as [|e m IH]; constructor.
      - intros Hin. inversion Hd as [|? ? H1 H2]; subst. rewrite Forall_forall in H1.
        destruct (H1 _ Hin) as [Hx _]. inversion Hw as [|? ? [Wk _] ?]; subst.
        rewrite veq_refl in Hx; auto; discriminate.
      - inversion Hd; inversion Hw; auto. }
    assert (forall x, In x m -> In x m) as Hsub by auto.
    revert Hsub. generalize m at 2. intros m0 Hsub.
    assert (Hinj' : forall e e2, In e m -> In e2 m -> forall e', In e' m' ->
            veq (fst e) (fst e') = true -> veq (fst e2) (fst e') = true -> e = e2) by auto.
    clear -HF Hm Hinj'. induction HF as [|e e' m l2 [H1 [H2 H3]] HF IH]; constructor.
    - intros Hin. inversion Hm as [|? ? Hni Hm']; subst.
      assert (exists e2, In e2 m /\ veq (fst e2) (fst e') = true) as (e2 & He2 & Ee2).
      { clear -HF Hin. induction HF; [contradiction|]. destruct Hin as [->|Hin].
        - exists x. simpl. tauto.
        - destruct (IHHF Hin) as (e2 & ? & ?). exists e2. simpl. auto. }
      apply Hni. rewrite (Hinj' e e2 (or_introl eq_refl) (or_intror He2) e' H1 H2 Ee2). auto.
    - inversion Hm; subst. apply IH; auto. intros a b Ha Hb. apply Hinj'; now right. }
  assert (incl m' l2) as Hincl2.
  { apply NoDup_length_incl; auto. rewrite <- HL. clear -HF. induction HF; simpl; lia. }
  intros e' He'. apply Hincl2 in He'.
  clear -HF He'. induction HF; [contradiction|]. destruct He' as [<-|He'].
  - exists x. simpl. tauto.
  - destruct (IHHF He') as (e2 & ? & ?). exists e2. simpl. tauto.
Qed.

Lemma eqv_all n : eqv_upto n.
Proof.
  induction n as [|n IH].
  { intros a b c Ha. destruct a; simpl in Ha; lia. }
  intros a b c Sa Sb Sc Wa Wb Wc. split.
  - (* symmetry *)
    intros E. destruct a.
    1-5: destruct b; simpl in E |- *; try discriminate; auto.
    + apply Bool.eqb_prop in E. subst. apply Bool.eqb_reflx.
    + apply Z.eqb_eq in E. subst. apply Z.eqb_refl.
    + apply Z.eqb_eq in E. subst. apply Z.eqb_refl.
    + apply String.eqb_eq in E. subst. apply String.eqb_refl.
    + destruct (veq_kind_arr _ _ E) as [l' ->]. rewrite veq_arr in *. rewrite all2_spec in *.
      apply wf_arr in Wa, Wb.
      assert (Forall (fun x => vsize x <= n) l) as Za.
      { apply Forall_forall. intros x Hx. apply vsize_arr_in in Hx. lia. }
      assert (Forall (fun x => vsize x <= n) l') as Zb.
      { apply Forall_forall. intros x Hx. apply vsize_arr_in in Hx. lia. }
      clear -E IH Wa Wb Za Zb.
      induction E; constructor; inversion Wa; inversion Wb; inversion Za; inversion Zb; subst; auto.
      apply (IH x y x); auto.
    + destruct (veq_kind_map _ _ E) as [m' ->].
      pose proof (map_surj n m m' IH Wa Wb Sa Sb E) as HS.
      rewrite veq_map in E |- *. apply andb_true_iff in E. destruct E as [EL _].
      apply Nat.eqb_eq in EL. rewrite EL, Nat.eqb_refl. simpl. apply forallb_forall.
      intros e' He'. destruct (HS e' He') as (e & He & Ek & Ev). unfold esub.
      pose proof Wa as Wa'. pose proof Wb as Wb'.
      apply wf_map in Wa'. destruct Wa' as [_ Hw]. rewrite Forall_forall in Hw.
      apply wf_map in Wb'. destruct Wb' as [_ Hw']. rewrite Forall_forall in Hw'.
      destruct (Hw _ He) as [Wk Wv], (Hw' _ He') as [Wk' Wv'].
      destruct (vsize_map_in _ _ He) as [Zk Zv], (vsize_map_in _ _ He') as [Zk' Zv'].
      rewrite (mget_unique (fst e') m e); auto.
      * apply (IH (snd e) (snd e') (snd e)); auto; lia.
      * apply (map_match n m' m IH Wb Wa Sb Sa); auto; lia.
      * apply (IH (fst e) (fst e') (fst e)); auto; lia.
    + destruct b; simpl in E |- *; try discriminate. simpl in *. apply (IH a b a); auto; lia.
  - (* transitivity *)
    intros E1 E2. destruct a.
    1-5: destruct b; simpl in E1; try discriminate; destruct c; simpl in E2 |- *; try discriminate; auto.
    + apply Bool.eqb_prop in E1. now subst.
    + apply Z.eqb_eq in E1. now subst.
    + apply Z.eqb_eq in E1. now subst.
    + apply String.eqb_eq in E1. now subst.
    + destruct (veq_kind_arr _ _ E1) as [l' ->]. destruct (veq_kind_arr _ _ E2) as [l'' ->].
      rewrite veq_arr in *. rewrite all2_spec in *.
      apply wf_arr in Wa, Wb, Wc.
      assert (Forall (fun x => vsize x <= n) l) as Za.
      { apply Forall_forall. intros x Hx. apply vsize_arr_in in Hx. lia. }
      assert (Forall (fun x => vsize x <= n) l') as Zb.
      { apply Forall_forall. intros x Hx. apply vsize_arr_in in Hx. lia. }
      assert (Forall (fun x => vsize x <= n) l'') as Zc.
      { apply Forall_forall. intros x Hx. apply vsize_arr_in in Hx. lia. }
      clear -E1 E2 IH Wa Wb Wc Za Zb Zc. revert l'' E2 Wc Zc.
      induction E1; intros l'' E2 Wc Zc; inversion E2; subst; constructor;
        inversion Wa; inversion Wb; inversion Wc; inversion Za; inversion Zb; inversion Zc; subst; auto.
      apply (IH x y y0); auto.
    + destruct (veq_kind_map _ _ E1) as [m' ->]. destruct (veq_kind_map _ _ E2) as [m'' ->].
      pose proof E1 as F1. pose proof E2 as F2.
      rewrite veq_map in F1, F2 |- *. apply andb_true_iff in F1, F2. destruct F1 as [L1 _], F2 as [L2 _].
      apply Nat.eqb_eq in L1, L2. rewrite L1, L2, Nat.eqb_refl. simpl. apply forallb_forall.
      intros e He. unfold esub.
      destruct (veq_map_entry _ _ _ E1 He) as (e' & He' & Ek & Ev).
      destruct (veq_map_entry _ _ _ E2 He') as (e'' & He'' & Ek' & Ev').
      pose proof Wa as Wa'. pose proof Wb as Wb'. pose proof Wc as Wc'.
      apply wf_map in Wa'. destruct Wa' as [_ Hw]. rewrite Forall_forall in Hw.
      apply wf_map in Wb'. destruct Wb' as [_ Hw']. rewrite Forall_forall in Hw'.
      apply wf_map in Wc'. destruct Wc' as [_ Hw'']. rewrite Forall_forall in Hw''.
      destruct (Hw _ He), (Hw' _ He'), (Hw'' _ He'').
      destruct (vsize_map_in _ _ He), (vsize_map_in _ _ He'), (vsize_map_in _ _ He'').
      rewrite (mget_unique (fst e) m'' e''); auto.
      * apply (IH (snd e) (snd e') (snd e'')); auto; lia.
      * apply (map_match n m m'' IH Wa Wc Sa Sc); auto; lia.
      * apply (IH (fst e) (fst e') (fst e'')); auto; lia.
    + destruct b; simpl in E1; try discriminate; destruct c; simpl in E2 |- *; try discriminate.
      simpl in *. apply (IH a b c); auto; lia.
Qed.

Lemma veq_sym a b : wf a = true -> wf b = true -> veq a b = true -> veq b a = true.
Proof. intros. apply (eqv_all (vsize a + vsize b) a b a); auto; lia. Qed.

Lemma veq_trans a b c :
  wf a = true -> wf b = true -> wf c = true -> veq a b = true -> veq b c = true -> veq a c = true.
Proof. intros. apply (eqv_all (vsize a + vsize b + vsize c) a b c); auto; lia. Qed.

Lemma veq_sym_eq a b : wf a = true -> wf b = true -> veq a b = veq b a.
Proof.
  intros Wa Wb. destruct (veq a b) eqn:E, (veq b a) eqn:F; auto.
  - apply veq_sym in E; auto. congruence.
  - apply veq_sym in F; auto. congruence.
Qed.

Lemma veq_cong_l a b c : wf a = true -> wf b = true -> wf c = true -> veq a b = true -> veq a c = veq b c.
Proof.
  intros Wa Wb Wc E. destruct (veq a c) eqn:F, (veq b c) eqn:G; auto.
  - rewrite <- G. symmetry. apply (veq_trans b a c); auto. now apply veq_sym.
  - rewrite <- F. apply (veq_trans a b c); auto.
Qed.

(** * Map operations *)

Definition wfm (m : entries) : Prop := wf (VMap m) = true.

Lemma wfm_nil : wfm [].
Proof. reflexivity. Qed.

Lemma wfm_cons k v m :
  wfm ((k, v) :: m) <->
  wf k = true /\ wf v = true /\ wfm m /\ (forall e, In e m -> distinct k (fst e)).
Proof.
  unfold wfm. rewrite !wf_map. split.
  - intros [H1 H2]. inversion H1; inversion H2; subst. simpl in *. rewrite Forall_forall in *. intuition.
  - intros (Wk & Wv & [H1 H2] & H3). split; constructor; simpl; auto. now apply Forall_forall.
Qed.

Lemma wfm_in m e : wfm m -> In e m -> wf (fst e) = true /\ wf (snd e) = true.
Proof. unfold wfm. rewrite wf_map, Forall_forall. firstorder. Qed.

Lemma mget_wf k m v : wfm m -> mget k m = Some v -> wf v = true.
Proof. intros W G. apply mget_in in G. destruct G as (k' & Hin & _). now apply (wfm_in _ _ W) in Hin. Qed.

Lemma mget_cong k k' m : wfm m -> wf k = true -> wf k' = true -> veq k k' = true -> mget k m = mget k' m.
Proof.
  induction m as [|[x v] m IH]; intros W Wk Wk' E; [reflexivity|].
  apply wfm_cons in W. destruct W as (Wx & Wv & Wm & _). simpl.
  rewrite (veq_cong_l k k' x); auto. now rewrite IH.
Qed.

Lemma mget_self k v m : wfm m -> In (k, v) m -> mget k m = Some v.
Proof.
  intros W Hin. induction m as [|[x w] m IH]; [contradiction|].
  apply wfm_cons in W. destruct W as (Wx & Wv & Wm & Hd). simpl. destruct Hin as [[= -> ->]|Hin].
  - now rewrite veq_refl.
  - destruct (Hd _ Hin) as [_ Hx]. simpl in Hx. rewrite Hx. auto.
Qed.

Lemma mput_keys_in k v m e : In e (mput k v m) -> In e m \/ snd e = v /\ (fst e = k \/ exists w, In (fst e, w) m).
Proof.
  induction m as [|[x w] m IH]; simpl.
  - intros [<-|[]]. right. auto.
  - destruct (veq k x) eqn:E; simpl.
    + intros [<-|H]; auto. right. split; auto. right. exists w. auto.
    + intros [<-|H]; auto. destruct (IH H) as [?|[? [?|[w' ?]]]]; auto. right. split; auto. right. exists w'. auto.
Qed.

Lemma mput_wf k v m : wfm m -> wf k = true -> wf v = true -> wfm (mput k v m).
Proof.
  intros W Wk Wv. induction m as [|[x w] m IH]; simpl.
  - apply wfm_cons. repeat split; auto; contradiction.
  - apply wfm_cons in W. destruct W as (Wx & Ww & Wm & Hd).
    destruct (veq k x) eqn:E; apply wfm_cons; (split; [assumption|split; [assumption|split; [auto|]]]); [apply Hd|].
    intros e H. apply mput_keys_in in H. destruct H as [H|[_ [->|[w' H]]]]; try apply (Hd _ H).
    split; auto. rewrite veq_sym_eq; auto.
Qed.

Lemma mget_mput k v m j :
  wfm m -> wf k = true -> wf j = true ->
  mget j (mput k v m) = if veq j k then Some v else mget j m.
Proof.
  intros W Wk Wj. induction m as [|[x w] m IH]; simpl.
  - reflexivity.
  - apply wfm_cons in W. destruct W as (Wx & Ww & Wm & Hd).
    destruct (veq k x) eqn:E; simpl.
    + rewrite (veq_sym_eq j x), (veq_sym_eq j k); auto.
      rewrite <- (veq_cong_l k x j); auto. rewrite veq_sym_eq; auto. destruct (veq j k); auto.
    + destruct (veq j x) eqn:F.
      * destruct (veq j k) eqn:G; auto. exfalso.
        assert (veq k x = true); [|congruence].
        apply (veq_trans k j x); auto. now apply veq_sym.
      * now apply IH.
Qed.

Lemma mputall_cons m e a : mputall m (e :: a) = mputall (mput (fst e) (snd e) m) a.
Proof. reflexivity. Qed.

Lemma mputall_wf a : forall m, wfm m -> wfm a -> wfm (mputall m a).
Proof.
  induction a as [|[k v] a IH]; intros m W Wa; auto.
  apply wfm_cons in Wa. destruct Wa as (? & ? & ? & _).
  rewrite mputall_cons. apply IH; auto. now apply mput_wf.
Qed.

Lemma mget_mputall a : forall m j, wfm m -> wfm a -> wf j = true ->
  mget j (mputall m a) = match mget j a with Some v => Some v | None => mget j m end.
Proof.
  induction a as [|[k v] a IH]; intros m j W Wa Wj; auto.
  apply wfm_cons in Wa. destruct Wa as (Wk & Wv & Wa & Hd).
  rewrite mputall_cons, IH; auto; [|now apply mput_wf].
  simpl. rewrite mget_mput; auto.
  destruct (veq j k) eqn:E; auto.
  destruct (mget j a) eqn:G; auto. exfalso.
  apply mget_in in G. destruct G as (k' & Hin & Ek').
  destruct (Hd _ Hin) as [Hkk _]. simpl in Hkk.
  assert (veq k k' = true); [|congruence].
  apply (veq_trans k j k'); auto.
  - apply (wfm_in _ _ Wa) in Hin. simpl in Hin. tauto.
  - now apply veq_sym.
Qed.

Lemma mgets_str s m v : mgets s m = Some v <-> exists m1 m2, m = m1 ++ (VStr s, v) :: m2 /\ mgets s m1 = None.
Proof.
  unfold mgets. split.
  - induction m as [|[k w] m IH]; [discriminate|]. cbn [mget].
    destruct (veq (VStr s) k) eqn:E.
    + intros [= <-]. destruct k; simpl in E; try discriminate. apply String.eqb_eq in E. subst.
      exists [], m. auto.
    + intros H. destruct (IH H) as (m1 & m2 & -> & H1). exists ((k, w) :: m1), m2. split; auto.
      cbn [mget]. now rewrite E.
  - intros (m1 & m2 & -> & H1). induction m1 as [|[k w] m1 IH].
    + cbn [app mget veq]. now rewrite String.eqb_refl.
    + cbn [app mget] in *. destruct (veq (VStr s) k); [discriminate|]. auto.
Qed.

Lemma veq_str_l s v : veq (VStr s) v = true <-> v = VStr s.
Proof.
  destruct v; simpl; split; intro H; try discriminate.
  - apply String.eqb_eq in H. now subst.
  - injection H as ->. apply String.eqb_refl.
Qed.
Lemma veq_int_l z v : veq (VInt z) v = true <-> v = VInt z.
Proof.
  destruct v; simpl; split; intro H; try discriminate.
  - apply Z.eqb_eq in H. now subst.
  - injection H as ->. apply Z.eqb_refl.
Qed.

(** * Unique *)

Lemma vmem_app v l1 l2 : vmem v (l1 ++ l2) = vmem v l1 || vmem v l2.
Proof. apply existsb_app. Qed.

Lemma vmem_in v l : vmem v l = true <-> exists x, In x l /\ veq x v = true.
Proof. unfold vmem. rewrite existsb_exists. reflexivity. Qed.

Lemma unique_acc_in seen l x : In x (unique_acc seen l) -> In x l.
Proof.
  revert seen. induction l as [|y l IH]; simpl; intros seen H; auto.
  destruct (vmem y seen); [right; eauto|]. destruct H; [auto|right; eauto].
Qed.

Lemma vunique_in l x : In x (vunique l) -> In x l.
Proof. apply unique_acc_in. Qed.
