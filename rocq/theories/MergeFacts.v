(** Proofs about merging. *)

From Coq Require Import String List ZArith Bool Arith Lia.
From Verif Require Import Str Value ValueFacts Outcome Merge SpecMerge.
Import ListNotations.
Open Scope list_scope.

(** * Unique *)

Lemma vmem_elem x l : vmem x l = true <-> elem x l.
Proof. apply vmem_in. Qed.
Lemma vmem_elem_false x l : vmem x l = false <-> ~ elem x l.
Proof. rewrite <- vmem_elem. destruct (vmem x l); split; congruence. Qed.

Lemma elem_app x l1 l2 : elem x (l1 ++ l2) <-> elem x l1 \/ elem x l2.
Proof. rewrite <- !vmem_elem, vmem_app, orb_true_iff. reflexivity. Qed.

Lemma elem_in x l : wf x = true -> In x l -> elem x l.
Proof. intros W H. exists x. split; auto. now apply veq_refl. Qed.

Definition wfl (l : list value) : Prop := Forall (fun x => wf x = true) l.

(** [r] collects the first occurrences of [seen]. *)
Lemma fo_mem l r : first_occurrences l r -> wfl l -> forall x, wf x = true -> (elem x r <-> elem x l).
Proof.
  induction 1 as [|l r y H IH He|l r y H IH He]; intros W x Wx.
  - reflexivity.
  - unfold wfl in W. apply Forall_app in W. destruct W as [Wl Wy]. inversion Wy as [|? ? Wy' _]; subst.
    rewrite IH; auto. rewrite elem_app. split; [auto|]. intros [?|(z & [<-|[]] & Hz)]; auto.
    destruct He as (z & Hz1 & Hz2). exists z. split; auto.
    unfold wfl in Wl. rewrite Forall_forall in Wl.
    apply (veq_trans z y x); auto.
  - unfold wfl in W. apply Forall_app in W. destruct W as [Wl Wy].
    rewrite !elem_app, IH; auto. reflexivity.
Qed.

Lemma fo_in l r : first_occurrences l r -> forall x, In x r -> In x l.
Proof.
  induction 1 as [|l r y H IH He|l r y H IH He]; intros x Hx.
  - contradiction.
  - apply in_or_app. auto.
  - apply in_app_or in Hx. apply in_or_app. destruct Hx; auto.
Qed.

Lemma unique_acc_fo : forall l pre r,
  wfl pre -> wfl l -> first_occurrences pre r -> first_occurrences (pre ++ l) (r ++ unique_acc r l).
Proof.
  induction l as [|x l IH]; intros pre r Wp Wl H.
  - now rewrite !app_nil_r.
  - inversion Wl as [|? ? Wx Wl']; subst.
    assert (wfl (pre ++ [x])) as Wpx. { apply Forall_app. split; auto. }
    replace (pre ++ x :: l) with ((pre ++ [x]) ++ l) by now rewrite <- app_assoc.
    cbn [unique_acc]. destruct (vmem x r) eqn:E.
    + apply IH; auto. apply fo_old; auto. apply vmem_elem in E. now apply (fo_mem _ _ H Wp).
    + replace (r ++ x :: unique_acc (r ++ [x]) l) with ((r ++ [x]) ++ unique_acc (r ++ [x]) l) by now rewrite <- app_assoc.
      apply IH; auto. apply fo_new; auto. apply vmem_elem_false in E. intros Hx. apply E. now apply (fo_mem _ _ H Wp).
Qed.

Lemma vunique_fo l : wfl l -> first_occurrences l (vunique l).
Proof. intros W. apply (unique_acc_fo l [] []); auto; constructor. Qed.

Lemma fo_det l r1 : first_occurrences l r1 -> forall r2, first_occurrences l r2 -> r1 = r2.
Proof.
  induction 1 as [|l r y H IH He|l r y H IH He]; intros r2 H2.
  - inversion H2; auto; match goal with X : _ ++ [_] = [] |- _ => apply app_eq_nil in X; destruct X; discriminate end.
  - inversion H2 as [E|l' r' x Hl Hx E|l' r' x Hl Hx E]; subst.
    + symmetry in E. apply app_eq_nil in E. destruct E; discriminate.
    + apply app_inj_tail in E. destruct E as [-> ->]. auto.
    + apply app_inj_tail in E. destruct E as [-> ->]. tauto.
  - inversion H2 as [E|l' r' x Hl Hx E|l' r' x Hl Hx E]; subst.
    + symmetry in E. apply app_eq_nil in E. destruct E; discriminate.
    + apply app_inj_tail in E. destruct E as [-> ->]. tauto.
    + apply app_inj_tail in E. destruct E as [-> ->]. f_equal. auto.
Qed.

Lemma vunique_unfold l r : wfl l -> (vunique l = r <-> first_occurrences l r).
Proof.
  intros W. split.
  - intros <-. now apply vunique_fo.
  - intros H. apply (fo_det l); auto. now apply vunique_fo.
Qed.

Lemma wfl_app a b : wfl (a ++ b) <-> wfl a /\ wfl b.
Proof. apply Forall_app. Qed.

Lemma fo_wfl l r : first_occurrences l r -> wfl l -> wfl r.
Proof. intros H W. apply Forall_forall. intros x Hx. apply (fo_in _ _ H) in Hx. unfold wfl in W. rewrite Forall_forall in W. auto. Qed.

Lemma vunique_wfl l : wfl l -> wfl (vunique l).
Proof. intros W. apply (fo_wfl l); auto. now apply vunique_fo. Qed.

(** Replacing a prefix by its first occurrences changes nothing. *)
Lemma fo_prefix l1 r1 : first_occurrences l1 r1 -> wfl l1 ->
  forall l2, wfl l2 -> forall r, first_occurrences (l1 ++ l2) r <-> first_occurrences (r1 ++ l2) r.
Proof.
  intros H W1. induction l2 as [|x l2 IH] using rev_ind; intros W2 r.
  - rewrite !app_nil_r.
    assert (first_occurrences r1 r1) as HR.
    { clear -H W1. induction H as [|l r y H IH He|l r y H IH He].
      - constructor.
      - apply IH. now apply wfl_app in W1.
      - apply wfl_app in W1. destruct W1 as [W1 Wy]. apply fo_new; auto. intros Hx. apply He.
        apply (fo_mem _ _ H W1); auto. now inversion Wy. }
    split; intros HX.
    + rewrite (fo_det _ _ HX _ H). auto.
    + rewrite (fo_det _ _ HX _ HR). auto.
  - apply wfl_app in W2. destruct W2 as [W2 Wx]. inversion Wx as [|? ? Wx' _]; subst.
    specialize (IH W2).
    assert (elem x (l1 ++ l2) <-> elem x (r1 ++ l2)) as HE.
    { rewrite !elem_app. rewrite (fo_mem _ _ H W1); auto. reflexivity. }
    rewrite !app_assoc. split; intros HX.
    + inversion HX as [E|l' r' y Hl Hy E|l' r' y Hl Hy E]; subst.
      * symmetry in E. apply app_eq_nil in E. destruct E; discriminate.
      * apply app_inj_tail in E. destruct E as [-> ->]. apply fo_old; [now apply IH|tauto].
      * apply app_inj_tail in E. destruct E as [-> ->]. apply fo_new; [now apply IH|tauto].
    + inversion HX as [E|l' r' y Hl Hy E|l' r' y Hl Hy E]; subst.
      * symmetry in E. apply app_eq_nil in E. destruct E; discriminate.
      * apply app_inj_tail in E. destruct E as [-> ->]. apply fo_old; [now apply IH|tauto].
      * apply app_inj_tail in E. destruct E as [-> ->]. apply fo_new; [now apply IH|tauto].
Qed.

Lemma vunique_app_l l1 l2 : wfl l1 -> wfl l2 -> vunique (vunique l1 ++ l2) = vunique (l1 ++ l2).
Proof.
  intros W1 W2. symmetry. apply vunique_unfold.
  - now apply wfl_app.
  - apply (fo_prefix l1 (vunique l1)); auto using vunique_fo. apply vunique_fo. apply wfl_app. auto using vunique_wfl.
Qed.

Lemma vunique_idem l : wfl l -> vunique (vunique l) = vunique l.
Proof. intros W. pose proof (vunique_app_l l [] W (Forall_nil _)) as H. now rewrite !app_nil_r in H. Qed.

(** Replacing a suffix by its first occurrences changes nothing. *)
Lemma fo_split l1 l2 r1 r : first_occurrences l1 r1 -> first_occurrences (l1 ++ l2) r ->
  exists r2, r = r1 ++ r2.
Proof.
  intros H1. revert r. induction l2 as [|x l2 IH] using rev_ind; intros r H.
  - rewrite app_nil_r in H. exists []. rewrite app_nil_r. now apply (fo_det l1).
  - rewrite app_assoc in H. inversion H as [E|l' r' y Hl Hy E|l' r' y Hl Hy E]; subst.
    + symmetry in E. apply app_eq_nil in E. destruct E; discriminate.
    + apply app_inj_tail in E. destruct E as [-> ->]. auto.
    + apply app_inj_tail in E. destruct E as [-> ->]. destruct (IH _ Hl) as [r2 ->]. exists (r2 ++ [x]). now rewrite app_assoc.
Qed.

Lemma vunique_app_r l1 l2 : wfl l1 -> wfl l2 -> vunique (l1 ++ vunique l2) = vunique (l1 ++ l2).
Proof.
  intros W1. induction l2 as [|x l2 IH] using rev_ind; intros W2; [reflexivity|].
  apply wfl_app in W2. destruct W2 as [W2 Wx]. inversion Wx as [|? ? Wx' _]; subst.
  specialize (IH W2).
  assert (forall l, wfl l -> vunique (l ++ [x]) = if vmem x l then vunique l else vunique l ++ [x]) as HS.
  { intros l Wl. apply vunique_unfold; [now apply wfl_app|].
    destruct (vmem x l) eqn:E.
    - apply fo_old; [now apply vunique_fo|now apply vmem_elem].
    - apply fo_new; [now apply vunique_fo|now apply vmem_elem_false]. }
  assert (wfl (l1 ++ l2)) as W12 by (apply wfl_app; auto).
  rewrite app_assoc, (HS (l1 ++ l2)), (HS l2); auto.
  assert (vmem x (vunique l2) = vmem x l2) as HU.
  { pose proof (fo_mem _ _ (vunique_fo l2 W2) W2 x Wx') as HM. rewrite <- !vmem_elem in HM.
    destruct (vmem x (vunique l2)), (vmem x l2); auto; [symmetry|]; tauto. }
  destruct (vmem x l2) eqn:E.
  - rewrite vmem_app, E, orb_true_r. exact IH.
  - rewrite app_assoc, HS, IH.
    + rewrite !vmem_app, HU, E. reflexivity.
    + apply wfl_app. auto using vunique_wfl.
Qed.

Lemma no_dups_fo l : no_dups l -> wfl l -> first_occurrences l l.
Proof.
  assert (forall l pre, wfl (pre ++ l) -> first_occurrences pre pre -> no_dups l -> (forall x, In x l -> ~ elem x pre) ->
            first_occurrences (pre ++ l) (pre ++ l)) as HX.
  { clear l. induction l as [|x l IH]; intros pre W Hp Hn Hd.
    - now rewrite app_nil_r.
    - replace (pre ++ x :: l) with ((pre ++ [x]) ++ l) in * by now rewrite <- app_assoc.
      inversion Hn as [|? ? Hx Hl]; subst.
      apply IH; auto.
      + apply fo_new; auto. apply Hd. now left.
      + intros y Hy. rewrite elem_app. intros [F|(z & [<-|[]] & Hz)].
        * apply (Hd y); auto. now right.
        * apply Hx. exists y. split; auto.
          apply wfl_app in W. destruct W as [Wp Wl]. apply wfl_app in Wp. destruct Wp as [_ Wx]. inversion Wx; subst.
          unfold wfl in Wl. rewrite Forall_forall in Wl. apply veq_sym; auto. }
  intros Hn W. apply (HX l []); auto; try constructor. intros x _ (y & [] & _).
Qed.

Lemma fo_no_dups l r : first_occurrences l r -> wfl l -> no_dups r.
Proof.
  induction 1 as [|l r y H IH He|l r y H IH He]; intros W.
  - constructor.
  - apply IH. now apply wfl_app in W.
  - apply wfl_app in W. destruct W as [W Wy]. inversion Wy as [|? ? Wy' _]; subst.
    specialize (IH W). assert (~ elem y r) as Hr by (rewrite (fo_mem _ _ H W); auto).
    pose proof (fo_wfl _ _ H W) as Wr. clear -IH Hr Wr Wy'.
    induction r as [|x r IHr]; simpl.
    + constructor; [|constructor]. intros (? & [] & _).
    + inversion IH as [|? ? Hx Hn]; subst. inversion Wr; subst. constructor.
      * rewrite elem_app. intros [F|(z & [<-|[]] & Hz)]; [tauto|].
        apply Hr. exists x. split; [now left|]. apply veq_sym; auto.
      * apply IHr; auto. intros (z & Hz1 & Hz2). apply Hr. exists z. split; auto. now right.
Qed.

Lemma Forall2_in_r {A B} (R : A -> B -> Prop) l l' :
  Forall2 R l l' -> forall y, In y l' -> exists x, In x l /\ R x y.
Proof.
  induction 1 as [|a b l l' Hab H IH]; intros y Hy; [contradiction|].
  destruct Hy as [<-|Hy]; [exists a; simpl; auto|].
  destruct (IH y Hy) as (x & ? & ?). exists x. simpl. auto.
Qed.

Lemma fo_same_length l r lb : first_occurrences (l ++ lb) r -> wfl (l ++ lb) ->
  all2 r l = true -> r = l.
Proof.
  intros H W E. apply all2_spec in E.
  pose proof (fo_no_dups _ _ H W) as Hn.
  pose proof (fo_wfl _ _ H W) as Wr.
  apply wfl_app in W. destruct W as [Wl Wb].
  assert (no_dups l) as Hl.
  { clear H. induction E as [|x y r l Exy E IH]; [constructor|].
    inversion Hn as [|? ? Hx Hn']; inversion Wr; inversion Wl; subst. constructor; auto.
    intros (z & Hz1 & Hz2). apply Hx.
    destruct (Forall2_in_r _ _ _ E z Hz1) as (w & Hw1 & Hw2).
    exists w. split; auto. unfold wfl in *. rewrite Forall_forall in *.
    apply (veq_trans w z x); auto. apply (veq_trans z y x); auto. now apply veq_sym. }
  destruct (fo_split l lb l r) as [r2 ->]; auto.
  - apply no_dups_fo; auto.
  - assert (List.length (l ++ r2) = List.length l) as HL. { clear -E. induction E; simpl; auto. }
    rewrite app_length in HL. destruct r2; [now rewrite app_nil_r|simpl in HL; lia].
Qed.

(** * Flattening *)

Scheme flat_ind2 := Induction for flat Sort Prop
  with flat_list_ind2 := Induction for flat_list Sort Prop.

Lemma vflat_flat v : flat v (vflat v).
Proof.
  induction v using value_ind2; try (constructor; intros l' E; discriminate).
  simpl. constructor. induction H as [|x l Hx Hl IH]; simpl; constructor; auto.
Qed.

Lemma flat_det : forall v r, flat v r -> r = vflat v.
Proof.
  fix IH 3. intros v r H. destruct H as [v Hn|l r Hl].
  - destruct v; simpl; auto. exfalso. now apply (Hn l).
  - simpl. revert l r Hl. fix IHl 3. intros l r Hl. destruct Hl as [|v l r1 r2 Hv Hl]; [reflexivity|].
    simpl. f_equal; [now apply IH|now apply IHl].
Qed.

Lemma vflatten_flat l : flat_list l (vflatten l).
Proof.
  pose proof (vflat_flat (VArr l)) as H. inversion H as [v Hn E1 E2|l' r Hl E1 E2]; subst; auto.
  exfalso. now apply (Hn l).
Qed.

Lemma flat_not_array v r : flat v r -> Forall not_array r.
Proof.
  intros H. apply flat_det in H. subst r. induction v using value_ind2; simpl;
    try (constructor; [intros l' E; discriminate|constructor]).
  induction H as [|x l Hx Hl IH]; simpl; [constructor|]. apply Forall_app. auto.
Qed.

Lemma vflatten_noarr l : Forall not_array l -> vflatten l = l.
Proof.
  induction 1 as [|x l Hx Hl IH]; [reflexivity|]. unfold vflatten in *. simpl. rewrite IH.
  destruct x; simpl; auto. exfalso. now apply (Hx l0).
Qed.

Lemma vflat_wf v : wf v = true -> wfl (vflat v).
Proof.
  induction v using value_ind2; intros W; simpl; try (constructor; [exact W|constructor]).
  apply wf_arr in W. induction H as [|x l Hx Hl IH]; simpl; [constructor|].
  inversion W; subst. apply wfl_app. auto.
Qed.
Lemma vflatten_wf l : wfl l -> wfl (vflatten l).
Proof. intros W. apply (vflat_wf (VArr l)). now apply wf_arr. Qed.

(** * Map merge *)

Lemma mput_fresh k v m : (forall e, In e m -> veq k (fst e) = false) -> mput k v m = m ++ [(k, v)].
Proof.
  induction m as [|[x w] m IH]; intros H; [reflexivity|].
  pose proof (H (x, w) (or_introl eq_refl)) as E. simpl in E |- *. rewrite E. f_equal. apply IH. intros e He. apply H. now right.
Qed.

Lemma mhas_true k m : mhas k m = true <-> exists v, mget k m = Some v.
Proof. unfold mhas. destruct (mget k m); split; eauto; try congruence. intros [v E]. discriminate. Qed.
Lemma mhas_false k m : mhas k m = false <-> mget k m = None.
Proof. unfold mhas. destruct (mget k m); split; congruence. Qed.

(** * Deep merge without the change flag *)

Fixpoint raw (a b : value) {struct a} : value :=
  match a, b with
  | VMap m, VMap hb =>
      VMap (map (fun e => (fst e, match mget (fst e) hb with Some bv => raw (snd e) bv | None => snd e end)) m
            ++ filter (fun e => negb (mhas (fst e) m)) hb)
  | VArr l, VArr lb =>
      match lb, l with
      | [], _ => VArr l
      | _, [] => VArr lb
      | _, _ => VArr (vunique (l ++ lb))
      end
  | _, _ => a
  end.

Definition raw_entry (hb : entries) (e : value * value) : value * value :=
  (fst e, match mget (fst e) hb with Some bv => raw (snd e) bv | None => snd e end).
Definition new_entries (m hb : entries) : entries := filter (fun e => negb (mhas (fst e) m)) hb.

Lemma raw_maps m hb : raw (VMap m) (VMap hb) = VMap (map (raw_entry hb) m ++ new_entries m hb).
Proof. reflexivity. Qed.

Lemma deep_false_fst a b : snd (deep a b) = false -> fst (deep a b) = a.
Proof.
  destruct a, b; simpl; auto.
  - destruct l0; [auto|]. destruct l; [discriminate|].
    match goal with |- context [if ?c then _ else _] => destruct c end; [auto|discriminate].
  - match goal with |- context [if ?c then _ else _] => destruct c end; [auto|discriminate].
Qed.

Definition each (hb : entries) : entries -> entries -> entries :=
  fix each (m es : entries) {struct m} : entries :=
    match m with
    | [] => es
    | (k, v) :: r =>
        each r (match mget k hb with
                | Some bv => match deep v bv with (x, true) => mput k x es | (_, false) => mput k v es end
                | None => mput k v es
                end)
    end.

Lemma deep_maps m hb :
  deep (VMap m) (VMap hb) =
  let es2 := fold_left (fun es e => if mhas (fst e) m then es else mput (fst e) (snd e) es) hb (each hb m []) in
  if veq (VMap m) (VMap es2) then (VMap m, false) else (VMap es2, true).
Proof. reflexivity. Qed.

Lemma each_eq hb m : forall es,
  wfm m -> (forall e e', In e m -> In e' es -> veq (fst e) (fst e') = false) ->
  each hb m es = es ++ map (fun e => (fst e, match mget (fst e) hb with Some bv => fst (deep (snd e) bv) | None => snd e end)) m.
Proof.
  induction m as [|[k v] m IH]; intros es W Hf; simpl.
  - now rewrite app_nil_r.
  - apply wfm_cons in W. destruct W as (Wk & Wv & Wm & Hd).
    assert (forall x, mput k x es = es ++ [(k, x)]) as HP.
    { intros x. apply mput_fresh. intros e He. apply (Hf (k, v) e); simpl; auto. }
    assert (forall x, each hb m (es ++ [(k, x)]) =
              (es ++ [(k, x)]) ++ map (fun e => (fst e, match mget (fst e) hb with Some bv => fst (deep (snd e) bv) | None => snd e end)) m) as HE.
    { intros x. apply IH; auto. intros e e' He He'. apply in_app_or in He'. destruct He' as [He'|[<-|[]]].
      - apply Hf; simpl; auto.
      - destruct (Hd e He) as [_ H]. exact H. }
    destruct (mget k hb) as [bv|] eqn:G.
    + destruct (deep v bv) as [x fl] eqn:D. destruct fl.
      * rewrite HP, HE, <- app_assoc. reflexivity.
      * rewrite HP, HE, <- app_assoc. simpl.
        assert (x = v) as ->; [|reflexivity].
        pose proof (deep_false_fst v bv) as HF. rewrite D in HF. auto.
    + rewrite HP, HE, <- app_assoc. reflexivity.
Qed.

Lemma add_new_eq m hb : forall es,
  wfm m -> wfm hb ->
  (forall e e', In e hb -> In e' es -> mhas (fst e) m = false -> veq (fst e) (fst e') = false) ->
  fold_left (fun es e => if mhas (fst e) m then es else mput (fst e) (snd e) es) hb es = es ++ new_entries m hb.
Proof.
  unfold new_entries. induction hb as [|[k v] hb IH]; intros es W Wb Hf; simpl.
  - now rewrite app_nil_r.
  - apply wfm_cons in Wb. destruct Wb as (Wk & Wv & Wm & Hd).
    destruct (mhas k m) eqn:E; simpl.
    + apply IH; auto. intros e e' He He'. apply Hf; simpl; auto.
    + rewrite mput_fresh; [|intros e He; apply (Hf (k, v) e); simpl; auto].
      rewrite IH; auto.
      * now rewrite <- app_assoc.
      * intros e e' He He' Hm. apply in_app_or in He'. destruct He' as [He'|[<-|[]]].
        -- apply Hf; simpl; auto.
        -- destruct (Hd e He) as [_ H]. exact H.
Qed.

Lemma es2_eq m hb : wfm m -> wfm hb ->
  fold_left (fun es e => if mhas (fst e) m then es else mput (fst e) (snd e) es) hb (each hb m []) =
  map (fun e => (fst e, match mget (fst e) hb with Some bv => fst (deep (snd e) bv) | None => snd e end)) m ++ new_entries m hb.
Proof.
  intros W Wb. rewrite each_eq; auto; [|intros e e' _ []]. simpl. apply add_new_eq; auto.
  intros e e' He He' Hm. apply in_map_iff in He'. destruct He' as (e0 & <- & He0). simpl.
  apply mhas_false in Hm. rewrite mget_none in Hm. auto.
Qed.

(** Entries under the keys of [m] with other values. *)
Lemma mget_map_val (h : value * value -> value) m k :
  wfm m -> wf k = true ->
  (mget k m = None /\ mget k (map (fun e => (fst e, h e)) m) = None) \/
  (exists k' v, In (k', v) m /\ veq k k' = true /\ mget k m = Some v /\ mget k (map (fun e => (fst e, h e)) m) = Some (h (k', v))).
Proof.
  intros W Wk. induction m as [|[x w] m IH]; simpl; [auto|].
  apply wfm_cons in W. destruct W as (Wx & Ww & Wm & Hd).
  destruct (veq k x) eqn:E.
  - right. exists x, w. auto.
  - destruct (IH Wm) as [?|(k' & v & ? & ? & ? & ?)]; auto. right. exists k', v. auto.
Qed.

Lemma mget_app k m1 m2 : mget k (m1 ++ m2) = match mget k m1 with Some v => Some v | None => mget k m2 end.
Proof. induction m1 as [|[x w] m1 IH]; simpl; auto. destruct (veq k x); auto. Qed.

Lemma mget_new m hb k : wfm m -> wfm hb -> wf k = true ->
  mget k (new_entries m hb) = if mhas k m then None else mget k hb.
Proof.
  intros W Wb Wk. unfold new_entries. induction hb as [|[x w] hb IH]; simpl; [now destruct (mhas k m)|].
  apply wfm_cons in Wb. destruct Wb as (Wx & Ww & Wm & Hd). specialize (IH Wm).
  destruct (veq k x) eqn:E.
  - assert (mhas k m = mhas x m) as HM by (unfold mhas; now rewrite (mget_cong k x m)).
    rewrite <- HM in *. destruct (mhas k m) eqn:M; simpl.
    + exact IH.
    + now rewrite E.
  - destruct (mhas x m) eqn:M; simpl; [exact IH|]. now rewrite E.
Qed.

Lemma deep_wf a : forall b, wf a = true -> wf b = true -> wf (fst (deep a b)) = true.
Proof.
  induction a using value_ind2; intros vb Wa Wb; try (destruct vb; exact Wa).
  - destruct vb; try exact Wa. apply wf_arr in Wa. pose proof Wb as Wb'. apply wf_arr in Wb.
    simpl. destruct l0 as [|y lb]; [now apply wf_arr|]. destruct l as [|x la]; [exact Wb'|].
    match goal with |- context [if ?c then _ else _] => destruct c end; apply wf_arr; auto. apply vunique_wfl. apply wfl_app. auto.
  - destruct vb as [| | | | | |hb|]; try exact Wa. rewrite deep_maps. cbv zeta.
    match goal with |- context [if ?c then _ else _] => destruct c end; [exact Wa|]. simpl fst.
    change (wfm (fold_left (fun es e => if mhas (fst e) m then es else mput (fst e) (snd e) es) hb (each hb m []))).
    assert (forall hb es, (forall e, In e hb -> wf (fst e) = true /\ wf (snd e) = true) -> wfm es ->
              wfm (fold_left (fun es e => if mhas (fst e) m then es else mput (fst e) (snd e) es) hb es)) as H1.
    { clear. induction hb as [|e hb IH]; intros es Wb We; simpl; auto. apply IH; [intros; apply Wb; now right|].
      destruct (mhas (fst e) m); auto. destruct (Wb e (or_introl eq_refl)). now apply mput_wf. }
    apply H1; [intros e He; now apply (wfm_in hb)|].
    assert (forall es, wfm es -> wfm (each hb m es)) as H2; [|apply H2; apply wfm_nil].
    fold (wfm m) in Wa. clear H1. induction m as [|[k v] m IHm]; intros es We; simpl; auto.
    inversion H as [|? ? [Hk Hv] Hm]; subst. apply wfm_cons in Wa. destruct Wa as (Wk & Wv & Wm & _).
    apply IHm; auto.
    destruct (mget k hb) as [bv|] eqn:G; [|now apply mput_wf].
    assert (wf bv = true) as Wbv by (apply (mget_wf k hb); auto).
    specialize (Hv bv Wv Wbv). cbn [snd] in Hv. destruct (deep v bv) as [x []]; simpl in Hv; now apply mput_wf.
Qed.

(** The result of [deep] is [raw], and the flag says whether it differs. *)
Lemma deep_raw a : forall b, wf a = true -> wf b = true ->
  deep a b = (raw a b, negb (veq a (raw a b))).
Proof.
  induction a using value_ind2; intros vb Wa Wb;
    try (destruct vb; simpl; rewrite ?Bool.eqb_reflx, ?Z.eqb_refl, ?String.eqb_refl; reflexivity).
  - destruct vb; try (change (raw (VArr l) _) with (VArr l); rewrite veq_refl by exact Wa; reflexivity).
    pose proof Wa as Wa'. pose proof Wb as Wb'. apply wf_arr in Wa', Wb'.
    cbn [deep raw]. destruct l0 as [|y lb]; [rewrite veq_refl by exact Wa; reflexivity|].
    destruct l as [|x la]; [reflexivity|].
    assert (wfl ((x :: la) ++ y :: lb)) as WW by (apply wfl_app; auto).
    pose proof (vunique_fo _ WW) as HF. pose proof (vunique_wfl _ WW) as WU.
    remember (vunique ((x :: la) ++ y :: lb)) as an.
    rewrite (veq_sym_eq (VArr (x :: la)) (VArr an)); [|exact Wa|now apply wf_arr].
    rewrite veq_arr. destruct (all2 an (x :: la)) eqn:E; [|reflexivity].
    apply (fo_same_length (x :: la) an (y :: lb)) in E; auto. now rewrite E.
  - destruct vb as [| | | | | |hb|]; try (change (raw (VMap m) _) with (VMap m); rewrite veq_refl by exact Wa; reflexivity).
    rewrite raw_maps, deep_maps, es2_eq; auto. cbv zeta.
    assert (map (fun e => (fst e, match mget (fst e) hb with Some bv => fst (deep (snd e) bv) | None => snd e end)) m
            = map (raw_entry hb) m) as HM.
    { apply map_ext_in. intros e He. unfold raw_entry. f_equal.
      destruct (mget (fst e) hb) as [bv|] eqn:G; auto.
      rewrite Forall_forall in H. destruct (H e He) as [_ IHv].
      rewrite IHv; auto; [now apply (wfm_in m)|now apply (mget_wf (fst e) hb)]. }
    rewrite HM.
    destruct (veq (VMap m) (VMap (map (raw_entry hb) m ++ new_entries m hb))) eqn:E; [|reflexivity].
    cbn [negb]. f_equal. f_equal.
    rewrite veq_map in E. apply andb_true_iff in E. destruct E as [EL EA].
    apply Nat.eqb_eq in EL. rewrite app_length, map_length in EL.
    assert (new_entries m hb = []) as EN by (destruct (new_entries m hb); [reflexivity|simpl in EL; lia]).
    rewrite EN, app_nil_r in *. rewrite forallb_forall in EA.
    rewrite <- (map_id m) at 1. apply map_ext_in. intros e He. unfold raw_entry.
    destruct e as [k v]. simpl. f_equal.
    destruct (mget k hb) as [bv|] eqn:G; auto.
    specialize (EA (k, v) He). unfold esub in EA. simpl in EA.
    destruct (wfm_in m (k, v) Wa He) as [Wk Wv]. simpl in Wk, Wv.
    destruct (mget_map_val (fun e => match mget (fst e) hb with Some bv => raw (snd e) bv | None => snd e end) m k Wa Wk)
      as [[_ F]|(k' & v' & Hin & Ek & Hg & F)]; unfold raw_entry in EA; rewrite F in EA; [discriminate|].
    assert (v' = v) as ->. { rewrite (mget_self k v m) in Hg; auto. congruence. }
    simpl in EA.
    assert (mget k' hb = Some bv) as G'.
    { rewrite <- (mget_cong k k' hb); auto. now apply (wfm_in m) in Hin. }
    rewrite G' in EA.
    rewrite Forall_forall in H. destruct (H (k, v) He) as [_ IHv]. simpl in IHv.
    assert (wf bv = true) as Wbv by now apply (mget_wf k hb).
    pose proof (deep_false_fst v bv) as HFF. rewrite IHv in HFF; auto. simpl in HFF. rewrite EA in HFF. symmetry. auto.
  - destruct vb; (change (raw (VSens a) _) with (VSens a); rewrite veq_refl by exact Wa; reflexivity).
Qed.

Lemma raw_wf a b : wf a = true -> wf b = true -> wf (raw a b) = true.
Proof. intros Wa Wb. pose proof (deep_wf a b Wa Wb) as H. now rewrite deep_raw in H. Qed.

Lemma raw_mget m hb k : wfm m -> wfm hb -> wf k = true ->
  mget k (map (raw_entry hb) m ++ new_entries m hb) =
  match mget k m, mget k hb with
  | Some va, Some vb => Some (raw va vb)
  | Some va, None => Some va
  | None, o => o
  end.
Proof.
  intros W Wb Wk. rewrite mget_app, mget_new; auto.
  destruct (mget_map_val (fun e => match mget (fst e) hb with Some bv => raw (snd e) bv | None => snd e end) m k W Wk)
    as [[G F]|(k' & v' & Hin & Ek & G & F)]; unfold raw_entry; rewrite F, G.
  - unfold mhas. rewrite G. reflexivity.
  - simpl. rewrite <- (mget_cong k k' hb); auto; [|now apply (wfm_in m) in Hin]. destruct (mget k hb); reflexivity.
Qed.

(** * [raw] satisfies the specification *)

Lemma raw_merged a : forall b, wf a = true -> wf b = true -> merged array_union_nonempty a b (raw a b).
Proof.
  induction a using value_ind2; intros vb Wa Wb;
    try (destruct vb; apply mg_other; intros [? ?]; discriminate).
  - destruct vb; try (apply mg_other; intros [? ?]; discriminate).
    apply wf_arr in Wa, Wb. simpl. destruct l0 as [|y lb]; [constructor; destruct l; reflexivity|].
    destruct l as [|x la]; [constructor; reflexivity|].
    constructor. apply vunique_fo. apply wfl_app. auto.
  - destruct vb as [| | | | | |hb|]; try (apply mg_other; intros [? ?]; discriminate).
    rewrite raw_maps. constructor.
    + intros k va v' Wk G1 G2. exists (raw va v'). split.
      * rewrite raw_mget; auto. now rewrite G1, G2.
      * apply mget_in in G1. destruct G1 as (k' & Hin & _). rewrite Forall_forall in H.
        destruct (H _ Hin) as [_ IHv]. apply IHv; [now apply (wfm_in m) in Hin|now apply (mget_wf k hb)].
    + intros k va Wk G1 G2. rewrite raw_mget; auto. now rewrite G1, G2.
    + intros k Wk G1. rewrite raw_mget; auto. now rewrite G1.
    + exists (map fst (new_entries m hb)). rewrite map_app, map_map. reflexivity.
Qed.

Lemma merged_tidy a b r : merged array_union_nonempty a b r -> wf a = true -> wf b = true -> tidy a -> tidy b ->
  merged array_union a b r.
Proof.
  revert b r. induction a using value_ind2; intros vb r Hm Wa Wb Ta Tb;
    try (inversion Hm; subst; apply mg_other; assumption).
  - inversion Hm as [|la0 lb lr Harr|? ? N1 N2]; subst; [|now apply mg_other].
    constructor. apply wf_arr in Wa, Wb.
    assert (no_dups l) as Na by (inversion Ta as [| |? [_ F]]; [auto|discriminate]).
    assert (no_dups lb) as Nb by (inversion Tb as [| |? [_ F]]; [auto|discriminate]).
    unfold array_union. destruct lb as [|y lb].
    + assert (lr = l) as -> by (destruct l; assumption). rewrite app_nil_r. now apply no_dups_fo.
    + destruct l as [|x la]; [simpl in *; subst; now apply no_dups_fo|]. assumption.
  - inversion Hm as [ma mb mr Hboth Honly Hnew Hkeys| |? ? N1 N2]; subst; [|now apply mg_other].
    constructor; auto. intros k va v' Wk G1 G2. destruct (Hboth k va v' Wk G1 G2) as (vr & Gr & Hr).
    exists vr. split; auto. pose proof G1 as G1'. pose proof G2 as G2'.
    apply mget_in in G1'. destruct G1' as (k1 & Hin1 & _).
    apply mget_in in G2'. destruct G2' as (k2 & Hin2 & _).
    assert (tidy va).
    { inversion Ta as [|? HF|? [F _]]; [|discriminate]. rewrite Forall_forall in HF. apply (HF _ Hin1). }
    assert (tidy v').
    { inversion Tb as [|? HF|? [F _]]; [|discriminate]. rewrite Forall_forall in HF. apply (HF _ Hin2). }
    rewrite Forall_forall in H. destruct (H _ Hin1) as [_ IHv].
    apply IHv; auto; [now apply (wfm_in m) in Hin1|now apply (wfm_in mb) in Hin2].
Qed.

(** * Nothing of the higher priority value is lost *)

Lemma raw_other a b : ~ (is_map a = true /\ is_map b = true) -> ~ (is_arr a = true /\ is_arr b = true) -> raw a b = a.
Proof. destruct a, b; simpl; auto; intros H1 H2; exfalso; [apply H2|apply H1]; auto. Qed.

Lemma raw_scalar ks : forall a b s, wf a = true -> wf b = true -> Forall (fun k => wf k = true) ks ->
  at_keys ks a = Some s -> scalar s -> at_keys ks (raw a b) = Some s.
Proof.
  induction ks as [|k ks IH]; intros a b s Wa Wb Wk Ha Hs.
  - simpl in *. injection Ha as ->. f_equal. destruct Hs as [H1 H2]. apply raw_other; intros [F _]; congruence.
  - simpl in Ha. destruct a as [| | | | | |m|]; try discriminate.
    destruct (mget k m) as [w|] eqn:G; [|discriminate]. inversion Wk; subst.
    destruct b as [| | | | | |hb|]; try (simpl; rewrite G; exact Ha).
    rewrite raw_maps. cbn [at_keys]. rewrite raw_mget, G; auto.
    assert (wf w = true) by now apply (mget_wf k m).
    destruct (mget k hb) as [vb|] eqn:G2; auto.
    apply IH; auto. now apply (mget_wf k hb).
Qed.

Lemma raw_array ks : forall a b l, wf a = true -> wf b = true -> Forall (fun k => wf k = true) ks ->
  at_keys ks a = Some (VArr l) ->
  exists l', at_keys ks (raw a b) = Some (VArr l') /\ forall x, In x l -> elem x l'.
Proof.
  induction ks as [|k ks IH]; intros a b l Wa Wb Wk Ha.
  - simpl in *. injection Ha as ->. apply wf_arr in Wa.
    assert (forall x, In x l -> elem x l) as HI.
    { intros x Hx. apply elem_in; auto. rewrite Forall_forall in Wa. auto. }
    destruct b; simpl; try (exists l; split; [reflexivity|exact HI]).
    apply wf_arr in Wb. destruct l0 as [|y lb]; [exists l; auto|].
    destruct l as [|x la]; [exists (y :: lb); split; [reflexivity|intros x []]|].
    exists (vunique ((x :: la) ++ y :: lb)). split; [reflexivity|].
    intros z Hz. assert (wfl ((x :: la) ++ y :: lb)) as WW by (apply wfl_app; auto).
    apply (fo_mem _ _ (vunique_fo _ WW) WW); [rewrite Forall_forall in Wa; auto|].
    apply elem_app. auto.
  - simpl in Ha. destruct a as [| | | | | |m|]; try discriminate.
    destruct (mget k m) as [w|] eqn:G; [|discriminate]. inversion Wk; subst.
    assert (wf w = true) as Ww by now apply (mget_wf k m).
    assert (exists l', at_keys (k :: ks) (VMap m) = Some (VArr l') /\ forall x, In x l -> elem x l') as HS.
    { exists l. simpl. rewrite G. split; auto. intros x Hx. apply elem_in; auto.
      clear -Ha Ww Hx. revert w Ww Ha. induction ks as [|k ks IH]; intros w Ww Ha; simpl in Ha.
      - injection Ha as ->. apply wf_arr in Ww. rewrite Forall_forall in Ww. auto.
      - destruct w as [| | | | | |m|]; try discriminate. destruct (mget k m) as [w|] eqn:G; [|discriminate].
        apply (IH w); auto. now apply (mget_wf k m). }
    destruct b as [| | | | | |hb|]; try exact HS.
    rewrite raw_maps. cbn [at_keys]. rewrite raw_mget, G; auto.
    destruct (mget k hb) as [vb|] eqn:G2.
    + apply IH; auto. now apply (mget_wf k hb).
    + cbn [at_keys] in HS. rewrite G in HS. exact HS.
Qed.

(** * Key-wise combination of maps, and its associativity *)

Definition gen (f : value -> value -> value) (m hb : entries) : entries :=
  map (fun e => (fst e, match mget (fst e) hb with Some bv => f (snd e) bv | None => snd e end)) m
  ++ new_entries m hb.

Lemma gen_mget f m hb k : wfm m -> wfm hb -> wf k = true ->
  mget k (gen f m hb) =
  match mget k m, mget k hb with
  | Some va, Some vb => Some (f va vb)
  | Some va, None => Some va
  | None, o => o
  end.
Proof.
  intros W Wb Wk. unfold gen. rewrite mget_app, mget_new; auto.
  destruct (mget_map_val (fun e => match mget (fst e) hb with Some bv => f (snd e) bv | None => snd e end) m k W Wk)
    as [[G F]|(k' & v' & Hin & Ek & G & F)]; rewrite F, G.
  - unfold mhas. rewrite G. reflexivity.
  - simpl. rewrite <- (mget_cong k k' hb); auto; [|now apply (wfm_in m) in Hin]. destruct (mget k hb); reflexivity.
Qed.

Lemma gen_raw m hb : raw (VMap m) (VMap hb) = VMap (gen raw m hb).
Proof. reflexivity. Qed.

Lemma filter_filter {A} (p q : A -> bool) l : filter p (filter q l) = filter (fun x => q x && p x) l.
Proof.
  induction l as [|x l IH]; [reflexivity|]. simpl. destruct (q x) eqn:Q; simpl; [destruct (p x); now rewrite IH|exact IH].
Qed.

Lemma filter_map_key (h : value * value -> value) (p : value -> bool) m :
  filter (fun e => p (fst e)) (map (fun e => (fst e, h e)) m) = map (fun e => (fst e, h e)) (filter (fun e => p (fst e)) m).
Proof. induction m as [|e m IH]; [reflexivity|]. simpl. destruct (p (fst e)); simpl; now rewrite IH. Qed.

Lemma gen_assoc f a b c : wfm a -> wfm b -> wfm c ->
  (forall k va vb vc, wf k = true -> mget k a = Some va -> mget k b = Some vb -> mget k c = Some vc ->
     f (f va vb) vc = f va (f vb vc)) ->
  gen f (gen f a b) c = gen f a (gen f b c).
Proof.
  intros Wa Wb Wc HF.
  unfold gen at 1. unfold gen at 3. unfold gen at 1. rewrite map_app, <- app_assoc. f_equal.
  - rewrite map_map. apply map_ext_in. intros [k v] Hin. cbn [fst snd]. f_equal.
    destruct (wfm_in a (k, v) Wa Hin) as [Wk Wv]. simpl in Wk, Wv.
    rewrite gen_mget; auto.
    destruct (mget k b) as [vb|] eqn:Gb, (mget k c) as [vc|] eqn:Gc; auto.
    apply (HF k); auto. now apply mget_self.
  - unfold new_entries. unfold gen at 2. rewrite filter_app. f_equal.
    + rewrite (filter_map_key _ (fun k => negb (mhas k a))). reflexivity.
    + unfold new_entries. rewrite filter_filter. apply filter_ext_in. intros [k v] Hin. cbn [fst].
      destruct (wfm_in c (k, v) Wc Hin) as [Wk _]. simpl in Wk.
      unfold mhas. rewrite gen_mget; auto. destruct (mget k a), (mget k b); reflexivity.
Qed.

Lemma mput_hit k v m : wfm m -> wf k = true -> mhas k m = true ->
  mput k v m = map (fun e => (fst e, if veq k (fst e) then v else snd e)) m.
Proof.
  intros W Wk. induction m as [|[x w] m IH]; intros H; [discriminate|].
  apply wfm_cons in W. destruct W as (Wx & Ww & Wm & Hd).
  simpl. destruct (veq k x) eqn:E.
  - f_equal. rewrite <- (map_id m) at 1. apply map_ext_in. intros [y z] Hy. simpl.
    destruct (Hd _ Hy) as [Hxy _]. simpl in Hxy.
    destruct (wfm_in m _ Wm Hy) as [Wy _]. simpl in Wy.
    rewrite (veq_cong_l k x y), Hxy; auto.
  - f_equal. apply IH; auto. unfold mhas in *. simpl in H. now rewrite E in H.
Qed.

Lemma mputall_gen a : forall m, wfm m -> wfm a -> mputall m a = gen (fun _ v => v) m a.
Proof.
  induction a as [|[k v] a IH]; intros m Wm Wa.
  - unfold mputall, gen. simpl. rewrite app_nil_r. rewrite <- (map_id m) at 1. apply map_ext. now intros [].
  - apply wfm_cons in Wa. destruct Wa as (Wk & Wv & Wa & Hd).
    rewrite mputall_cons. simpl fst; simpl snd. rewrite IH; auto; [|now apply mput_wf].
    assert (forall e, In e a -> wf (fst e) = true) as HWa by (intros e He; now apply (wfm_in a)).
    assert (mget k a = None) as Gk. { apply mget_none. intros e He. apply (Hd e He). }
    unfold gen. unfold new_entries. cbn [filter fst].
    assert (filter (fun e => negb (mhas (fst e) (mput k v m))) a = filter (fun e => negb (mhas (fst e) m)) a) as HN.
    { apply filter_ext_in. intros e He. unfold mhas. rewrite mget_mput; auto.
      destruct (Hd e He) as [_ Hx]. rewrite Hx. reflexivity. }
    rewrite HN. destruct (mhas k m) eqn:E; cbn [negb].
    + f_equal. rewrite mput_hit; auto. rewrite map_map. apply map_ext_in. intros [x w] Hx. cbn [fst snd mget]. f_equal.
      destruct (wfm_in m _ Wm Hx) as [Wx _]. simpl in Wx.
      rewrite (veq_sym_eq x k); auto. destruct (veq k x) eqn:F; auto.
      rewrite <- (mget_cong k x a), Gk; auto.
    + rewrite mput_fresh; [|apply mget_none; now apply mhas_false].
      rewrite map_app, <- app_assoc. cbn [map app fst snd]. rewrite Gk. f_equal.
      apply map_ext_in. intros [x w] Hx. cbn [fst snd mget]. f_equal.
      apply mhas_false in E. rewrite mget_none in E. specialize (E _ Hx). simpl in E.
      destruct (wfm_in m _ Wm Hx) as [Wx _]. simpl in Wx.
      rewrite (veq_sym_eq x k), E; auto.
Qed.

Lemma mmerge_assoc a b c : wfm a -> wfm b -> wfm c -> mmerge c (mmerge b a) = mmerge (mmerge c b) a.
Proof.
  intros Wa Wb Wc. unfold mmerge.
  rewrite (mputall_gen a b), (mputall_gen b c); auto.
  rewrite !mputall_gen; auto.
  - symmetry. apply gen_assoc; auto.
  - rewrite <- mputall_gen; auto using mputall_wf.
  - rewrite <- mputall_gen; auto using mputall_wf.
Qed.

(** * Agreement and associativity of deep merge *)

Lemma agree_raw_l a : forall b c, wf a = true -> wf b = true -> wf c = true ->
  agree a c -> agree b c -> agree (raw a b) c.
Proof.
  induction a using value_ind2; intros vb vc Wa Wb Wc Hac Hbc;
    try (rewrite raw_other; [assumption|intros [? ?]; discriminate|intros [? ?]; discriminate]).
  - inversion Hac as [|la lc|? ? [_ F]]; subst; [|discriminate].
    destruct vb; simpl; try assumption. destruct l0; [constructor|]. destruct l; constructor.
  - inversion Hac as [ma mc HA| |? ? [F _]]; subst; [|discriminate].
    destruct vb as [| | | | | |hb|]; try assumption.
    inversion Hbc as [mb' mc' HB| |? ? [F _]]; subst; [|discriminate].
    rewrite raw_maps. constructor. intros k v1 v2 Wk G1 G2. rewrite raw_mget in G1; auto.
    destruct (mget k m) as [va|] eqn:Ga.
    + destruct (mget k hb) as [v'|] eqn:Gb.
      * injection G1 as <-. pose proof Ga as Ga'. apply mget_in in Ga'. destruct Ga' as (k' & Hin & _).
        rewrite Forall_forall in H. destruct (H _ Hin) as [_ IHv]. apply IHv; eauto.
        -- now apply (wfm_in m) in Hin.
        -- now apply (mget_wf k hb).
        -- now apply (mget_wf k mc).
      * injection G1 as <-. eauto.
    + eauto.
Qed.

Lemma agree_sym a : forall b, agree a b -> agree b a.
Proof.
  induction a using value_ind2; intros vb Hab; inversion Hab; subst; try (constructor; assumption).
  constructor. intros k va v' Wk G1 G2. pose proof G2 as G2'. apply mget_in in G2'. destruct G2' as (k' & Hin & _).
  rewrite Forall_forall in H. destruct (H _ Hin) as [_ IHv]. apply IHv. eauto.
Qed.

Lemma agree_raw_r a b c : wf a = true -> wf b = true -> wf c = true ->
  agree a b -> agree a c -> agree a (raw b c).
Proof. intros. apply agree_sym, agree_raw_l; auto using agree_sym. Qed.

Lemma raw_assoc a : forall b c, wf a = true -> wf b = true -> wf c = true ->
  agree a b -> agree b c -> agree a c -> raw (raw a b) c = raw a (raw b c).
Proof.
  induction a using value_ind2; intros vb vc Wa Wb Wc Hab Hbc Hac;
    try (rewrite !(raw_other _ _); [reflexivity|..]; (intros [? ?]; discriminate)).
  - inversion Hab as [|la lb|? ? [_ F]]; subst; [|discriminate].
    inversion Hac as [|la' lc|? ? [_ F]]; subst; [|discriminate].
    apply wf_arr in Wa, Wb, Wc.
    destruct lc as [|z lc]; [destruct lb as [|y lb]; [reflexivity|destruct l; reflexivity]|].
    destruct lb as [|y lb]; [destruct l; reflexivity|].
    destruct l as [|x la]; [reflexivity|].
    simpl raw at 2. simpl raw at 3.
    assert (vunique ((x :: la) ++ y :: lb) <> []) as N1 by discriminate.
    assert (vunique ((y :: lb) ++ z :: lc) <> []) as N2 by discriminate.
    change (raw (VArr (vunique ((x :: la) ++ y :: lb))) (VArr (z :: lc)) = raw (VArr (x :: la)) (VArr (vunique ((y :: lb) ++ z :: lc)))).
    remember (vunique ((x :: la) ++ y :: lb)) as u1. remember (vunique ((y :: lb) ++ z :: lc)) as u2.
    destruct u1 as [|h1 u1]; [congruence|]. destruct u2 as [|h2 u2]; [congruence|].
    cbn [raw]. f_equal. rewrite Hequ1, Hequ2.
    rewrite vunique_app_l, vunique_app_r; auto; try (apply wfl_app; auto).
    now rewrite app_assoc.
  - inversion Hab as [ma mb HA| |? ? [F _]]; subst; [|discriminate].
    inversion Hac as [ma' mc HC| |? ? [F _]]; subst; [|discriminate].
    inversion Hbc as [mb' mc' HB| |? ? [F _]]; subst; [|discriminate].
    rewrite !gen_raw. f_equal. apply gen_assoc; auto.
    intros k va v1 v2 Wk G1 G2 G3. pose proof G1 as G1'. apply mget_in in G1'. destruct G1' as (k' & Hin & _).
    rewrite Forall_forall in H. destruct (H _ Hin) as [_ IHv]. apply IHv; eauto.
    + now apply (wfm_in m) in Hin.
    + now apply (mget_wf k mb).
    + now apply (mget_wf k mc).
Qed.
