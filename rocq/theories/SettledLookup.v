(** Lookups in data files with nothing to interpolate. *)

From Coq Require Import String Ascii List ZArith Bool Arith Lia.
From Verif Require Import SpecPlace PlaceFacts.
From Verif Require Import Str Value ValueFacts Outcome Key Merge SpecMerge MergeFacts MergeLookup Fpath Config State Engine
  SpecKey SpecIpl SpecInterp SpecConfig KeyFacts StrFacts IplFacts InterpFacts SpecLookup RootFacts.
Import ListNotations.
Open Scope nat_scope.
Open Scope string_scope.
Open Scope list_scope.

(** ** Merging makes no new strings *)

Lemma inside_flat t : forall v x, In x (vflat v) -> inside t x -> inside t v.
Proof.
  intro v. induction v using value_ind2; intros x Hx Hi; try (destruct Hx as [<-|[]]; exact Hi).
  apply in_flat_map in Hx as (y & Hy & Hx).
  match goal with H : Forall _ l |- _ => pose proof (proj1 (Forall_forall _ _) H y Hy) as IH end.
  exact (inside_arr t l y Hy (IH x Hx Hi)).
Qed.

Lemma inside_as_flat t v x : In x (as_flat v) -> inside t x -> inside t v.
Proof.
  destruct v as [|b|z|z|s|l|m|v]; intros Hx Hi; try (destruct Hx as [<-|[]]; exact Hi).
  exact (inside_flat t (VArr l) x Hx Hi).
Qed.

Lemma inside_mput t k v m : inside t (VMap (mput k v m)) -> inside t k \/ inside t v \/ inside t (VMap m).
Proof.
  intro H. assert (Q : exists a b, In (a, b) (mput k v m) /\ (inside t a \/ inside t b)) by (inversion H; subst; eauto).
  clear H. destruct Q as (a & b & Hin & Q). induction m as [|[k' v'] m IH]; simpl in Hin.
  - destruct Hin as [E|[]]. injection E as <- <-. tauto.
  - destruct (veq k k').
    + destruct Hin as [E|Hin].
      * injection E as <- <-. destruct Q as [Q|Q]; [ right; right; exact (inside_key t _ k' v' (in_eq _ _) Q) | tauto ].
      * right; right. destruct Q as [Q|Q]; [ eapply inside_key | eapply inside_val ]; try exact Q; right; exact Hin.
    + destruct Hin as [E|Hin].
      * injection E as <- <-. right; right.
        destruct Q as [Q|Q]; [ exact (inside_key t _ k' v' (in_eq _ _) Q) | exact (inside_val t _ k' v' (in_eq _ _) Q) ].
      * destruct (IH Hin) as [I|[I|I]]; [ tauto | tauto | right; right ].
        inversion I; subst; [ eapply inside_key | eapply inside_val ]; try eassumption; right; eassumption.
Qed.

Lemma inside_mputall t : forall a m, inside t (VMap (mputall m a)) -> inside t (VMap m) \/ inside t (VMap a).
Proof.
  induction a as [|[k v] a IH]; intros m H; [ left; exact H | ].
  rewrite mputall_cons in H. destruct (IH _ H) as [I|I].
  - apply inside_mput in I as [I|[I|I]]; [ | | left; exact I ]; right;
      [ exact (inside_key t _ k v (in_eq _ _) I) | exact (inside_val t _ k v (in_eq _ _) I) ].
  - right. inversion I; subst; [ eapply inside_key | eapply inside_val ]; try eassumption; right; eassumption.
Qed.

Lemma inside_raw t : forall a b, inside t (raw a b) -> inside t a \/ inside t b.
Proof.
  intro a. induction a using value_ind2; intros vb H0; try (left; destruct vb; exact H0).
  - destruct vb as [|?|?|?|?|lb|mb|?]; try (left; exact H0).
    cbn [raw] in H0. destruct lb as [|y lb]; [ left; exact H0 | ]. destruct l as [|x l]; [ right; exact H0 | ].
    inversion H0 as [|? z Hz Hi| |]; subst. apply vunique_in in Hz. change (In z ((x :: l) ++ y :: lb)) in Hz. apply in_app_or in Hz as [Hz|Hz];
      [ left | right ]; eapply inside_arr; eassumption.
  - destruct vb as [|?|?|?|?|lb|mb|?]; try (left; exact H0).
    rewrite raw_maps in H0.
    assert (Q : exists k v, In (k, v) (map (raw_entry mb) m ++ new_entries m mb) /\ (inside t k \/ inside t v))
      by (inversion H0; subst; eauto).
    destruct Q as (k & v & Hin & Q). apply in_app_or in Hin as [Hin|Hin].
    + apply in_map_iff in Hin as ([k0 v0] & E & Hin). unfold raw_entry in E. simpl in E. injection E as <- <-.
      destruct Q as [Q|Q]; [ left; exact (inside_key t m k0 v0 Hin Q) | ].
      destruct (mget k0 mb) as [bv|] eqn:Eg; [ | left; exact (inside_val t m k0 v0 Hin Q) ].
      match goal with H : Forall _ m |- _ => pose proof (proj1 (Forall_forall _ _) H _ Hin) as [_ IH] end.
      simpl in IH. destruct (IH bv Q) as [I|I]; [ left; exact (inside_val t m k0 v0 Hin I) | ].
      apply mget_in in Eg as (k' & Hin' & _). right. exact (inside_val t mb k' bv Hin' I).
    + apply filter_In in Hin as [Hin _]. right. destruct Q as [Q|Q]; [ exact (inside_key t mb k v Hin Q) | exact (inside_val t mb k v Hin Q) ].
Qed.

(** Values all of whose strings have a property. *)
Section Strings.
Variable Q : string -> Prop.
Definition throughout (v : value) : Prop := forall t, inside t v -> Q t.
Definition orderly (v : value) : Prop := wf v = true /\ throughout v.

Lemma orderly_convert s v : orderly v -> orderly (convert_value s v).
Proof.
  intros [H1 H2]. destruct s; try (split; assumption). cbn [convert_value].
  assert (K : orderly (VArr (as_flat v))).
  { split.
    - apply wf_arr. destruct v; try (constructor; [ exact H1 | constructor ]). apply vflatten_wf. apply wf_arr. exact H1.
    - intros t Ht. inversion Ht as [|? x Hx Hi| |]; subst. exact (H2 t (inside_as_flat t v x Hx Hi)). }
  destruct v; exact K.
Qed.

Lemma as_flat_wf v : wf v = true -> wfl (as_flat v).
Proof. intro H. destruct v; try (constructor; [ exact H | constructor ]). apply vflatten_wf. apply wf_arr. exact H. Qed.

Lemma orderly_merge2 s a b : orderly a -> orderly b -> orderly (merge2 s a b).
Proof.
  intros [A1 A2] [B1 B2]. destruct s as [| | |o]; cbn [merge2].
  - split; assumption.
  - split.
    + apply wf_arr. apply vunique_wfl. apply wfl_app. split; apply as_flat_wf; assumption.
    + intros t Ht. inversion Ht as [|? x Hx Hi| |]; subst. apply vunique_in in Hx.
      apply in_app_or in Hx as [Hx|Hx]; [ apply A2 | apply B2 ]; eapply inside_as_flat; eassumption.
  - destruct a as [|?|?|?|?|?|m|?]; try (split; assumption).
    destruct b as [|?|?|?|?|?|mb|?]; try (split; assumption). split.
    + unfold mmerge. apply mputall_wf; assumption.
    + intros t Ht. apply inside_mputall in Ht as [Ht|Ht]; [ exact (B2 t Ht) | exact (A2 t Ht) ].
  - unfold Deep. rewrite deep_raw by assumption. cbn [fst]. split; [ apply raw_wf; assumption | ].
    intros t Ht. apply inside_raw in Ht as [Ht|Ht]; [ exact (A2 t Ht) | exact (B2 t Ht) ].
Qed.

Lemma orderly_pure s outs : Forall (fun o => forall v, o = Some v -> orderly v) outs ->
  forall v, pure_lookup s outs = Some v -> orderly v.
Proof.
  intros H v. assert (F : Forall orderly (found outs)).
  { clear v. induction H as [|o outs Ho H IH]; [ constructor | ]. destruct o as [v|]; [ constructor; auto | exact IH ]. }
  assert (Fold : forall l a, Forall orderly l -> orderly a -> orderly (fold_left (merge2 s) l a)).
  { induction l as [|x l IH]; intros a Hl Ha; [ exact Ha | ]. inversion Hl; subst. simpl. apply IH; [ assumption | ].
    apply orderly_merge2; assumption. }
  assert (M : merge_fold s (found outs) = Some v -> orderly v).
  { destruct (found outs) as [|x l]; [ discriminate | ]. cbn [merge_fold]. intro E. injection E as <-.
    inversion F; subst. apply Fold; [ assumption | ]. apply orderly_convert. assumption. }
  assert (One : forall o, (forall x, o = Some x -> orderly x) -> merge_single s o = Some v -> orderly v).
  { intros o Ho E. destruct o as [x|]; [ | destruct s; discriminate ].
    destruct (Ho x eq_refl) as [W S]. destruct s as [| | |p]; try (injection E as <-; split; assumption).
    destruct x as [|?|?|?|?|l|?|?]; try (injection E as <-; split; assumption).
    cbn in E. injection E as <-. split.
    - apply wf_arr. apply vunique_wfl. apply vflatten_wf. apply wf_arr. exact W.
    - intros t Ht. inversion Ht as [|? x Hx Hi| |]; subst. apply vunique_in in Hx.
      exact (S t (inside_flat t (VArr l) x Hx Hi)). }
  destruct s as [| | |p]; cbn [pure_lookup].
  - intro E. clear F Fold M One. induction H as [|o outs Ho H IH]; [ discriminate | ].
    destruct o as [x|]; [ apply Ho; exact E | exact (IH E) ].
  - destruct outs as [|o [|o2 outs]]; [ discriminate | | exact M ]. inversion H; subst. apply One. assumption.
  - destruct outs as [|o [|o2 outs]]; [ discriminate | | exact M ]. inversion H; subst. apply One. assumption.
  - destruct outs as [|o [|o2 outs]]; [ discriminate | | exact M ]. inversion H; subst. apply One. assumption.
Qed.
End Strings.

(** What is known of data without expressions. *)
Definition quiet (v : value) : Prop := wf v = true /\ settled v.

Lemma quiet_pure s outs : Forall (fun o => forall v, o = Some v -> quiet v) outs ->
  forall v, pure_lookup s outs = Some v -> quiet v.
Proof. exact (orderly_pure (fun t => ~ has "%{" t) s outs). Qed.

(** ** Values without expressions stand for themselves *)

Lemma mputall_self m : wf (VMap m) = true -> mputall [] m = m.
Proof.
  intro W. pose proof (mputall_gen m [] wfm_nil W) as E. rewrite E. unfold gen. simpl.
  clear E W. induction m as [|e m IH]; [ reflexivity | ]. simpl. f_equal. exact IH.
Qed.

Lemma quiet_is (string_is : string -> option value -> Prop) : (forall t, ~ has "%{" t -> string_is t (Some (VStr t))) ->
  forall v, quiet v -> value_is string_is v (Some v).
Proof.
  intros Hs v. induction v using value_ind2; intros [W S];
    try (apply vi_other; intros; discriminate).
  - apply vi_str. apply Hs. apply S. constructor.
  - apply vi_arr. apply wf_arr in W. apply settled_arr in S. clear - H W S.
    induction H as [|x l Hx H IH]; [ constructor | ]. inversion W; subst. inversion S; subst.
    constructor; [ exists (Some x); split; [ apply Hx; split; assumption | reflexivity ] | apply IH; assumption ].
  - rewrite <- (mputall_self m W) at 2. apply vi_map; [ exact W | ].
    assert (W' : Forall (fun e => wf (fst e) = true /\ wf (snd e) = true) m).
    { apply Forall_forall. intros e He. exact (wfm_in m e W He). }
    apply settled_map in S. clear W. induction H as [|[k v] m [Hk Hv] H IH]; [ constructor | ].
    inversion W' as [|? ? [Wk Wv]]; subst. inversion S as [|? ? [Sk Sv]]; subst. simpl in *.
    constructor; [ | apply IH; assumption ]. simpl. split.
    + exists (Some k). split; [ apply Hk; split; assumption | reflexivity ].
    + exists (Some v). split; [ apply Hv; split; assumption | reflexivity ].
Qed.

Lemma plain_text w sc si li t : ~ has "%{" t -> whole_is w sc si li t (Some (VStr t)).
Proof.
  intro H. apply (wi_text w sc si li [] [] t); [ | constructor ]. split; [ constructor | ].
  intros (a & b & c & ->). apply H. exists a, (b ++ "}" ++ c)%string. reflexivity.
Qed.

Lemma quiet_answers w sc es st n v : quiet v -> value_is (fun t => answers w sc es st (S n) (QStr t)) v (Some v).
Proof. apply quiet_is. intros t Ht. cbn [answers]. apply plain_text. exact Ht. Qed.

(** ** Hierarchies of files *)

(** What is in the file of an entry that has one path: nothing when there is no
    file. *)
Inductive level_is (w : world) (e : entry) : option entries -> Prop :=
| li_absent : forall l, e_locations e = Some [l] -> ~ there l -> level_is w e None
| li_present : forall o p m, e_locations e = Some [LPath o p true] ->
    e_function e = Some (mk_fdef KDataHash "yaml_data") ->
    (forall t, w_yaml w t p = DfValue (VMap m)) -> level_is w e (Some m).

(** The value of the key at each level. *)
Definition under (r : string) (l : option entries) : option value :=
  match l with Some m => mgets r m | None => None end.

Lemma level_hash w e m o p : e_function e = Some (mk_fdef KDataHash "yaml_data") ->
  (forall t, w_yaml w t p = DfValue (VMap m)) -> hash_is w e "yaml_data" (Some (LPath o p true)) m.
Proof.
  intros Hf Hy.
  eapply (hi_yaml w e _ _ _ (VStr p)); [ reflexivity | apply oa_location; reflexivity | | intro t; cbn [vstring]; rewrite Hy; constructor ].
  unfold mgets. generalize (match e_options e with Some o0 => o0 | None => [] end). intro m0. clear.
  induction m0 as [|[k v] m IH]; [ reflexivity | ]. cbn [mput]. destruct (veq (VStr "path") k) eqn:E.
  - cbn [mget]. rewrite E. reflexivity.
  - cbn [mget]. rewrite E. exact IH.
Qed.

Lemma mput_same k v : forall m, mget k (mput k v m) = Some v \/ veq k k = false.
Proof.
  induction m as [|[k' v'] m IH].
  - simpl. destruct (veq k k) eqn:E; auto.
  - cbn [mput]. destruct (veq k k') eqn:E; cbn [mget]; rewrite E; auto.
Qed.

(** A level without the key gives nothing else. *)
Lemma level_only_none w sc (vi : value -> option value -> Prop) r s e l o :
  plain_key r -> level_is w e l -> under r l = None -> entry_gives w sc vi r s e o -> o = None.
Proof.
  intros Hp [l0 Hl Hex|o0 p m Hl Hfn Hy] Hu H.
  - destruct H as [? H5 _|H5|l' ? H5 H6|? ? ? ? H5 _]; try congruence.
    rewrite Hl in H5. injection H5 as <-. destruct H6; [ reflexivity | contradiction ].
  - cbn [under] in Hu. destruct H as [? H5 _|H5|l' ? H5 H6|? ? ? ? H5 _]; try congruence.
    rewrite Hl in H5. injection H5 as <-. destruct H6 as [|? _ H7]; [ reflexivity | ].
    assert (Hh : forall m2, hash_is w e "yaml_data" (Some (LPath o0 p true)) m2 -> m2 = m).
    { intros m2 H8. destruct H8 as [opts p' m3 _ H9 H10 H11|? ? ? H9 _ _ _|? ? ? H9 _ _ _ _|? H9 _ _ _]; try discriminate; try congruence.
      inversion H9 as [|l' p2 H12]; subst. cbn [loc_resolved] in H12. injection H12 as <-. unfold mgets in H10.
      destruct (mput_same (VStr "path") (VStr p) (match e_options e with Some x => x | None => [] end)) as [E|E]; [ | discriminate E ].
      rewrite E in H10. injection H10 as <-. specialize (H11 []). cbn [vstring] in H11. rewrite Hy in H11. inversion H11. reflexivity. }
    destruct H7 as [x n m2 v o Hx Hf2 Hh2 Hg _|x n m2 Hx Hf2 Hh2 Hg|? ? ? Hf2 _|? ? ? Hf2 _|? ? ? ? ? ? Hf2 _ _ _ _ _|? ? Hf2 _ _ _ _|? ? ? ? ? ? ? Hf2 _ _ _|? ? Hf2 _ _];
      rewrite Hfn in Hf2; try discriminate Hf2; [ | reflexivity ].
    injection Hf2 as <-. rewrite (Hh m2 Hh2), (plain_root_only r x Hp Hx) in Hg. congruence.
Qed.

(** The values of a level, for a key that is read as another. *)
Lemma root_none w sc (vi : value -> option value -> Prop) r x s e l :
  root_is r x -> level_is w e l -> under x l = None -> entry_gives w sc vi r s e None.
Proof.
  intros Hp H E. inversion H as [l0 Hl Hx|o p m Hl Hf Hy]; subst; cbn [under] in *.
  - eapply eg_one; [ exact Hl | ]. apply lg_absent. exact Hx.
  - eapply eg_one; [ exact Hl | ]. apply lg_there; [ reflexivity | ].
    eapply pr_hash_not; [ exact Hp | exact Hf | exact (level_hash w e m o p Hf Hy) | exact E ].
Qed.

Lemma root_value w sc (vi : value -> option value -> Prop) r x s e l v o :
  root_is r x -> level_is w e l -> under x l = Some v -> vi v o -> entry_gives w sc vi r s e o.
Proof.
  intros Hp H E Hv. inversion H as [l0 Hl Hx|o' p m Hl Hf Hy]; subst; cbn [under] in *; [ discriminate | ].
  eapply eg_one; [ exact Hl | ]. apply lg_there; [ reflexivity | ].
  eapply pr_hash; [ exact Hp | exact Hf | exact (level_hash w e m o' p Hf Hy) | exact E | exact Hv ].
Qed.

Lemma root_gives w sc (vi : value -> option value -> Prop) r x s e l :
  root_is r x -> level_is w e l -> (forall v, under x l = Some v -> vi v (Some v)) -> entry_gives w sc vi r s e (under x l).
Proof.
  intros Hp H Hv. destruct (under x l) as [v|] eqn:E.
  - exact (root_value w sc vi r x s e l v (Some v) Hp H E (Hv v eq_refl)).
  - exact (root_none w sc vi r x s e l Hp H E).
Qed.

Lemma level_none w sc (vi : value -> option value -> Prop) r s e l :
  plain_key r -> level_is w e l -> under r l = None -> entry_gives w sc vi r s e None.
Proof. intros Hp. apply root_none. exact (plain_root r Hp). Qed.

Lemma level_value w sc (vi : value -> option value -> Prop) r s e l v o :
  plain_key r -> level_is w e l -> under r l = Some v -> vi v o -> entry_gives w sc vi r s e o.
Proof. intros Hp. apply root_value. exact (plain_root r Hp). Qed.

Lemma level_gives w sc (vi : value -> option value -> Prop) r s e l :
  plain_key r -> level_is w e l -> (forall v, under r l = Some v -> vi v (Some v)) -> entry_gives w sc vi r s e (under r l).
Proof. intros Hp. apply root_gives. exact (plain_root r Hp). Qed.

Lemma picks_pure {L} (gives : L -> option value -> Prop) s l outs :
  Forall2 gives l outs -> picks gives s l (pure_lookup s outs).
Proof.
  intro H. destruct s; try (apply pk_merge; [ discriminate | exact H ]). cbn [pure_lookup].
  assert (Q : forall pre, Forall (fun y => gives y None) pre -> picks gives SFirst (pre ++ l) (first_some outs)).
  { induction H as [|x o l outs Hx H IH]; intros pre Hp.
    - rewrite app_nil_r. apply pk_none. exact Hp.
    - destruct o as [v|]; [ apply pk_first; assumption | ].
      change (x :: l) with ([x] ++ l). rewrite app_assoc. apply IH. apply Forall_app. auto. }
  exact (Q [] (Forall_nil _)).
Qed.

(** No level has lookup options: the lookup of a key is the strategy over the
    values of its root, then the rest of the key. *)
Lemma settled_root w sc es ls k r x0 ps opts mo s o :
  k_parts k = PStr r :: ps -> r <> "lookup_options" -> root_is r x0 ->
  Forall2 (level_is w) es ls ->
  Forall (fun l => under "lookup_options" l = None) ls ->
  Forall (fun l => forall v, under x0 l = Some v -> quiet v) ls ->
  merge_option opts None mo -> strategy_is mo s ->
  digs ps (pure_lookup s (map (under x0) ls)) o ->
  lookup_gives w sc es 1 k opts o.
Proof.
  intros Hk Hr Hp Hl Ho Hq Hm Hs Hd.
  assert (P : pure_lookup (SDeep []) (map (under "lookup_options") ls) = None).
  { assert (N : found (map (under "lookup_options") ls) = []).
    { clear - Ho. induction Ho as [|l ls H Ho IH]; [ reflexivity | ]. simpl. rewrite H. exact IH. }
    destruct ls as [|l [|l2 ls]]; [ reflexivity | | ].
    - inversion Ho; subst. simpl. match goal with H : under _ l = None |- _ => rewrite H end. reflexivity.
    - change (merge_fold (SDeep []) (found (map (under "lookup_options") (l :: l2 :: ls))) = None). rewrite N. reflexivity. }
  exists r, ps, None, None, mo, s, None, (pure_lookup s (map (under x0) ls)), (pure_lookup s (map (under x0) ls)).
  split; [ exact Hk | ]. split; [ exact Hr | ]. split; [ exact (root_correct r x0 Hp) | ]. split.
  { unfold hierarchy_gives. rewrite <- P. apply picks_pure. clear - Hl Ho.
    induction Hl as [|e l es ls H Hl IH]; [ constructor | ]. inversion Ho; subst. constructor; [ | apply IH; assumption ].
    apply level_gives; [ exact options_key_plain | exact H | ]. intros v E. congruence. }
  split; [ exists x0; split; [ exact Hp | apply of_none; discriminate ] | ]. split; [ exact Hm | ]. split; [ exact Hs | ].
  split; [ apply ci_none; discriminate | ]. split.
  { unfold hierarchy_gives. apply picks_pure. clear - Hp Hl Hq.
    induction Hl as [|e l es ls H Hl IH]; [ constructor | ]. inversion Hq as [|? ? Hv Hq']; subst. constructor; [ | apply IH; assumption ].
    apply root_gives; [ exact Hp | exact H | ]. intros v E. apply quiet_answers. apply Hv. exact E. }
  split; [ apply cv_no_conversion | ].
  destruct (pure_lookup s (map (under x0) ls)) as [x|] eqn:E.
  - exists (Some x). split; [ | exact Hd ]. apply quiet_answers. apply (quiet_pure s (map (under x0) ls)); [ | exact E ].
    clear - Hq. induction Hq as [|l ls H Hq IH]; [ constructor | ]. simpl. constructor; assumption.
  - inversion Hd. reflexivity.
Qed.

Lemma settled_lookup w sc es ls k r ps opts mo s o :
  k_parts k = PStr r :: ps -> r <> "lookup_options" -> plain_key r ->
  Forall2 (level_is w) es ls ->
  Forall (fun l => under "lookup_options" l = None) ls ->
  Forall (fun l => forall v, under r l = Some v -> quiet v) ls ->
  merge_option opts None mo -> strategy_is mo s ->
  digs ps (pure_lookup s (map (under r) ls)) o ->
  lookup_gives w sc es 1 k opts o.
Proof. intros Hk Hr Hp. exact (settled_root w sc es ls k r r ps opts mo s o Hk Hr (plain_root r Hp)). Qed.
