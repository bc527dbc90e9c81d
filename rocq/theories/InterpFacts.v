(** Facts about interpolation in the engine. *)

From Coq Require Import String Ascii List ZArith Bool Arith Lia.
From Verif Require Import Str Value Outcome Key Merge Fpath Config Ipl Explain State Engine Meta
  SpecKey SpecIpl SpecInterp KeyFacts ValueFacts MergeFacts StrFacts IplFacts.
Import ListNotations.
Open Scope nat_scope.
Open Scope string_scope.
Open Scope list_scope.

Section Walk.
  Open Scope monad_scope.
  Variable rec : req -> M st res.
  Variable allow : bool.

  Fixpoint each_arr (l : list value) : M st (list value * bool) :=
    match l with
    | [] => ret ([], false)
    | x :: t =>
        p <- do_interp rec allow x ;;
        q <- each_arr t ;;
        ret ((if snd p then nil_to_null (fst p) else x) :: fst q, (snd p || snd q)%bool)
    end.

  Fixpoint each_map (m : entries) (cp : entries) : M st (entries * bool) :=
    match m with
    | [] => ret (cp, false)
    | (k, v) :: t =>
        p <- do_interp rec allow k ;;
        q <- do_interp rec allow v ;;
        r <- each_map t (mput (nil_to_null (fst p)) (nil_to_null (fst q)) cp) ;;
        ret (fst r, (snd p || snd q || snd r)%bool)
    end.

  Lemma do_interp_arr l : do_interp rec allow (VArr l) =
    (r <- each_arr l ;; ret (Some (VArr (if snd r then fst r else l)), snd r)).
  Proof. reflexivity. Qed.

  Lemma do_interp_map m : do_interp rec allow (VMap m) =
    (r <- each_map m [] ;; ret (Some (VMap (if snd r then fst r else m)), snd r)).
  Proof. reflexivity. Qed.
End Walk.

Lemma settled_arr l : settled (VArr l) -> Forall settled l.
Proof. intro H. apply Forall_forall. intros x Hx s Hs. apply H. exact (inside_arr s l x Hx Hs). Qed.

Lemma settled_map m : settled (VMap m) -> Forall (fun e => settled (fst e) /\ settled (snd e)) m.
Proof.
  intro H. apply Forall_forall. intros [k v] Hx. split; intros s Hs; apply H.
  - exact (inside_key s m k v Hx Hs).
  - exact (inside_val s m k v Hx Hs).
Qed.

Lemma run_plain w n t allow s : ~ has "%{" t -> run w (S n) (RStr t allow) s = (Ok (Some (VStr t), false), s).
Proof. intro H. cbn [run body]. unfold istr. apply contains_not in H. rewrite H. reflexivity. Qed.

(** Nothing to interpolate, nothing happens. *)
Lemma settled_interp rec allow :
  (forall t s, ~ has "%{" t -> rec (RStr t allow) s = (Ok (Some (VStr t), false), s)) ->
  forall v s, settled v -> do_interp rec allow v s = (Ok (Some v, false), s).
Proof.
  intro Hr. fix IH 1. intros v s H.
  destruct v as [|b|z|z|t|l|m|v]; try reflexivity.
  - simpl. apply Hr. apply H. constructor.
  - rewrite do_interp_arr. unfold bind.
    assert (E : exists x, each_arr rec allow l s = (Ok (x, false), s)).
    { apply settled_arr in H. revert s. induction l as [|x l IHl]; intro s; [ eexists; reflexivity | ].
      simpl. unfold bind. inversion H as [|? ? Hx Hl]; subst. rewrite (IH x s Hx).
      destruct (IHl Hl s) as [y ->]. eexists. reflexivity. }
    destruct E as [x ->]. reflexivity.
  - rewrite do_interp_map. unfold bind.
    assert (E : forall cp, exists x, each_map rec allow m cp s = (Ok (x, false), s)).
    { apply settled_map in H. revert s. induction m as [|[k v] m IHm]; intros s cp; [ eexists; reflexivity | ].
      simpl. unfold bind. inversion H as [|? ? [Hx Hy] Hl]; subst. cbn [fst snd] in *.
      rewrite (IH k s Hx), (IH v s Hy). destruct (IHm Hl s (mput (nil_to_null (Some k)) (nil_to_null (Some v)) cp)) as [y E].
      cbn [fst snd]. rewrite E. eexists. reflexivity. }
    destruct (E []) as [x ->]. reflexivity.
Qed.

Lemma interpolate_settled w n allow v s : settled v -> interpolate (run w (S n)) allow v s = (Ok (Some v), s).
Proof.
  intro H. unfold interpolate, bind.
  rewrite (settled_interp (run w (S n)) allow (fun t s => run_plain w n t allow s) v s H). reflexivity.
Qed.

(** ** One string *)

Lemma empty_interpolation_in e : empty_interpolation e = true ->
  In e [""; "::"; """"""; "''"; """::"""; "'::'"].
Proof.
  unfold empty_interpolation. intro H. apply existsb_exists in H as (x & Hx & E).
  apply String.eqb_eq in E. subst x. exact Hx.
Qed.

Lemma empty_interpolation_not_in e : empty_interpolation e = false ->
  ~ In e [""; "::"; """"""; "''"; """::"""; "'::'"].
Proof.
  unfold empty_interpolation. intros H Hin.
  assert (existsb (String.eqb e) [""; "::"; """"""; "''"; """::"""; "'::'"] = true); [ | congruence ].
  apply existsb_exists. exists e. split; [ exact Hin | apply String.eqb_refl ].
Qed.

(** The methods by their names. *)
Lemma method_and_data_ok e allow m d : method_and_data e allow = Ok (m, d) ->
  (m = MScope /\ d = e /\ forall name a, ~ calls e name a) \/
  (allow = true /\
   match m with
   | MAlias => calls e "alias" d
   | MStrictAlias => calls e "strict_alias" d
   | MLookup => calls e "lookup" d \/ calls e "hiera" d
   | MLiteral => calls e "literal" d
   | MScope => calls e "scope" d
   end).
Proof.
  unfold method_and_data. destruct (method_match e) as [[name a]|] eqn:E.
  - apply method_match_spec in E. destruct allow; [ | discriminate ]. simpl.
    destruct (String.eqb name "alias") eqn:E1.
    { apply String.eqb_eq in E1. subst. intro H. injection H as <- <-. auto. }
    destruct (String.eqb name "strict_alias") eqn:E2.
    { apply String.eqb_eq in E2. subst. intro H. injection H as <- <-. auto. }
    destruct (String.eqb name "hiera" || String.eqb name "lookup")%bool eqn:E3.
    { apply orb_true_iff in E3 as [E3|E3]; apply String.eqb_eq in E3; subst; intro H; injection H as <- <-; auto. }
    destruct (String.eqb name "literal") eqn:E4.
    { apply String.eqb_eq in E4. subst. intro H. injection H as <- <-. auto. }
    destruct (String.eqb name "scope") eqn:E5.
    { apply String.eqb_eq in E5. subst. intro H. injection H as <- <-. auto. }
    discriminate.
  - intro H. injection H as <- <-. left. repeat split. apply method_match_none. exact E.
Qed.

Definition no_alias (e : string) : Prop :=
  forall arg, ~ calls (trim_space e) "alias" arg /\ ~ calls (trim_space e) "strict_alias" arg.

Lemma loop_text w n str allow : forall cut last acc m result s acc' m' result' s',
  Forall (fun p => no_alias (snd p)) cut ->
  istr_loop w (run w n) str allow (toks cut last) acc m result s = (Ok (acc', m', result'), s') ->
  result' = result /\ (m' = MStrictAlias -> m = MStrictAlias) /\
  exists rs, acc' = (acc ++ filled cut rs last)%string /\
             Forall2 (fun p r => replacement w n allow (snd p) r) cut rs.
Proof.
  induction cut as [|[t e] cut IH]; intros last acc m result s acc' m' result' s' Hna H.
  - simpl in H. injection H as <- <- <- _. repeat split; auto. exists []. split; [ reflexivity | constructor ].
  - inversion Hna as [|? ? Hna1 Hna2]; subst. cbn [snd] in Hna1.
    assert (Fin : forall r m1, replacement w n allow e r -> m1 <> MStrictAlias ->
                 forall s1, istr_loop w (run w n) str allow (toks cut last) ((acc ++ t) ++ r)%string m1 result s1
                            = (Ok (acc', m', result'), s') ->
                 result' = result /\ (m' = MStrictAlias -> m = MStrictAlias) /\
                 exists rs, acc' = (acc ++ filled ((t, e) :: cut) rs last)%string /\
                   Forall2 (fun p r => replacement w n allow (snd p) r) ((t, e) :: cut) rs).
    { intros r m1 Hr Hm1 s1 E. apply IH in E as (E1 & E2 & rs & -> & E4); [ | exact Hna2 ].
      split; [ exact E1 | split; [ intro; exfalso; auto | ] ].
      exists (r :: rs). split; [ | constructor; assumption ].
      cbn [filled]. rewrite !app_assoc_s. reflexivity. }
    cbn [toks istr_loop] in H. destruct (empty_interpolation (trim_space e)) eqn:Ee.
    + apply empty_interpolation_in in Ee.
      apply IH in H as (E1 & E2 & rs & -> & E4); [ | exact Hna2 ].
      split; [ exact E1 | split; [ exact E2 | ] ].
      exists ("" :: rs). split; [ | constructor; [ constructor; exact Ee | assumption ] ].
      cbn [filled]. rewrite !app_assoc_s. reflexivity.
    + unfold bind, lift in H. destruct (method_and_data (trim_space e) allow) as [[md d]|x| |] eqn:Em; try discriminate.
      apply method_and_data_ok in Em. cbn [fst snd] in H.
      destruct md; cbn [is_alias andb] in H.
      * destruct (in_scope (run w n) allow d s) as [[v|x| |] s1] eqn:Es; try discriminate.
        refine (Fin _ _ _ _ _ H); [ | discriminate ].
        refine (rep_scope w n allow e d v s s1 _ Es).
        destruct Em as [(_ & -> & Hc)|[Ha Hc]]; [ right; auto | left; auto ].
      * destruct Em as [(C & _)|[_ C]]; [ discriminate | ]. exfalso. exact (proj1 (Hna1 d) C).
      * destruct Em as [(C & _)|[_ C]]; [ discriminate | ]. exfalso. exact (proj2 (Hna1 d) C).
      * destruct Em as [(C & _)|[Ha C]]; [ discriminate | ].
        destruct (new_key d) as [k|x| |] eqn:Ek; try discriminate.
        destruct (run w n (RLookup k None) s) as [[v|x| |] s1] eqn:Es; try discriminate.
        refine (Fin _ _ _ _ _ H); [ | discriminate ].
        destruct C as [C|C]; refine (rep_lookup w n allow e _ d k v s s1 Ha C _ Ek Es); auto.
      * destruct Em as [(C & _)|[Ha C]]; [ discriminate | ].
        refine (Fin _ _ _ _ _ H); [ | discriminate ].
        constructor; assumption.
Qed.

(** Opening and closing a node does not change the outcome. *)
Lemma node_ok A k i (m : M st A) s a s' : run_scoped (SNode k i) m s = (Ok a, s') ->
  exists s0 s1, m s0 = (Ok a, s1).
Proof.
  unfold run_scoped. destruct (iv_expl (s_iv s)); [ | eauto ].
  destruct (xpush k i (s_ex s)) as [x|]; [ | discriminate ].
  destruct (m (with_ex x s)) as [o t] eqn:E. intro H. injection H as -> _. eauto.
Qed.

Lemma string_text w n allow cut last s v b s' :
  well_cut cut last -> Forall (fun p => no_alias (snd p)) cut ->
  run w (S n) (RStr (assembled cut last) allow) s = (Ok (v, b), s') ->
  exists rs, v = Some (VStr (filled cut rs last)) /\
             Forall2 (fun p r => replacement w n allow (snd p) r) cut rs.
Proof.
  intros Hw Hna H. cbn [run body] in H. unfold istr in H.
  destruct (contains "%{" (assembled cut last)) eqn:Ec; cbn [negb] in H.
  - apply bind_ok in H as (x & s1 & H1 & H2). unfold ret in H2. injection H2 as -> _ _.
    apply node_ok in H1 as (s2 & s3 & H1).
    apply bind_ok in H1 as ([[acc m] result] & s4 & H3 & H4). rewrite (tokens_cut _ _ Hw) in H3.
    apply loop_text in H3 as (-> & Hm & rs & -> & Hrs); [ | exact Hna ].
    unfold ret in H4. injection H4 as <- _. exists rs. split; [ | exact Hrs ].
    destruct m; try reflexivity. discriminate (Hm eq_refl).
  - unfold ret in H. injection H as <- _ _. apply contains_not in Ec.
    destruct cut as [|[t e] cut].
    + exists []. split; [ reflexivity | constructor ].
    + exfalso. apply Ec. exists t, (e ++ "}" ++ assembled cut last)%string. reflexivity.
Qed.

(** ** The shape of values *)

Lemma mputall_self a : forall m, wfm a -> (forall e e', In e a -> In e' m -> distinct (fst e) (fst e')) ->
  mputall m a = m ++ a.
Proof.
  induction a as [|[k v] a IH]; intros m W H.
  - rewrite app_nil_r. reflexivity.
  - rewrite mputall_cons. cbn [fst snd]. apply wfm_cons in W as (_ & _ & W & Hk).
    rewrite mput_fresh.
    + rewrite IH; [ rewrite <- app_assoc; reflexivity | exact W | ].
      intros e e' He He'. apply in_app_or in He' as [He'|[<-|[]]].
      * apply H; simpl; auto.
      * destruct (Hk e He). split; assumption.
    + intros e He. exact (proj1 (H (k, v) e (or_introl eq_refl) He)).
Qed.

Lemma mputall_nil_self m : wfm m -> mputall [] m = m.
Proof. intro W. rewrite mputall_self; [ reflexivity | exact W | intros e e' _ []]. Qed.

Lemma run_unchanged w n t allow s o s' : run w n (RStr t allow) s = (Ok (o, false), s') -> o = Some (VStr t).
Proof.
  destruct n as [|n]; [ discriminate | ]. cbn [run body]. unfold istr.
  destruct (negb (contains "%{" t)).
  - unfold ret. intro H. injection H as <- _. reflexivity.
  - intro H. apply bind_ok in H as (a & s1 & _ & H). unfold ret in H. discriminate.
Qed.

Lemma shape w n allow : forall v s o b s', wf v = true ->
  do_interp (run w n) allow v s = (Ok (o, b), s') ->
  same_shape w n allow v (nil_to_null o) /\ (b = false -> o = Some v).
Proof.
  fix IH 1. intros v s o b s' W H.
  destruct v as [|c|z|z|t|l|m|v]; try (cbn in H; injection H as <- <- _; split; [ constructor | reflexivity ]).
  - cbn [do_interp] in H. split.
    + constructor. exists o, b, s, s'. auto.
    + intros ->. exact (run_unchanged _ _ _ _ _ _ _ H).
  - rewrite do_interp_arr in H. apply bind_ok in H as ([l' c] & s1 & H1 & H2).
    unfold ret in H2. cbn [fst snd] in H2. injection H2 as <- <- <-.
    assert (E : Forall2 (same_shape w n allow) l l' /\ (c = false -> l' = l)).
    { apply wf_arr in W. revert s l' c s1 H1. induction l as [|x l IHl]; intros s l' c s1 H1.
      - cbn in H1. injection H1 as <- <- _. split; [ constructor | reflexivity ].
      - cbn [each_arr] in H1. apply bind_ok in H1 as ([p pb] & s2 & H1 & H2).
        apply bind_ok in H2 as ([q qb] & s3 & H2 & H3). unfold ret in H3. cbn [fst snd] in H3.
        injection H3 as <- <- _. inversion W as [|? ? Wx Wl]; subst.
        apply (IH x) in H1 as [H1 H1']; [ | exact Wx ]. apply (IHl Wl) in H2 as [H2 H2'].
        assert (Ex : (if pb then nil_to_null p else x) = nil_to_null p).
        { destruct pb; [ reflexivity | rewrite (H1' eq_refl); reflexivity ]. }
        rewrite Ex. split; [ constructor; assumption | ].
        intro E. apply orb_false_iff in E as [-> ->]. rewrite (H1' eq_refl), (H2' eq_refl). reflexivity. }
    destruct E as [E1 E2]. assert (El : (if c then l' else l) = l').
    { destruct c; [ reflexivity | symmetry; exact (E2 eq_refl) ]. }
    rewrite El. split; [ constructor; exact E1 | ]. intros ->. rewrite (E2 eq_refl). reflexivity.
  - rewrite do_interp_map in H. apply bind_ok in H as ([r c] & s1 & H1 & H2).
    unfold ret in H2. cbn [fst snd] in H2. injection H2 as <- <- <-.
    assert (E : exists m',
               Forall2 (fun e e' => same_shape w n allow (fst e) (fst e') /\ same_shape w n allow (snd e) (snd e')) m m' /\
               r = mputall [] m' /\ (c = false -> m' = m)).
    { apply wf_map in W as [_ W]. revert s r c s1 H1. generalize (@nil (value * value)) as cp.
      induction m as [|[k v] m IHm]; intros cp s r c s1 H1.
      - cbn in H1. injection H1 as <- <- _. exists []. repeat split. constructor.
      - cbn [each_map] in H1. apply bind_ok in H1 as ([p pb] & s2 & H1 & H2).
        apply bind_ok in H2 as ([q qb] & s3 & H2 & H3).
        apply bind_ok in H3 as ([x xb] & s4 & H3 & H4). unfold ret in H4. cbn [fst snd] in *.
        injection H4 as <- <- _. inversion W as [|? ? [Wk Wv] Wl]; subst.
        apply (IH k) in H1 as [H1 H1']; [ | exact Wk ]. apply (IH v) in H2 as [H2 H2']; [ | exact Wv ].
        apply (IHm Wl) in H3 as (m' & H3 & -> & H3').
        exists ((nil_to_null p, nil_to_null q) :: m'). split; [ | split; [ reflexivity | ] ].
        + constructor; [ split; assumption | exact H3 ].
        + intro E. apply orb_false_iff in E as [E ->]. apply orb_false_iff in E as [-> ->].
          rewrite (H1' eq_refl), (H2' eq_refl), (H3' eq_refl). reflexivity. }
    destruct E as (m' & E1 & -> & E2). destruct c; cbn [nil_to_null].
    + split; [ constructor; exact E1 | discriminate ].
    + rewrite (E2 eq_refl) in E1. split; [ | reflexivity ].
      rewrite <- (mputall_nil_self m W) at 2. constructor. exact E1.
Qed.

Lemma interpolate_shape w n allow v s o s' : wf v = true ->
  interpolate (run w n) allow v s = (Ok o, s') -> same_shape w n allow v (nil_to_null o).
Proof.
  intros W H. unfold interpolate in H. apply bind_ok in H as ([p b] & s1 & H1 & H2).
  apply shape in H1 as [H1 H1']; [ | exact W ]. unfold ret in H2. cbn [fst snd] in H2. injection H2 as <- _.
  destruct b; [ exact H1 | ]. rewrite (H1' eq_refl) in H1. exact H1.
Qed.

(** Arrays and maps keep their length. *)
Lemma Forall2_len {A B} (R : A -> B -> Prop) l l' : Forall2 R l l' -> List.length l = List.length l'.
Proof. induction 1; simpl; congruence. Qed.

Lemma interpolate_arr w n allow l s o s' : wf (VArr l) = true ->
  interpolate (run w n) allow (VArr l) s = (Ok o, s') ->
  exists l', o = Some (VArr l') /\ List.length l' = List.length l /\ Forall2 (same_shape w n allow) l l'.
Proof.
  intros W H. pose proof (interpolate_shape _ _ _ _ _ _ _ W H) as Hs.
  unfold interpolate in H. rewrite do_interp_arr in H.
  apply bind_ok in H as ([p b] & s1 & H1 & H2). apply bind_ok in H1 as ([x c] & s2 & H1 & H3).
  unfold ret in *. cbn [fst snd] in *. injection H3 as <- <- _. injection H2 as <- _.
  assert (E : exists l', (if c then Some (VArr (if c then x else l)) else Some (VArr l)) = Some (VArr l')) by (destruct c; eauto).
  destruct E as [l' E]. rewrite E in *. exists l'. cbn [nil_to_null] in Hs. inversion Hs; subst.
  repeat split; [ | assumption ]. symmetry. eapply Forall2_len. eassumption.
Qed.

Lemma interpolate_map w n allow m s o s' : wf (VMap m) = true ->
  interpolate (run w n) allow (VMap m) s = (Ok o, s') ->
  exists m', o = Some (VMap (mputall [] m')) /\
    Forall2 (fun e e' => same_shape w n allow (fst e) (fst e') /\ same_shape w n allow (snd e) (snd e')) m m'.
Proof.
  intros W H. pose proof (interpolate_shape _ _ _ _ _ _ _ W H) as Hs.
  unfold interpolate in H. rewrite do_interp_map in H.
  apply bind_ok in H as ([p b] & s1 & H1 & H2). apply bind_ok in H1 as ([x c] & s2 & H1 & H3).
  unfold ret in *. cbn [fst snd] in *. injection H3 as <- <- _. injection H2 as <- _.
  assert (E : exists l', (if c then Some (VMap (if c then x else m)) else Some (VMap m)) = Some (VMap l')) by (destruct c; eauto).
  destruct E as [l' E]. rewrite E in *. cbn [nil_to_null] in Hs. inversion Hs; subst. eauto.
Qed.

(** By computation: nothing to interpolate. *)
Fixpoint plain (v : value) : bool :=
  match v with
  | VStr t => negb (contains "%{" t)
  | VArr l => (fix each (l : list value) := match l with [] => true | x :: r => (plain x && each r)%bool end) l
  | VMap m => (fix each (m : entries) := match m with [] => true | (k, x) :: r => (plain k && plain x && each r)%bool end) m
  | _ => true
  end.

Lemma settled_by : forall v, plain v = true -> settled v.
Proof.
  fix IH 1. intros v H t Hi. destruct v as [|b|z|z|s|l|m|v]; try (inversion Hi; fail).
  - inversion Hi; subst. simpl in H. apply negb_true_iff in H. apply contains_not. exact H.
  - inversion Hi as [|? x Hx Hx'| |]; subst. clear Hi. induction l as [|y l IHl]; [ destruct Hx | ].
    simpl in H. apply andb_true_iff in H as [H1 H2].
    destruct Hx as [<-|Hx]; [ exact (IH _ H1 t Hx') | exact (IHl H2 Hx) ].
  - assert (Q : exists k x, In (k, x) m /\ (inside t k \/ inside t x)) by (inversion Hi; subst; eauto).
    clear Hi. destruct Q as (k & x & Hin & Q). induction m as [|[k0 x0] m IHm]; [ destruct Hin | ].
    simpl in H. apply andb_true_iff in H as [H1 H2]. apply andb_true_iff in H1 as [H0 H1].
    destruct Hin as [E|Hin]; [ | exact (IHm H2 Hin) ].
    injection E as <- <-. destruct Q as [Q|Q]; [ exact (IH _ H0 t Q) | exact (IH _ H1 t Q) ].
Qed.
