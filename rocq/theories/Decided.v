(** Every value and every string has a meaning, fails, or does not end. *)

From Coq Require Import String Ascii List ZArith Bool Arith Lia.
From Verif Require Import Str Value Outcome Key Merge Fpath Config Ipl Explain State Engine Meta Fuel
  SpecKey SpecKeyErr SpecIpl SpecInterp SpecConfig SpecMerge SpecLookup SpecFail SpecWorld
  KeyFacts KeyErrFacts ValueFacts MergeFacts MergeLookup StrFacts IplFacts InterpFacts IplExact ResolveFacts
  LookupExact HierarchyExact LookupTop FailExact FailText SettledLookup Acyclic Cycles RootFacts.
Import ListNotations.
Open Scope nat_scope.
Open Scope string_scope.
Open Scope list_scope.




Lemma tidy_none : tidy None.
Proof. intros v E. discriminate E. Qed.
Lemma tidy_some v : wf v = true -> tidy (Some v).
Proof. intros H x E. injection E as <-. exact H. Qed.
Lemma tidy_element o : tidy o -> wf (element o) = true.
Proof. intro H. destruct o as [v|]; [ exact (H v eq_refl) | reflexivity ]. Qed.

(** The first element of a list that is not as it should be. *)
Lemma first_other {X} (A B : X -> Prop) l : Forall (fun x => A x \/ B x) l ->
  Forall A l \/ exists pre x post, l = pre ++ x :: post /\ Forall A pre /\ B x.
Proof.
  induction 1 as [|x l [H|H] _ IH]; [ left; constructor | | ].
  - destruct IH as [IH|(pre & y & post & -> & Hp & Hy)]; [ left; constructor; assumption | ].
    right. exists (x :: pre), y, post. split; [ reflexivity | ]. split; [ constructor; assumption | exact Hy ].
  - right. exists [], x, l. split; [ reflexivity | ]. split; [ constructor | exact H ].
Qed.

Lemma Forall_choice {X Y} (R : X -> Y -> Prop) l : Forall (fun x => exists y, R x y) l -> exists l', Forall2 R l l'.
Proof.
  induction 1 as [|x l [y Hy] _ [l' IH]]; [ exists []; constructor | ]. exists (y :: l'). constructor; assumption.
Qed.

Lemma wf_puts : forall a m, wfm m -> Forall (fun e => wf (fst e) = true /\ wf (snd e) = true) a -> wfm (mputall m a).
Proof.
  induction a as [|[k v] a IH]; intros m Hm H; [ exact Hm | ]. inversion H as [|? ? [Hk Hv] H']; subst.
  unfold mputall in *. cbn [fold_left]. apply IH; [ apply mput_wf; assumption | exact H' ].
Qed.

Lemma tidy_digs ps r o : digs ps r o -> tidy r -> tidy o.
Proof.
  intros [|v y H|v H] Hr; [ exact tidy_none | | exact tidy_none ]. apply tidy_some.
  refine (proj1 (orderly_path (fun _ => True) v ps y H (conj (Hr v eq_refl) _))). intros t _. exact I.
Qed.

Section Values.
  Variables (w : world) (sc : scope) (P : st -> Prop).
  Hypothesis Poff : forall s, P s -> off s.
  Hypothesis Psc : forall s, P s -> iv_scope (s_iv s) = sc.
  Variable rec : req -> M st res.
  Variable string_is : string -> option value -> Prop.
  Variable lookup_is : key -> option value -> Prop.
  Hypothesis Hstr : forall t o, string_is t o ->
    exists b, (b = false -> o = Some (VStr t)) /\ yields P (rec (RStr t true)) (o, b).
  Hypothesis Hlook : forall k o, lookup_is k o -> exists b, yields P (rec (RLookup k None)) (o, b).
  Variable string_fails : string -> err -> Prop.
  Variable key_fails : key -> err -> Prop.

  Hypothesis Dstr : forall t,
    (exists o, string_is t o /\ tidy o) \/ (exists x, string_fails t x) \/ diverges P (rec (RStr t true)).
  Hypothesis Dkey : forall k r ps, k_parts k = PStr r :: ps ->
    (exists o, lookup_is k o /\ tidy o) \/ (exists x, key_fails k x) \/ diverges P (rec (RLookup k None)).
  Hypothesis Hvars : forall x v, scope_get sc x = Some v -> wf v = true.

  (** ** Values *)

  Lemma div_each_arr pre v post : Forall (fun y => exists r, value_is string_is y r) pre ->
    diverges P (do_interp rec true v) -> diverges P (each_arr rec true (pre ++ v :: post)).
  Proof.
    intros Hp Hv. induction Hp as [|y pre [r Hy] _ IH]; cbn [app each_arr].
    - apply div_bind. exact Hv.
    - destruct (yields_do_interp P rec string_is Hstr y r Hy) as (b & _ & G).
      eapply div_after; [ exact G | ]. apply div_bind. exact IH.
  Qed.

  Lemma div_each_map pre k v post :
    Forall (fun e => (exists r, value_is string_is (fst e) r) /\ exists r, value_is string_is (snd e) r) pre ->
    diverges P (do_interp rec true k) \/
    ((exists r, value_is string_is k r) /\ diverges P (do_interp rec true v)) ->
    forall cp, diverges P (each_map rec true (pre ++ (k, v) :: post) cp).
  Proof.
    intros Hp Hv. induction Hp as [|[k0 v0] pre [[rk Hk0] [rv Hv0]] _ IH]; intro cp; cbn [app each_map].
    - destruct Hv as [Hk|[[r Hk] Hv]]; [ apply div_bind; exact Hk | ].
      destruct (yields_do_interp P rec string_is Hstr k r Hk) as (b & _ & G).
      eapply div_after; [ exact G | ]. apply div_bind. exact Hv.
    - cbn [fst snd] in *.
      destruct (yields_do_interp P rec string_is Hstr k0 rk Hk0) as (b1 & _ & G1).
      destruct (yields_do_interp P rec string_is Hstr v0 rv Hv0) as (b2 & _ & G2).
      eapply div_after; [ exact G1 | ]. eapply div_after; [ exact G2 | ]. apply div_bind. apply IH.
  Qed.

  Definition value_known (v : value) : Prop := exists o, value_is string_is v o /\ tidy o.
  Definition value_breaks (v : value) : Prop := exists x, value_fails string_is string_fails v x.

  Lemma known_is v : value_known v -> exists r, value_is string_is v r.
  Proof. intros (o & H & _). eauto. Qed.

  Lemma value_decided : forall v, wf v = true ->
    value_known v \/ value_breaks v \/ diverges P (do_interp rec true v).
  Proof.
    assert (Other : forall v, (forall t, v <> VStr t) -> (forall l, v <> VArr l) -> (forall m, v <> VMap m) ->
              wf v = true -> value_known v).
    { intros v H1 H2 H3 W. exists (Some v). split; [ apply vi_other; assumption | apply tidy_some; exact W ]. }
    intro v. induction v using value_ind2; intro W;
      try (left; apply Other; [ intros; discriminate | intros; discriminate | intros; discriminate | exact W ]).
    - destruct (Dstr s) as [(o & H1 & H2)|[(x & H)|H]].
      + left. exists o. split; [ apply vi_str; exact H1 | exact H2 ].
      + right. left. exists x. apply vf_str. exact H.
      + right. right. exact H.
    - apply wf_arr in W.
      assert (Q : Forall (fun x => value_known x \/ (value_breaks x \/ diverges P (do_interp rec true x))) l).
      { apply Forall_forall. intros x Hx. exact (proj1 (Forall_forall _ _) H x Hx (proj1 (Forall_forall _ _) W x Hx)). }
      destruct (first_other _ _ l Q) as [K|(pre & x & post & -> & Hp & Hx)].
      + left. apply Forall_choice in K as (os & K).
        exists (Some (VArr (map element os))). split.
        * apply vi_arr. clear - K. induction K as [|x o l os [H _] _ IH]; constructor; [ exists o; auto | exact IH ].
        * apply tidy_some. apply wf_arr. clear - K. induction K as [|x o l os [_ H] _ IH]; constructor; [ now apply tidy_element | exact IH ].
      + right. assert (Hp' : Forall (fun y => exists r, value_is string_is y r) pre) by (eapply Forall_impl; [ apply known_is | exact Hp ]).
        destruct Hx as [(e & Hx)|Hx]; [ left; exists e; apply vf_element; assumption | right ].
        rewrite do_interp_arr. apply div_bind. apply div_each_arr; assumption.
    - assert (W' : Forall (fun e => wf (fst e) = true /\ wf (snd e) = true) m)
        by (apply Forall_forall; intros e He; exact (wfm_in m e W He)).
      assert (Q : Forall (fun e => (value_known (fst e) /\ value_known (snd e)) \/
          ((value_breaks (fst e) \/ diverges P (do_interp rec true (fst e))) \/
           (value_known (fst e) /\ (value_breaks (snd e) \/ diverges P (do_interp rec true (snd e)))))) m).
      { apply Forall_forall. intros e He. destruct (proj1 (Forall_forall _ _) H e He) as [Hk Hv].
        destruct (proj1 (Forall_forall _ _) W' e He) as [Wk Wv].
        destruct (Hk Wk) as [K|K]; [ | right; left; exact K ].
        destruct (Hv Wv) as [V|V]; [ left; auto | right; right; auto ]. }
      destruct (first_other _ _ m Q) as [K|(pre & [k x] & post & -> & Hp & Hx)].
      + left.
        assert (K' : Forall (fun e => exists y, (value_is string_is (fst e) (fst y) /\ tidy (fst y)) /\
                                                 (value_is string_is (snd e) (snd y) /\ tidy (snd y))) m).
        { eapply Forall_impl; [ | exact K ]. intros e [(a & A1 & A2) (b & B1 & B2)]. exists (a, b). auto. }
        apply Forall_choice in K' as (os & K').
        exists (Some (VMap (mputall [] (map (fun y => (element (fst y), element (snd y))) os)))). split.
        * apply vi_map; [ exact W | ]. clear - K'. induction K' as [|x o l os [[H1 _] [H2 _]] _ IH]; constructor; [ | exact IH ].
          split; [ exists (fst o) | exists (snd o) ]; auto.
        * apply tidy_some. apply wf_puts; [ apply wfm_nil | ]. clear - K'.
          induction K' as [|x o l os [[_ H1] [_ H2]] _ IH]; constructor; [ | exact IH ].
          split; now apply tidy_element.
      + right.
        assert (Hp' : Forall (fun e => (exists r, value_is string_is (fst e) r) /\ exists r, value_is string_is (snd e) r) pre).
        { eapply Forall_impl; [ | exact Hp ]. intros e [A B]. split; apply known_is; assumption. }
        cbn [fst snd] in Hx. rewrite do_interp_map.
        destruct Hx as [[(e & Hx)|Hx]|[Hk [(e & Hx)|Hx]]].
        * left. exists e. apply vf_key; assumption.
        * right. apply div_bind. apply div_each_map; [ exact Hp' | left; exact Hx ].
        * left. exists e. apply vf_value; [ exact Hp' | apply known_is; exact Hk | exact Hx ].
        * right. apply div_bind. apply div_each_map; [ exact Hp' | right; split; [ apply known_is; exact Hk | exact Hx ] ].
  Qed.

  Lemma interpolate_decided v : wf v = true ->
    value_known v \/ value_breaks v \/ diverges P (interpolate rec true v).
  Proof.
    intro W. destruct (value_decided v W) as [H|[H|H]]; [ left; exact H | right; left; exact H | ].
    right. right. unfold interpolate. apply div_bind. exact H.
  Qed.

  (** ** Strings *)

  Lemma key_decided arg : (exists r ps, written_key arg (PStr r :: ps)) \/ exists x, misspelt arg x.
  Proof.
    destruct (new_key_total arg) as [(k & E)|(x & E & _)].
    - left. destruct (new_key_root _ _ E) as (r & ps & Ek & _). exists r, ps. apply new_key_written in E as (parts & -> & E). cbn in Ek. rewrite <- Ek. exact E.
    - right. exists x. apply new_key_refused. exact E.
  Qed.

  (** An expression has a text, fails, is an alias for the whole string, or does
      not end. *)
  Inductive alias_of (t e : string) : Prop :=
  | ao : forall name arg r ps, calls (trim_space e) name arg -> name = "alias" \/ name = "strict_alias" ->
      t = ("%{" ++ e ++ "}")%string -> written_key arg (PStr r :: ps) -> alias_of t e.

  Lemma div_lookup t e name arg r ps ts acc m result : calls (trim_space e) name arg -> looks_up t e name ->
    written_key arg (PStr r :: ps) -> diverges P (rec (RLookup (mk_key arg (PStr r :: ps)) None)) ->
    diverges P (istr_loop w rec t true (TExpr e :: ts) acc m result).
  Proof.
    intros Hc Hl Hk Hx. cbn [istr_loop]. rewrite (calls_nonempty _ _ _ Hc).
    assert (Al : exists md, (md = MLookup \/ ((md = MAlias \/ md = MStrictAlias) /\ t = ("%{" ++ e ++ "}")%string)) /\
       method_and_data (trim_space e) true = Ok (md, arg)).
    { destruct Hl as [->|[->|[[->| ->] Et]]].
      - exists MLookup. split; [ auto | ]. exact (calls_md _ _ _ Hc).
      - exists MLookup. split; [ auto | ]. exact (calls_md _ _ _ Hc).
      - exists MAlias. split; [ auto | ]. exact (calls_md _ _ _ Hc).
      - exists MStrictAlias. split; [ auto | ]. exact (calls_md _ _ _ Hc). }
    destruct Al as (md & Hmd & E). eapply div_after; [ apply yields_lift; exact E | ]. cbn [fst snd].
    replace (is_alias md && negb (String.eqb ("%{" ++ e ++ "}") t))%bool with false.
    - destruct Hmd as [->|[[->| ->] _]]; (eapply div_after; [ apply yields_lift; exact (written_key_new _ _ Hk) | ]);
        apply div_bind; exact Hx.
    - destruct Hmd as [->|[_ ->]]; [ reflexivity | ]. rewrite String.eqb_refl. cbn [negb]. now rewrite andb_false_r.
  Qed.

  Lemma expression_decided t e :
    (exists r, expression_is w sc string_is lookup_is e r) \/
    ((exists x, expression_fails sc string_is string_fails key_fails t e x) \/ alias_of t e \/
     forall ts acc m result, diverges P (istr_loop w rec t true (TExpr e :: ts) acc m result)).
  Proof.
    set (e' := trim_space e).
    destruct (in_dec string_dec e' [""; "::"; """"""; "''"; """::"""; "'::'"]) as [Hin|Hin].
    { left. exists "". apply ei_empty. exact Hin. }
    assert (Scope : forall arg, asks_scope true e' arg ->
      (exists r, expression_is w sc string_is lookup_is e r) \/
      ((exists x, expression_fails sc string_is string_fails key_fails t e x) \/ alias_of t e \/
       forall ts acc m result, diverges P (istr_loop w rec t true (TExpr e :: ts) acc m result))).
    { intros arg Ha. destruct (key_decided arg) as [(y & ps & Hk)|(x & Hx)].
      - destruct (scope_get sc y) as [v|] eqn:Eg.
        + destruct (value_decided v (Hvars _ _ Eg)) as [(r & H1 & H2)|[(x & H)|H]].
          * left. destruct (digs_total ps r) as (o & D). exists (text w o). eapply ei_scope; eassumption.
          * right. left. exists x. eapply xf_scope; eassumption.
          * right. right. right. intros ts acc m result. cbn [istr_loop]. fold e'.
            rewrite (empty_interpolation_out _ Hin).
            eapply div_after; [ apply yields_lift; exact (asks_scope_md _ _ _ Ha) | ]. cbn [fst snd is_alias andb].
            apply div_bind. unfold in_scope.
            eapply div_after; [ apply yields_lift; exact (written_key_new _ _ Hk) | ].
            eapply div_after; [ apply yields_lift; reflexivity | ].
            eapply div_after; [ exact (yields_scope sc P Psc) | ]. rewrite Eg. apply div_bind. exact H.
        + left. exists "". eapply ei_unset; eassumption.
      - right. left. exists x. eapply xf_variable; eassumption. }
    destruct (method_match e') as [[name arg]|] eqn:Em.
    2: { apply (Scope e'). right. split; [ reflexivity | ]. apply method_match_none. exact Em. }
    apply method_match_spec in Em.
    destruct (in_dec string_dec name ["alias"; "strict_alias"; "hiera"; "lookup"; "literal"; "scope"]) as [Hn|Hn].
    2: { right. left. eexists. eapply xf_unknown; [ exact Em | exact Hn | reflexivity ]. }
    assert (Alias : name = "alias" \/ name = "strict_alias" ->
      (exists x, expression_fails sc string_is string_fails key_fails t e x) \/ alias_of t e).
    { intro Hal. destruct (string_dec t ("%{" ++ e ++ "}")%string) as [Et|Et].
      - destruct (key_decided arg) as [(y & ps & Hk)|(x & Hx)].
        + right. econstructor; eassumption.
        + left. exists x. eapply xf_key; [ exact Em | right; right; split; [ exact Hal | exact Et ] | exact Hx ].
      - left. eexists. eapply xf_misplaced; [ exact Em | exact Hal | exact Et | reflexivity ]. }
    assert (Look : name = "lookup" \/ name = "hiera" ->
      (exists r, expression_is w sc string_is lookup_is e r) \/
      ((exists x, expression_fails sc string_is string_fails key_fails t e x) \/ alias_of t e \/
       forall ts acc m result, diverges P (istr_loop w rec t true (TExpr e :: ts) acc m result))).
    { intro Hl. assert (Hl' : looks_up t e name) by (unfold looks_up; tauto).
      destruct (key_decided arg) as [(y & ps & Hk)|(x & Hx)].
      - destruct (Dkey (mk_key arg (PStr y :: ps)) y ps eq_refl) as [(o & H & _)|[(x & H)|H]].
        + left. exists (text w o). eapply ei_lookup; eassumption.
        + right. left. exists x. eapply xf_lookup; eassumption.
        + right. right. right. intros. eapply div_lookup; eassumption.
      - right. left. exists x. eapply xf_key; eassumption. }
    destruct Hn as [<-|[<-|[<-|[<-|[<-|[<-|[]]]]]]].
    - right. destruct Alias; auto.
    - right. destruct Alias; auto.
    - apply Look. auto.
    - apply Look. auto.
    - left. exists arg. apply ei_literal. exact Em.
    - apply (Scope arg). left. split; [ reflexivity | exact Em ].
  Qed.

  Lemma div_string_loop t : forall pre rs u e post last acc m result,
    Forall2 (fun p r => expression_is w sc string_is lookup_is (snd p) r) pre rs -> m <> MStrictAlias ->
    (forall ts acc m result, diverges P (istr_loop w rec t true (TExpr e :: ts) acc m result)) ->
    diverges P (istr_loop w rec t true (toks (pre ++ (u, e) :: post) last) acc m result).
  Proof.
    induction pre as [|[u0 e0] pre IH]; intros rs u e post last acc m result H Hm Hx.
    - cbn [app toks]. exact (Hx _ (acc ++ u)%string m result).
    - inversion H as [|? r ? rs' H1 H2]; subst. cbn [snd] in H1. cbn [app toks].
      change (istr_loop w rec t true (TLit u0 :: TExpr e0 :: toks (pre ++ (u, e) :: post) last) acc m result)
        with (istr_loop w rec t true (TExpr e0 :: toks (pre ++ (u, e) :: post) last) (acc ++ u0)%string m result).
      assert (G : exists m', m' <> MStrictAlias /\
        (diverges P (istr_loop w rec t true (toks (pre ++ (u, e) :: post) last) ((acc ++ u0) ++ r)%string m' result) ->
         diverges P (istr_loop w rec t true (TExpr e0 :: toks (pre ++ (u, e) :: post) last) (acc ++ u0)%string m result))).
      { cbn [istr_loop].
        inversion H1 as [Hin|arg Hc|arg y ps Hin Ha Hk Hg|arg y ps v r0 o Hin Ha Hk Hg Hv Hd|name arg ps o Hc Hn Hk Hl]; subst.
        - rewrite (empty_interpolation_is _ Hin). exists m. rewrite app_nil_s. auto.
        - rewrite (calls_nonempty _ _ _ Hc). exists MLiteral. split; [ discriminate | intro K ].
          eapply div_after; [ apply yields_lift; exact (calls_md _ _ _ Hc) | ]. exact K.
        - rewrite (empty_interpolation_out _ Hin). exists MScope. split; [ discriminate | intro K ].
          eapply div_after; [ apply yields_lift; exact (asks_scope_md _ _ _ Ha) | ].
          cbn [fst snd is_alias andb]. eapply div_after with (a := None); [ | exact K ].
          intros s Hs. exists s. split; [ | exact Hs ]. apply (in_scope_unset _ _ _ _ _ _ Hk). rewrite (Psc s Hs). exact Hg.
        - rewrite (empty_interpolation_out _ Hin). exists MScope. split; [ discriminate | intro K ].
          eapply div_after; [ apply yields_lift; exact (asks_scope_md _ _ _ Ha) | ].
          cbn [fst snd is_alias andb]. eapply div_after with (a := o); [ | exact K ].
          unfold in_scope. eapply yields_bind; [ apply yields_lift; exact (written_key_new _ _ Hk) | ].
          eapply yields_bind; [ apply yields_lift; reflexivity | ]. eapply yields_bind; [ exact (yields_scope sc P Psc) | ].
          rewrite Hg. destruct (yields_do_interp P rec string_is Hstr v r0 Hv) as (b & B & G). eapply yields_bind; [ exact G | ].
          cbn [fst]. exact (digs_dig P Poff arg y ps r0 o Hd).
        - rewrite (calls_nonempty _ _ _ Hc). exists MLookup. split; [ discriminate | intro K ].
          eapply div_after; [ apply yields_lift; rewrite (calls_md _ _ _ Hc); destruct Hn as [-> | ->]; reflexivity | ].
          destruct (Hlook _ _ Hl) as (b & G). cbn [fst snd is_alias andb].
          eapply div_after; [ apply yields_lift; exact (written_key_new _ _ Hk) | ].
          eapply div_after; [ exact G | ]. exact K. }
      destruct G as (m' & Hm' & G). apply G. exact (IH rs' u e post last _ m' result H2 Hm' Hx).
  Qed.

  Lemma div_string t pre u e post last rs : t = assembled (pre ++ (u, e) :: post) last ->
    well_cut (pre ++ (u, e) :: post) last ->
    Forall2 (fun p r => expression_is w sc string_is lookup_is (snd p) r) pre rs ->
    (forall ts acc m result, diverges P (istr_loop w rec t true (TExpr e :: ts) acc m result)) ->
    diverges P (istr w rec t true).
  Proof.
    intros Et Hw Hp Hx. unfold istr.
    assert (Ec : contains "%{" t = true).
    { rewrite Et. apply contains_has. destruct pre as [|[a b] pre].
      - exists u, (e ++ "}" ++ assembled post last)%string. reflexivity.
      - exists a, (b ++ "}" ++ assembled (pre ++ (u, e) :: post) last)%string. reflexivity. }
    rewrite Ec. cbn [negb]. apply div_bind. apply div_node; [ exact Poff | ]. apply div_bind.
    assert (Tk : tokens t = toks (pre ++ (u, e) :: post) last) by (rewrite Et; apply tokens_cut; exact Hw).
    rewrite Tk. eapply div_string_loop; [ exact Hp | discriminate | exact Hx ].
  Qed.

  (** A string that is one expression is cut in one way. *)
  Lemma assembled_length : forall pre u e post last,
    String.length u + String.length e + 3 + String.length last + 3 * (length pre + length post) <=
    String.length (assembled (pre ++ (u, e) :: post) last).
  Proof.
    assert (L : forall post last, 3 * length post + String.length last <= String.length (assembled post last)).
    { induction post as [|[a b] post IH]; intro last; [ cbn; lia | ]. cbn [assembled length].
      repeat first [ rewrite length_app_s | progress cbn [String.length] ]. specialize (IH last). lia. }
    induction pre as [|[a b] pre IH]; intros u e post last; cbn [app assembled length];
      repeat first [ rewrite length_app_s | progress cbn [String.length] ].
    - specialize (L post last). lia.
    - specialize (IH u e post last). lia.
  Qed.

  Lemma alone pre u e post last : ("%{" ++ e ++ "}")%string = assembled (pre ++ (u, e) :: post) last ->
    pre = [] /\ u = "" /\ post = [] /\ last = "".
  Proof.
    intro E. pose proof (assembled_length pre u e post last) as H. rewrite <- E in H.
    repeat first [ rewrite length_app_s in H | progress cbn [String.length] in H ].
    assert (A : length pre = 0 /\ length post = 0 /\ String.length u = 0 /\ String.length last = 0) by lia.
    destruct A as (A1 & A2 & A3 & A4). destruct pre; [ | discriminate ]. destruct post; [ | discriminate ].
    destruct u; [ | discriminate ]. destruct last; [ | discriminate ]. auto.
  Qed.

  Lemma string_decided t :
    (exists o, whole_is w sc string_is lookup_is t o /\ tidy o) \/
    (exists x, whole_fails w sc string_is lookup_is string_fails key_fails t x) \/
    diverges P (istr w rec t true).
  Proof.
    destruct (cut_exists t) as (cut & last & Hw & Ht).
    assert (Q : Forall (fun p => (exists r, expression_is w sc string_is lookup_is (snd p) r) \/
        ((exists x, expression_fails sc string_is string_fails key_fails t (snd p) x) \/ alias_of t (snd p) \/
          forall ts acc m result, diverges P (istr_loop w rec t true (TExpr (snd p) :: ts) acc m result))) cut).
    { apply Forall_forall. intros p _. apply expression_decided. }
    destruct (first_other _ _ cut Q) as [K|(pre & [u e] & post & -> & Hp & Hx)].
    - left. apply Forall_choice in K as (rs & K). exists (Some (VStr (filled cut rs last))).
      split; [ | apply tidy_some; reflexivity ]. rewrite <- Ht. apply wi_text; assumption.
    - apply Forall_choice in Hp as (rs & Hp). cbn [snd] in Hx.
      destruct Hx as [(x & Hx)|[[name arg r ps Hc Hn Et Hk]|Hx]].
      + right. left. exists x. eapply wf_expression; [ symmetry; exact Ht | exact Hw | exact Hp | exact Hx ].
      + assert (Eq : ("%{" ++ e ++ "}")%string = assembled (pre ++ (u, e) :: post) last) by congruence.
        apply alone in Eq as (-> & -> & -> & ->).
        assert (Hb : ~ has "}" e).
        { destruct Hw as [Hw _]. cbn [app] in Hw. inversion Hw as [|? ? [_ H] _]; subst. exact H. }
        assert (Hl : looks_up t e name) by (right; right; auto).
        destruct (Dkey (mk_key arg (PStr r :: ps)) r ps eq_refl) as [(o & Ho & To)|[(x & Hx)|Hx]].
        * left. subst t. destruct Hn as [->| ->].
          -- eexists. split; [ eapply wi_alias; eassumption | ]. apply tidy_some. destruct o as [v|]; [ exact (To v eq_refl) | reflexivity ].
          -- exists o. split; [ eapply wi_strict_alias; eassumption | exact To ].
        * right. left. exists x. eapply wf_expression with (pre := []) (rs := []); [ symmetry; exact Ht | exact Hw | constructor | ].
          eapply xf_lookup; eassumption.
        * right. right. apply (div_string t [] "" e [] "" []); [ symmetry; exact Ht | exact Hw | constructor | ].
          intros. eapply div_lookup; eassumption.
      + right. right. eapply div_string; [ symmetry; exact Ht | exact Hw | exact Hp | exact Hx ].
  Qed.
End Values.
