(** Expressions that fail, and nested lookups that do. *)

From Coq Require Import String Ascii List ZArith Bool Arith Lia.
From Verif Require Import Str Value Outcome Key Merge Fpath Config Ipl Explain State Engine Meta Fuel Session
  SpecKey SpecKeyErr SpecIpl SpecInterp SpecConfig SpecMerge SpecLookup SpecFail
  KeyFacts KeyErrFacts ValueFacts MergeFacts MergeLookup StrFacts IplFacts InterpFacts IplExact ResolveFacts LookupExact LoaderFacts
  HierarchyExact LookupTop LookupFail FailExact RootFacts.
Import ListNotations.
Open Scope nat_scope.
Open Scope string_scope.
Open Scope list_scope.

Lemma breaks_lift sh (P : st -> Prop) A e : (forall s, P s -> s_shared s = sh) -> breaks sh P (lift (Panic e) : M st A) e.
Proof. intros H s Hs. exists s. split; [ reflexivity | exact (H s Hs) ]. Qed.

Section Values.
  Variables (w : world) (sc : scope) (sh : list (string * shared)) (P : st -> Prop).
  Hypothesis Poff : forall s, P s -> off s.
  Hypothesis Psc : forall s, P s -> iv_scope (s_iv s) = sc.
  Hypothesis Psh : forall s, P s -> s_shared s = sh.
  Variable rec : req -> M st res.
  Variable string_is : string -> option value -> Prop.
  Variable lookup_is : key -> option value -> Prop.
  Hypothesis Hstr : forall t o, string_is t o ->
    exists b, (b = false -> o = Some (VStr t)) /\ yields P (rec (RStr t true)) (o, b).
  Hypothesis Hlook : forall k o, lookup_is k o -> exists b, yields P (rec (RLookup k None)) (o, b).
  Variable string_fails : string -> err -> Prop.
  Variable key_fails : key -> err -> Prop.
  Hypothesis Hsf : forall t x, string_fails t x -> breaks sh P (rec (RStr t true)) x.
  Hypothesis Hkf : forall k x, key_fails k x -> breaks sh P (rec (RLookup k None)) x.

  Lemma breaks_each_arr pre v post x : Forall (fun y => exists r, value_is string_is y r) pre ->
    breaks sh P (do_interp rec true v) x -> breaks sh P (each_arr rec true (pre ++ v :: post)) x.
  Proof.
    intros Hp Hv. induction Hp as [|y pre [r Hy] _ IH]; cbn [app each_arr].
    - apply breaks_now. exact Hv.
    - destruct (yields_do_interp P rec string_is Hstr y r Hy) as (b & _ & G).
      eapply breaks_after; [ exact G | ]. apply breaks_now. exact IH.
  Qed.

  Lemma breaks_each_map pre k v post x :
    Forall (fun e => (exists r, value_is string_is (fst e) r) /\ exists r, value_is string_is (snd e) r) pre ->
    breaks sh P (bind (do_interp rec true k) (fun p => bind (do_interp rec true v) (fun q => ret (p, q)))) x ->
    forall cp, breaks sh P (each_map rec true (pre ++ (k, v) :: post) cp) x.
  Proof.
    intros Hp Hv. induction Hp as [|[k0 v0] pre [[rk Hk0] [rv Hv0]] _ IH]; intro cp; cbn [app each_map].
    - intros s Hs. destruct (Hv s Hs) as (s' & E & K). exists s'. split; [ | exact K ]. unfold bind in *.
      destruct (do_interp rec true k s) as [[p|e| |] s1]; try discriminate; [ | congruence ].
      destruct (do_interp rec true v s1) as [[q|e| |] s2]; try discriminate. congruence.
    - cbn [fst snd] in *.
      destruct (yields_do_interp P rec string_is Hstr k0 rk Hk0) as (b1 & _ & G1).
      destruct (yields_do_interp P rec string_is Hstr v0 rv Hv0) as (b2 & _ & G2).
      eapply breaks_after; [ exact G1 | ]. eapply breaks_after; [ exact G2 | ]. apply breaks_now. apply IH.
  Qed.

  Lemma breaks_do_interp v x : value_fails string_is string_fails v x -> breaks sh P (do_interp rec true v) x.
  Proof.
    induction 1 as [t x H|pre v post x Hp H IH|pre k v post x Hp H IH|pre k v post x Hp [r Hk] H IH].
    - exact (Hsf t x H).
    - rewrite do_interp_arr. apply breaks_now. now apply breaks_each_arr.
    - rewrite do_interp_map. apply breaks_now. apply breaks_each_map; [ exact Hp | ]. apply breaks_now. exact IH.
    - rewrite do_interp_map. apply breaks_now. apply breaks_each_map; [ exact Hp | ].
      destruct (yields_do_interp P rec string_is Hstr k r Hk) as (b & _ & G).
      eapply breaks_after; [ exact G | ]. apply breaks_now. exact IH.
  Qed.

  Lemma breaks_interpolate v x : value_fails string_is string_fails v x -> breaks sh P (interpolate rec true v) x.
  Proof. intro H. unfold interpolate. apply breaks_now. now apply breaks_do_interp. Qed.

  Lemma breaks_expression t e x ts acc m result :
    expression_fails sc string_is string_fails key_fails t e x ->
    breaks sh P (istr_loop w rec t true (TExpr e :: ts) acc m result) x.
  Proof.
    intro H. cbn [istr_loop].
    assert (Bad : forall A y (f : key -> M st A), misspelt y x -> breaks sh P (bind (lift (new_key y)) f) x).
    { intros A y f Hy. apply breaks_now. apply new_key_refused in Hy. rewrite Hy. now apply breaks_lift. }
    assert (Al : forall name, looks_up t e name ->
       exists md, method_and_data (trim_space e) true = method_and_data (trim_space e) true /\
       (md = MLookup \/ ((md = MAlias \/ md = MStrictAlias) /\ t = ("%{" ++ e ++ "}")%string)) /\
       forall arg, calls (trim_space e) name arg -> method_and_data (trim_space e) true = Ok (md, arg)).
    { intros name [->|[->|[[->| ->] Et]]].
      - exists MLookup. split; [ reflexivity | ]. split; [ auto | ]. intros arg Hc. exact (calls_md _ _ _ Hc).
      - exists MLookup. split; [ reflexivity | ]. split; [ auto | ]. intros arg Hc. exact (calls_md _ _ _ Hc).
      - exists MAlias. split; [ reflexivity | ]. split; [ auto | ]. intros arg Hc. exact (calls_md _ _ _ Hc).
      - exists MStrictAlias. split; [ reflexivity | ]. split; [ auto | ]. intros arg Hc. exact (calls_md _ _ _ Hc). }
    destruct H as [name arg Hc Hn ->|name arg Hc Hn Ht ->|arg Hin Ha Hm|arg y ps v Hin Ha Hk Hg Hv|name arg Hc Hl Hm|name arg ps Hc Hl Hk Hx].
    - rewrite (calls_nonempty _ _ _ Hc). apply breaks_now. rewrite (calls_md _ _ _ Hc).
      assert (N : forall t, In t ["alias"; "strict_alias"; "hiera"; "lookup"; "literal"; "scope"] -> String.eqb name t = false).
      { intros t0 Hin. apply String.eqb_neq. intros ->. exact (Hn Hin). }
      rewrite !N by (cbn; tauto). cbn [orb]. now apply breaks_lift.
    - rewrite (calls_nonempty _ _ _ Hc). apply String.eqb_neq in Ht. rewrite String.eqb_sym in Ht.
      assert (Hd : exists md, is_alias md = true /\ method_and_data (trim_space e) true = Ok (md, arg)).
      { destruct Hn as [->| ->]; [ exists MAlias | exists MStrictAlias ]; (split; [ reflexivity | exact (calls_md _ _ _ Hc) ]). }
      destruct Hd as (md & Em & E). eapply breaks_after; [ apply yields_lift; exact E | ]. cbn [fst snd].
      rewrite Em, Ht. cbn [negb andb]. intros s Hs. exists s. split; [ reflexivity | exact (Psh s Hs) ].
    - rewrite (empty_interpolation_out _ Hin).
      eapply breaks_after; [ apply yields_lift; exact (asks_scope_md _ _ _ Ha) | ]. cbn [fst snd is_alias andb].
      apply breaks_now. unfold in_scope. apply Bad. exact Hm.
    - rewrite (empty_interpolation_out _ Hin).
      eapply breaks_after; [ apply yields_lift; exact (asks_scope_md _ _ _ Ha) | ]. cbn [fst snd is_alias andb].
      apply breaks_now. unfold in_scope.
      eapply breaks_after; [ apply yields_lift; exact (written_key_new _ _ Hk) | ].
      eapply breaks_after; [ apply yields_lift; reflexivity | ].
      eapply breaks_after; [ exact (yields_scope sc P Psc) | ]. rewrite Hg. apply breaks_now. now apply breaks_do_interp.
    - rewrite (calls_nonempty _ _ _ Hc). destruct (Al name Hl) as (md & _ & Hmd & E).
      eapply breaks_after; [ apply yields_lift; exact (E arg Hc) | ]. cbn [fst snd].
      replace (is_alias md && negb (String.eqb ("%{" ++ e ++ "}") t))%bool with false.
      + destruct Hmd as [->|[[->| ->] _]]; apply Bad; exact Hm.
      + destruct Hmd as [->|[_ ->]]; [ reflexivity | ]. rewrite String.eqb_refl. cbn [negb]. now rewrite andb_false_r.
    - rewrite (calls_nonempty _ _ _ Hc). destruct (Al name Hl) as (md & _ & Hmd & E).
      eapply breaks_after; [ apply yields_lift; exact (E arg Hc) | ]. cbn [fst snd].
      replace (is_alias md && negb (String.eqb ("%{" ++ e ++ "}") t))%bool with false.
      + destruct Hmd as [->|[[->| ->] _]]; (eapply breaks_after; [ apply yields_lift; exact (written_key_new _ _ Hk) | ]);
          apply breaks_now; apply Hkf; exact Hx.
      + destruct Hmd as [->|[_ ->]]; [ reflexivity | ]. rewrite String.eqb_refl. cbn [negb]. now rewrite andb_false_r.
  Qed.

  Lemma breaks_string_loop t : forall pre rs u e post last x acc m result,
    Forall2 (fun p r => expression_is w sc string_is lookup_is (snd p) r) pre rs -> m <> MStrictAlias ->
    expression_fails sc string_is string_fails key_fails t e x ->
    breaks sh P (istr_loop w rec t true (toks (pre ++ (u, e) :: post) last) acc m result) x.
  Proof.
    induction pre as [|[u0 e0] pre IH]; intros rs u e post last x acc m result H Hm Hx.
    - cbn [app toks]. exact (breaks_expression t e x _ (acc ++ u)%string m result Hx).
    - inversion H as [|? r ? rs' H1 H2]; subst. cbn [snd] in H1. cbn [app toks].
      change (istr_loop w rec t true (TLit u0 :: TExpr e0 :: toks (pre ++ (u, e) :: post) last) acc m result)
        with (istr_loop w rec t true (TExpr e0 :: toks (pre ++ (u, e) :: post) last) (acc ++ u0)%string m result).
      assert (G : exists m', m' <> MStrictAlias /\
        (breaks sh P (istr_loop w rec t true (toks (pre ++ (u, e) :: post) last) ((acc ++ u0) ++ r)%string m' result) x ->
         breaks sh P (istr_loop w rec t true (TExpr e0 :: toks (pre ++ (u, e) :: post) last) (acc ++ u0)%string m result) x)).
      { cbn [istr_loop].
        inversion H1 as [Hin|arg Hc|arg y ps Hin Ha Hk Hg|arg y ps v r0 o Hin Ha Hk Hg Hv Hd|name arg ps o Hc Hn Hk Hl]; subst.
        - rewrite (empty_interpolation_is _ Hin). exists m. rewrite app_nil_s. auto.
        - rewrite (calls_nonempty _ _ _ Hc). exists MLiteral. split; [ discriminate | intro K ].
          eapply breaks_after; [ apply yields_lift; exact (calls_md _ _ _ Hc) | ]. exact K.
        - rewrite (empty_interpolation_out _ Hin). exists MScope. split; [ discriminate | intro K ].
          eapply breaks_after; [ apply yields_lift; exact (asks_scope_md _ _ _ Ha) | ].
          cbn [fst snd is_alias andb]. eapply breaks_after with (a := None); [ | exact K ].
          intros s Hs. exists s. split; [ | exact Hs ]. apply (in_scope_unset _ _ _ _ _ _ Hk). rewrite (Psc s Hs). exact Hg.
        - rewrite (empty_interpolation_out _ Hin). exists MScope. split; [ discriminate | intro K ].
          eapply breaks_after; [ apply yields_lift; exact (asks_scope_md _ _ _ Ha) | ].
          cbn [fst snd is_alias andb]. eapply breaks_after with (a := o); [ | exact K ].
          unfold in_scope. eapply yields_bind; [ apply yields_lift; exact (written_key_new _ _ Hk) | ].
          eapply yields_bind; [ apply yields_lift; reflexivity | ]. eapply yields_bind; [ exact (yields_scope sc P Psc) | ].
          rewrite Hg. destruct (yields_do_interp P rec string_is Hstr v r0 Hv) as (b & B & G). eapply yields_bind; [ exact G | ].
          cbn [fst]. exact (digs_dig P Poff arg y ps r0 o Hd).
        - rewrite (calls_nonempty _ _ _ Hc). exists MLookup. split; [ discriminate | intro K ].
          eapply breaks_after; [ apply yields_lift; rewrite (calls_md _ _ _ Hc); destruct Hn as [-> | ->]; reflexivity | ].
          destruct (Hlook _ _ Hl) as (b & G). cbn [fst snd is_alias andb].
          eapply breaks_after; [ apply yields_lift; exact (written_key_new _ _ Hk) | ].
          eapply breaks_after; [ exact G | ]. exact K. }
      destruct G as (m' & Hm' & G). apply G. exact (IH rs' u e post last x _ m' result H2 Hm' Hx).
  Qed.

  Lemma breaks_string t x : whole_fails w sc string_is lookup_is string_fails key_fails t x ->
    breaks sh P (istr w rec t true) x.
  Proof.
    intros [pre u e post last rs Et Hw Hp Hx]. unfold istr.
    assert (Ec : contains "%{" t = true).
    { rewrite Et. apply contains_has. destruct pre as [|[a b] pre].
      - exists u, (e ++ "}" ++ assembled post last)%string. reflexivity.
      - exists a, (b ++ "}" ++ assembled (pre ++ (u, e) :: post) last)%string. reflexivity. }
    rewrite Ec. cbn [negb]. apply breaks_now. apply breaks_node; [ exact Poff | ]. apply breaks_now.
    assert (Tk : tokens t = toks (pre ++ (u, e) :: post) last) by (rewrite Et; apply tokens_cut; exact Hw).
    rewrite Tk. eapply breaks_string_loop; [ exact Hp | discriminate | exact Hx ].
  Qed.
End Values.

Lemma breaks_more w sh (P : st -> Prop) n N q x : n <= N -> breaks sh P (run w n q) x -> breaks sh P (run w N q) x.
Proof.
  intros H Hn s Hs. destruct (Hn s Hs) as (s' & E & K). exists s'. split; [ | exact K ].
  rewrite (run_mono w n N q s H); [ exact E | ]. rewrite E. discriminate.
Qed.

Section Nested.
  Variables (w : world) (i : iv) (cf : list (string * rconfig)) (sh : list (string * shared)) (ps : list provider).
  Hypothesis Hi : iv_expl i = false.
  Hypothesis Hd : NoDup (map p_id ps).
  Hypothesis Hf : Forall (fun p => e_function (p_entry p) <> None) ps.
  Variable p : phase.
  Hypothesis Hst : p <> Options -> w_top w = LkConfig /\ iv_mode i = MdData /\ iv_strat i = strategy_in p /\
    exists rc, aget (w_cfgpath w) cf = Some rc /\ rc_providers rc = ps.
  Let P := good w i cf sh ps.
  Let es := map p_entry ps.

  Lemma strategy_state s : strategy_in p = Some s -> w_top w = LkConfig /\ iv_mode i = MdData /\ iv_strat i = Some s /\
    exists rc, aget (w_cfgpath w) cf = Some rc /\ rc_providers rc = ps.
  Proof. intro E. rewrite <- E. apply Hst. intros ->. discriminate E. Qed.

  Lemma breaks_answers : forall n q x, fails_at w (iv_scope i) es p n q x ->
    breaks sh P (run w n (match q with QStr t => RStr t true | QKey k => RLookup k None end)) x.
  Proof.
    induction n as [|n IH]; intros q x H; [ destruct H | ]. cbn [run].
    assert (Poff : forall s, P s -> off s) by exact (good_off w i cf sh ps Hi).
    assert (Psc : forall s, P s -> iv_scope (s_iv s) = iv_scope i) by exact (good_scope w i cf sh ps).
    assert (Psh : forall s, P s -> s_shared s = sh) by exact (fun s G => g_shared _ _ _ _ _ _ G).
    assert (Hs : forall t o, answers w (iv_scope i) es (strategy_in p) n (QStr t) o ->
       exists b, (b = false -> o = Some (VStr t)) /\ yields P (run w n (RStr t true)) (o, b)).
    { intros t o' Ht. exact (yields_answers w i cf sh ps Hi Hd Hf (strategy_in p) strategy_state n (QStr t) o' Ht). }
    assert (Hl : forall k o, answers w (iv_scope i) es (strategy_in p) n (QKey k) o ->
       exists b, yields P (run w n (RLookup k None)) (o, b)).
    { intros k o' Hk. exact (yields_answers w i cf sh ps Hi Hd Hf (strategy_in p) strategy_state n (QKey k) o' Hk). }
    assert (Hsf : forall t x, fails_at w (iv_scope i) es p n (QStr t) x -> breaks sh P (run w n (RStr t true)) x)
      by (intros t e He; exact (IH (QStr t) e He)).
    assert (Hkf : forall k x, fails_at w (iv_scope i) es p n (QKey k) x -> breaks sh P (run w n (RLookup k None)) x)
      by (intros k e He; exact (IH (QKey k) e He)).
    pose proof (yields_interpolate P (run w n) _ Hs) as Hv.
    assert (Hvf : forall v x, value_fails (fun t => answers w (iv_scope i) es (strategy_in p) n (QStr t))
        (fun t => fails_at w (iv_scope i) es p n (QStr t)) v x -> breaks sh P (interpolate (run w n) true v) x).
    { intros v e He. exact (breaks_interpolate sh P (run w n) _ Hs _ Hsf v e He). }
    destruct q as [t|k]; cbn [fails_at] in H.
    - exact (breaks_string w (iv_scope i) sh P Poff Psc Psh (run w n) _ _ Hs Hl _ _ Hsf Hkf t x H).
    - destruct H as (r & rest & Ek & Hr & H).
      assert (Hp : p <> Options) by (intros ->; destruct H).
      destruct (Hst Hp) as (Htop & Hm & Hss & rc & Hrc & Hps).
      cbn [body]. apply breaks_now.
      unfold lookup. eapply breaks_after with (a := r); [ apply yields_lift; unfold root; rewrite Ek; reflexivity | ].
      apply String.eqb_neq in Hr. rewrite Hr. rewrite Htop. cbn [call_lk].
      assert (Hcfg : yields P (get_config w (run w n) (w_cfgpath w) "") rc).
      { intros s0 G. exists s0. split; [ | exact G ]. unfold get_config.
        replace (if String.eqb (w_cfgpath w) "" then w_cfgpath w else w_cfgpath w) with (w_cfgpath w)
          by (destruct (String.eqb (w_cfgpath w) ""); reflexivity).
        unfold bind, run_op. rewrite (g_configs _ _ _ _ _ _ G), Hrc. reflexivity. }
      assert (Bad : misspelt r x -> breaks sh P (config_lookup_at w (run w n) [] (w_cfgpath w) r "") x).
      { intro Hb. unfold config_lookup_at. eapply breaks_after; [ exact Hcfg | ]. apply breaks_now.
        apply new_key_refused in Hb. rewrite Hb. now apply breaks_lift. }
      assert (Mode : yields P (run_op OMode) MdData).
      { intros s0 G. exists s0. split; [ | exact G ]. unfold run_op. rewrite (g_iv _ _ _ _ _ _ G), Hm. reflexivity. }
      assert (Strat : yields P (run_op OStrat) (strategy_in p)).
      { intros s0 G. exists s0. split; [ | exact G ]. unfold run_op. rewrite (g_iv _ _ _ _ _ _ G), Hss. reflexivity. }
      destruct p as [|s|]; [ congruence | | ].
      + destruct H as [Hb|[Hp' [Hx|(v & Hg & Hx)]]].
        * apply breaks_now. exact (Bad Hb).
        * apply breaks_now. unfold config_lookup_at. eapply breaks_after; [ exact Hcfg | ].
          destruct (correct_new r Hp') as (x0 & qs & _ & Hnew).
          eapply breaks_after; [ apply yields_lift; exact Hnew | ].
          eapply breaks_after; [ exact Mode | ]. eapply breaks_after; [ exact Strat | ].
          cbn [strategy_in]. unfold merge_hierarchy. rewrite Hps.
          exact (breaks_hierarchy w (run w n) i cf sh ps Hi Hd _ Hv _ Hvf (mk_key r (PStr x0 :: qs)) r s x Hnew Hf Hx).
        * eapply breaks_after with (a := Some v).
          { destruct (correct_new r Hp') as (x0 & qs & _ & Hnew). unfold config_lookup_at. eapply yields_bind; [ exact Hcfg | ].
            eapply yields_bind; [ apply yields_lift; exact Hnew | ].
            eapply yields_bind; [ exact Mode | ]. eapply yields_bind; [ exact Strat | ].
            cbn [strategy_in]. unfold merge_hierarchy. rewrite Hps.
            exact (yields_hierarchy w i cf sh ps Hi (run w n) Hd _ Hv (mk_key r (PStr x0 :: qs)) r s (Some v) Hnew Hf Hg). }
          intros s0 G. unfold run_scoped. rewrite (g_iv _ _ _ _ _ _ G), Hm.
          revert s0 G. change (breaks sh P (bind (interpolate (run w n) true v) (dig_in k)) x).
          apply breaks_now. exact (Hvf v x Hx).
      + destruct H as [Hb|[Hp' ->]].
        * apply breaks_now. exact (Bad Hb).
        * apply breaks_now. unfold config_lookup_at. eapply breaks_after; [ exact Hcfg | ].
          destruct (correct_new r Hp') as (x0 & qs & _ & Hnew).
          eapply breaks_after; [ apply yields_lift; exact Hnew | ].
          eapply breaks_after; [ exact Mode | ]. eapply breaks_after; [ exact Strat | ].
          intros s0 G. exists s0. split; [ reflexivity | exact (Psh s0 G) ].
  Qed.

  (** Values of a level, with more fuel. *)
  Lemma yields_phase n N v o : n <= N -> value_in w (iv_scope i) es p n v o -> yields P (interpolate (run w N) true v) o.
  Proof. intros HN H. exact (yields_level w i cf sh ps (strategy_in p) n N Hi Hd Hf strategy_state HN v o H). Qed.

  Lemma breaks_phase n N v x : n <= N -> fails_in w (iv_scope i) es p n v x -> breaks sh P (interpolate (run w N) true v) x.
  Proof.
    intros HN H. unfold fails_in in H.
    refine (breaks_interpolate sh P (run w N) _ _ _ _ v x H).
    - intros t o Ht. destruct (yields_answers w i cf sh ps Hi Hd Hf (strategy_in p) strategy_state n (QStr t) o Ht) as (b & B & G).
      exists b. split; [ exact B | exact (yields_more w _ n N _ _ HN G) ].
    - intros t e He. exact (breaks_more w sh P n N _ e HN (breaks_answers n (QStr t) e He)).
  Qed.
End Nested.
