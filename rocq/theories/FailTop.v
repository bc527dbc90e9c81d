(** Lookups that fail, and what they leave behind. *)

From Coq Require Import String Ascii List ZArith Bool Arith Lia.
From Verif Require Import Str Value Outcome Key Merge Fpath Config Ipl Explain State Engine Meta Fuel Session
  SpecKey SpecKeyErr SpecIpl SpecInterp SpecConfig SpecMerge SpecLookup SpecFail
  KeyFacts KeyErrFacts ValueFacts MergeFacts MergeLookup StrFacts IplFacts InterpFacts IplExact ResolveFacts LookupExact LoaderFacts
  HierarchyExact LookupTop LookupFail FailExact FailText RootFacts.
Import ListNotations.
Open Scope nat_scope.
Open Scope string_scope.
Open Scope list_scope.

Lemma copy_breaks w i f cf sh ps A (m : M st A) x s : good w i cf sh ps s -> breaks sh (good w (f i) cf sh ps) m x ->
  exists s', with_copy f m s = (Panic x, s') /\ s_shared s' = sh.
Proof.
  intros G H. destruct (H (with_iv (f (s_iv s)) s)) as (s1 & E1 & G1).
  { rewrite (g_iv _ _ _ _ _ _ G). exact (good_with_iv _ _ _ _ _ _ _ G). }
  unfold with_copy. rewrite E1. eexists. split; [ reflexivity | exact G1 ].
Qed.

Section Top.
  Variables (w : world) (n N : nat).
  Hypothesis HN : n <= S (S N).
  Let rec := run w (S (S N)).
  Variable sc : scope.

  Lemma resolve_breaks i0 c es x s : iv_expl i0 = false -> iv_scope i0 = sc -> s_iv s = i0 ->
    created w (S (S N)) sc c es ->
    hierarchy_fails w sc (value_in w sc es Options n) (fails_in w sc es Options n) "lookup_options" (SDeep []) es x ->
    exists s', resolve_config w rec c "" s = (Panic x, s') /\ s_shared s' = s_shared s.
  Proof.
    intros X0 Sc0 Hs Hh Ha. unfold resolve_config.
    assert (Ho : off s) by (unfold off; rewrite Hs; exact X0).
    assert (Hsc : iv_scope (s_iv s) = sc) by (rewrite Hs; exact Sc0).
    destruct (proj2 Hh s Hsc Ho) as (ps & s1 & ds & qs & s2 & E1 & [N1 N2 N3 N4] & E2 & [M1 M2 M3 M4]).
    pose proof (made_trans _ _ _ N2 M2) as M.
    assert (I2 : s_iv s2 = i0) by (rewrite (m_iv _ _ M); exact Hs).
    unfold bind at 1. unfold run_scoped at 1. rewrite Hs, X0.
    unfold bind at 1. fold rec in E1, E2. rewrite E1. unfold bind at 1. rewrite E2. unfold ret at 1.
    unfold bind at 1. change (new_key "lookup_options") with (Ok (mk_key "lookup_options" [PStr "lookup_options"])).
    unfold lift at 1. unfold bind at 1.
    assert (G2 : good w i0 (s_configs s) (s_shared s) ps s2).
    { constructor; [ exact I2 | exact (m_configs _ _ M) | exact (m_shared _ _ M) | ].
      intros p Hp. pose proof (proj1 (Forall_forall _ _) N3 p Hp) as Hid. cbn in Hid.
      rewrite (m_old _ _ M2) by lia. rewrite (m_new _ _ N2) by lia. apply agrees_new. }
    assert (Fn : Forall (fun p => e_function (p_entry p) <> None) ps).
    { apply (proj1 (Forall_map p_entry (fun e => e_function e <> None) _)). rewrite N1. exact (created_functions _ _ _ _ _ Hh). }
    set (m := run_scoped (SNode NLookup (k_source (mk_key "lookup_options" [PStr "lookup_options"])))
                (merging (SDeep []) ps (merge_locations w rec (mk_key "lookup_options" [PStr "lookup_options"]) (SDeep [])))).
    assert (Y : forall i, iv_expl i = false -> iv_scope i = sc ->
      breaks (s_shared s) (good w i (s_configs s) (s_shared s) ps) m x).
    { intros i Hi Hisc. apply breaks_node; [ exact (good_off w i _ _ ps Hi) | ].
      assert (Hph : Options <> Options -> w_top w = LkConfig /\ iv_mode i = MdData /\ iv_strat i = strategy_in Options /\
        exists rc, aget (w_cfgpath w) (s_configs s) = Some rc /\ rc_providers rc = ps) by congruence.
      refine (breaks_hierarchy w rec i (s_configs s) (s_shared s) ps Hi N4 _ _ _ _ (mk_key "lookup_options" [PStr "lookup_options"]) "lookup_options" (SDeep []) x
                eq_refl Fn _); [ | | rewrite N1, Hisc; exact Ha ].
      - intros v o Hv. rewrite <- N1, <- Hisc in Hv.
        exact (yields_phase w i _ _ ps Hi N4 Fn Options Hph n (S (S N)) v o HN Hv).
      - intros v e Hv. rewrite <- N1, <- Hisc in Hv.
        exact (breaks_phase w i _ _ ps Hi N4 Fn Options Hph n (S (S N)) v e HN Hv). }
    assert (C : exists s3, run_scoped SLookup m s2 = (Panic x, s3) /\ s_shared s3 = s_shared s).
    { unfold run_scoped. rewrite I2.
      destruct (iv_mode i0).
      - apply (copy_breaks w i0 _ _ _ _ _ m x s2 G2). apply Y; [ destruct i0; cbn in *; rewrite X0; reflexivity | exact Sc0 ].
      - exact (Y i0 X0 Sc0 s2 G2).
      - apply (copy_breaks w i0 _ _ _ _ _ m x s2 G2). apply Y; [ destruct i0; cbn in *; rewrite X0; reflexivity | exact Sc0 ]. }
    destruct C as (s3 & E3 & G3).
    cbn [fst snd]. fold m. rewrite E3. exists s3. split; [ reflexivity | exact G3 ].
  Qed.

  Variables (c : config) (file : cfg_file).
  Hypothesis Hfile : forall t, w_config w t (w_cfgpath w) = file.
  Hypothesis Hconf : config_new (w_env w) (w_cfgpath w) file = Ok c.
  Hypothesis Htop : w_top w = LkConfig.
  Let i0 := new_iv sc false.
  Let ok := shared_ok w c.

  Lemma options_break es k opts r ps x s : s_iv s = i0 -> s_configs s = [] -> ok s ->
    created w (S (S N)) sc c es ->
    k_parts k = PStr r :: ps -> r <> "lookup_options" ->
    hierarchy_fails w sc (value_in w sc es Options n) (fails_in w sc es Options n) "lookup_options" (SDeep []) es x ->
    exists s', lookup w rec k opts s = (Panic x, s') /\ ok s'.
  Proof.
    intros Hs Hc Hsh Hh Hk Hr Hx. unfold lookup. unfold bind at 1, lift at 1, root at 1. rewrite Hk.
    apply String.eqb_neq in Hr. rewrite Hr. rewrite Htop. cbn [call_lk].
    assert (G : exists s', get_config w rec (w_cfgpath w) "" s = (Panic x, s') /\ ok s').
    { unfold get_config.
      replace (if String.eqb (w_cfgpath w) "" then w_cfgpath w else w_cfgpath w) with (w_cfgpath w)
        by (destruct (String.eqb (w_cfgpath w) ""); reflexivity).
      unfold bind at 1. unfold run_op at 1. rewrite Hc. cbn [aget].
      destruct (shared_run w c file Hfile Hconf s Hsh) as (s1 & E1 & I1 & C1 & S1).
      unfold bind at 1. rewrite E1.
      destruct (resolve_breaks i0 c es x s1 eq_refl eq_refl) as (s2 & E2 & S2); [ congruence | exact Hh | exact Hx | ].
      unfold bind at 1. rewrite E2. exists s2. split; [ reflexivity | ]. right. rewrite S2. exact S1. }
    destruct G as (s' & E & Hok). exists s'. unfold config_lookup_at. unfold bind. rewrite E. split; [ reflexivity | exact Hok ].
  Qed.

  (** The root of a key is read again. *)
  Lemma root_breaks es k opts r ps all x s : s_iv s = i0 -> s_configs s = [] -> ok s ->
    created w (S (S N)) sc c es ->
    k_parts k = PStr r :: ps -> r <> "lookup_options" -> all_options w sc es n all -> misspelt r x ->
    exists s', lookup w rec k opts s = (Panic x, s') /\ ok s'.
  Proof.
    intros Hs Hc Hsh Hh Hk Hr Ha Hb. unfold lookup. unfold bind at 1, lift at 1, root at 1. rewrite Hk.
    apply String.eqb_neq in Hr. rewrite Hr. rewrite Htop. cbn [call_lk].
    destruct (get_config_run w n N HN sc c file Hfile Hconf (new_iv sc false) es all s eq_refl eq_refl Hs Hc Hsh Hh Ha)
      as (rc & s1 & E1 & R1 & R2 & R3 & R4 & sh & Sh & G1).
    apply new_key_refused in Hb. exists s1. unfold config_lookup_at. unfold bind. fold rec in E1. rewrite E1. unfold lift. rewrite Hb.
    split; [ reflexivity | ]. right. rewrite (g_shared _ _ _ _ _ _ G1). exact Sh.
  Qed.

  (** The value that was found is interpolated again. *)
  Lemma result_breaks es k opts r ps all lo mo st cv v y x s : s_iv s = i0 -> s_configs s = [] -> ok s ->
    created w (S (S N)) sc c es ->
    k_parts k = PStr r :: ps -> r <> "lookup_options" -> correct_key r -> all_options w sc es n all ->
    options_of all r lo -> merge_option opts lo mo -> strategy_is mo st -> conversion_is lo cv ->
    hierarchy_gives w sc (value_in w sc es (Data st) n) r st es v -> converted w cv v (Some y) ->
    fails_in w sc es Result n y x ->
    exists s', lookup w rec k opts s = (Panic x, s') /\ ok s'.
  Proof.
    intros Hs Hc Hsh Hh Hk Hr Hp Ha Hlo Hmo Hst Hcv Hv Hy Hx. unfold lookup. unfold bind at 1, lift at 1, root at 1. rewrite Hk.
    apply String.eqb_neq in Hr. rewrite Hr. rewrite Htop. cbn [call_lk].
    destruct (value_again w n N HN sc c file Hfile Hconf Htop es all r opts lo mo st cv v (Some y) s Hs
                (or_introl (conj Hc Hsh)) Hh Ha Hp Hlo Hmo Hst Hcv Hv Hy)
      as (rc & sh & s2 & E2 & R1 & R2 & R3 & R4 & Sh & Fn & G2).
    unfold bind at 1. fold rec in E2. rewrite E2.
    unfold run_scoped. rewrite (g_iv _ _ _ _ _ _ G2). cbn [new_iv iv_mode].
    set (f := fun i : iv => iv_with_mode MdData (iv_with_expl (iv_expl i && negb (x_only (s_ex s2))) i)).
    destruct (copy_breaks w i0 f [(w_cfgpath w, rc)] sh (rc_providers rc) _ (bind (interpolate rec true y) (dig_in k)) x s2 G2) as (s3 & E3 & S3).
    - apply breaks_now.
      refine (breaks_phase w (f i0) [(w_cfgpath w, rc)] sh (rc_providers rc) eq_refl R2 Fn Result _ n (S (S N)) y x HN _).
      + intros _. split; [ exact Htop | split; [ reflexivity | split; [ reflexivity | ] ] ]. exists rc. split; [ | reflexivity ].
        cbn [aget]. rewrite String.eqb_refl. reflexivity.
      + rewrite R1. exact Hx.
    - exists s3. split; [ exact E3 | ]. right. rewrite S3. exact Sh.
  Qed.

  (** What comes after the lookup options are known. *)
  Lemma lookup_breaks es k opts r rk ps all lo x s : s_iv s = i0 -> s_configs s = [] -> ok s ->
    created w (S (S N)) sc c es ->
    k_parts k = PStr r :: ps -> r <> "lookup_options" -> new_key r = Ok rk ->
    all_options w sc es n all -> options_of all r lo ->
    (forall rc cf sh i t, iv_scope i = sc -> iv_expl i = false -> iv_mode i = MdData -> iv_redacted i = false ->
       aget (w_cfgpath w) cf = Some rc -> map p_entry (rc_providers rc) = es -> NoDup (map p_id (rc_providers rc)) ->
       Forall (fun p => e_function (p_entry p) <> None) (rc_providers rc) ->
       good w i cf sh (rc_providers rc) t ->
       exists t', bind (set_merge (mgets "merge" (match opts with Some o => o | None => [] end)) lo) (fun _ =>
            lookup_and_convert w (bind (run_op OStrat) (fun s => merge_hierarchy w rec rk (rc_providers rc) s))) t
       = (Panic x, t') /\ s_shared t' = sh) ->
    exists s', lookup w rec k opts s = (Panic x, s') /\ ok s'.
  Proof.
    intros Hs Hc Hsh Hh Hk Hr Hp Ha Hlo H.
    unfold lookup. unfold bind at 1, lift at 1, root at 1. rewrite Hk.
    apply String.eqb_neq in Hr. rewrite Hr. rewrite Htop. cbn [call_lk].
    destruct (get_config_run w n N HN sc c file Hfile Hconf (new_iv sc false) es all s eq_refl eq_refl Hs Hc Hsh Hh Ha)
      as (rc & s1 & E1 & R1 & R2 & R3 & R4 & sh & Sh & G1).
    assert (Fn : Forall (fun p => e_function (p_entry p) <> None) (rc_providers rc)).
    { apply (proj1 (Forall_map p_entry (fun e => e_function e <> None) _)). rewrite R1. exact (created_functions _ _ _ _ _ Hh). }
    assert (C : exists s', config_lookup_at w rec (match opts with Some o => o | None => [] end) (w_cfgpath w) r "" s = (Panic x, s') /\ s_shared s' = sh).
    { unfold config_lookup_at. unfold bind at 1. unfold rec. rewrite E1. unfold bind at 1, lift at 1. rewrite Hp.
      unfold bind at 1, run_op at 1. rewrite (g_iv _ _ _ _ _ _ G1). cbn [new_iv iv_mode].
      unfold run_scoped at 1. rewrite (g_iv _ _ _ _ _ _ G1). cbn [new_iv iv_mode].
      set (f := fun i : iv => iv_with_mode MdData (iv_with_expl (iv_expl i && negb (x_only (s_ex s1))) i)).
      assert (I : iv_expl (f (new_iv sc false)) = false) by reflexivity.
      apply (copy_breaks w (new_iv sc false) f [(w_cfgpath w, rc)] sh (rc_providers rc) _ _ x s1 G1).
      intros t0 G0. rewrite node_off by exact (good_off w _ _ _ _ I t0 G0).
      unfold bind at 1, lift at 1. rewrite (options_of_model rc all r lo rk R3 R4 Hp Hlo).
      specialize (H rc [(w_cfgpath w, rc)] sh (f (new_iv sc false)) t0 eq_refl I eq_refl eq_refl).
      cbn [aget] in H. rewrite String.eqb_refl in H. exact (H eq_refl R1 R2 Fn G0). }
    destruct C as (s' & E & S'). exists s'. unfold bind at 1. rewrite E. split; [ reflexivity | ]. right. rewrite S'. exact Sh.
  Qed.

  Lemma misnamed_text mo t : misnamed mo t -> no_strategy_text mo = t.
  Proof.
    intros [nm|m nm E|m E]; cbn [no_strategy_text]; [ reflexivity | rewrite E; reflexivity | ].
    destruct (mgets "strategy" m) as [[| | | |t0| | |]|] eqn:F; try reflexivity. destruct (E _ eq_refl).
  Qed.

  Lemma no_type_model lo : no_type lo -> exists v a, conversion lo = Some (v, a) /\ forall t, v <> VStr t.
  Proof.
    intros [l v E Hs Ha|l v a E Hs]; unfold conversion; rewrite E.
    - exists v, None. split; [ | exact Hs ]. destruct v; try reflexivity. destruct (Ha _ eq_refl).
    - destruct a as [|y a]; eexists _, _; (split; [ reflexivity | exact Hs ]).
  Qed.

  (** With the strategy set, the values of the hierarchy are wanted. *)
  Lemma converting_breaks lo cv x i cf sh ps (fn : M st (option value)) t : iv_luopts i = lo -> iv_redacted i = false ->
    conversion_is lo cv -> (forall u a, cv = Some (u, a) -> exists ty, w_parse_type w u = Ok ty) ->
    (forall b, breaks sh (good w (iv_with_redacted b i) cf sh ps) fn x) -> good w i cf sh ps t ->
    exists t', lookup_and_convert w fn t = (Panic x, t') /\ s_shared t' = sh.
  Proof.
    intros Hl Hr Hcv Hty Hfn G.
    assert (Ei : iv_with_redacted false i = i) by (rewrite <- Hr; destruct i; reflexivity).
    assert (Plain : exists s', fn t = (Panic x, s') /\ s_shared s' = sh).
    { specialize (Hfn false). rewrite Ei in Hfn. exact (Hfn t G). }
    assert (Red : exists s', run_scoped SRedacted fn t = (Panic x, s') /\ s_shared s' = sh).
    { unfold run_scoped. rewrite (g_iv _ _ _ _ _ _ G), Hr.
      destruct (Hfn true (with_iv (iv_with_redacted true i) t) (good_with_iv _ _ _ _ _ _ _ G)) as (s1 & E1 & G1).
      rewrite E1. eexists. split; [ reflexivity | exact G1 ]. }
    unfold lookup_and_convert, extract_conversion. unfold bind at 1. unfold bind at 1. unfold run_op at 1.
    rewrite (g_iv _ _ _ _ _ _ G), Hl, (conversion_model lo cv Hcv).
    destruct cv as [[u a]|]; cbn [option_map fst snd].
    - destruct (Hty u a eq_refl) as (ty & Ht). unfold bind at 1, lift at 1. rewrite Ht. unfold ret at 1.
      destruct ty as [|tx]; [ destruct Red as (s' & E & K) | destruct Plain as (s' & E & K) ];
        (exists s'; unfold bind at 1; rewrite E; split; [ reflexivity | exact K ]).
    - unfold ret at 1. destruct Plain as (s' & E & K). exists s'. unfold bind at 1. rewrite E. split; [ reflexivity | exact K ].
  Qed.

  Lemma lookup_failing es k opts x s : s_iv s = i0 -> s_configs s = [] -> ok s ->
    created w (S (S N)) sc c es -> lookup_fails w sc es n k opts x ->
    exists s', lookup w rec k opts s = (Panic x, s') /\ ok s'.
  Proof.
    intros Hs Hc Hsh Hh H.
    destruct H as [r ps Hk Hr Hx|r ps all Hk Hr Ha Hb|r ps all lo mo t Hk Hr Hp Ha Hlo Hmo Hno Hn Hx|r ps all lo mo st u a Hk Hr Hp Ha Hlo Hmo Hst Hcv Ht
      |r ps all lo mo st Hk Hr Hp Ha Hlo Hmo Hst Hnt Hx|r ps all lo mo st cv Hk Hr Hp Ha Hlo Hmo Hst Hcv Hty Hx|r ps all lo mo st u a ty v Hk Hr Hp Ha Hlo Hmo Hst Hcv Ht Hne Hv Hnew
      |r ps all lo mo st cv v y Hk Hr Hp Ha Hlo Hmo Hst Hcv Hv Hy Hx].
    - exact (options_break es k opts r ps x s Hs Hc Hsh Hh Hk Hr Hx).
    - exact (root_breaks es k opts r ps all x s Hs Hc Hsh Hh Hk Hr Ha Hb).
    - destruct (correct_new r Hp) as (x0 & qs & _ & Hrk).
      apply (lookup_breaks es k opts r (mk_key r (PStr x0 :: qs)) ps all lo x s Hs Hc Hsh Hh Hk Hr Hrk Ha Hlo).
      intros rc cf sh i t0 _ Hi _ _ _ _ _ _ G. unfold set_merge. unfold bind at 1. unfold bind at 1.
      rewrite (merge_source w opts lo mo i cf sh (rc_providers rc) t0 Hmo Hi G).
      unfold bind, lift, run_op. rewrite (strategy_unknown mo Hno), (misnamed_text mo t Hn), <- Hx.
      eexists. split; [ reflexivity | exact (g_shared _ _ _ _ _ _ G) ].
    - destruct (correct_new r Hp) as (x0 & qs & _ & Hrk).
      apply (lookup_breaks es k opts r (mk_key r (PStr x0 :: qs)) ps all lo x s Hs Hc Hsh Hh Hk Hr Hrk Ha Hlo).
      intros rc cf sh i t0 _ Hi _ _ _ _ _ _ G.
      destruct (set_merge_run w i cf sh (rc_providers rc) opts lo mo st t0 Hi Hmo Hst G) as (t1 & E & G2).
      unfold bind at 1. rewrite E. exists t1. split; [ | exact (g_shared _ _ _ _ _ _ G2) ].
      unfold lookup_and_convert, extract_conversion, bind, run_op.
      rewrite (g_iv _ _ _ _ _ _ G2). cbn [iv_with_strat iv_with_luopts iv_luopts]. rewrite (conversion_model lo _ Hcv).
      cbn [option_map fst snd]. unfold lift. rewrite Ht. reflexivity.
    - destruct (correct_new r Hp) as (x0 & qs & _ & Hrk).
      apply (lookup_breaks es k opts r (mk_key r (PStr x0 :: qs)) ps all lo x s Hs Hc Hsh Hh Hk Hr Hrk Ha Hlo).
      intros rc cf sh i t0 _ Hi _ _ _ _ _ _ G.
      destruct (set_merge_run w i cf sh (rc_providers rc) opts lo mo st t0 Hi Hmo Hst G) as (t1 & E & G2).
      unfold bind at 1. rewrite E. exists t1. split; [ | exact (g_shared _ _ _ _ _ _ G2) ].
      unfold lookup_and_convert, extract_conversion, bind, run_op.
      rewrite (g_iv _ _ _ _ _ _ G2). cbn [iv_with_strat iv_with_luopts iv_luopts].
      destruct (no_type_model lo Hnt) as (v & a & Ev & Hv). rewrite Ev, Hx.
      destruct v; try reflexivity. destruct (Hv _ eq_refl).
    - destruct (correct_new r Hp) as (x0 & qs & _ & Hrk).
      apply (lookup_breaks es k opts r (mk_key r (PStr x0 :: qs)) ps all lo x s Hs Hc Hsh Hh Hk Hr Hrk Ha Hlo).
      intros rc cf sh i t0 Hsc Hi Hmd Hred Hcf R1 R2 Fn G.
      destruct (set_merge_run w i cf sh (rc_providers rc) opts lo mo st t0 Hi Hmo Hst G) as (t1 & E & G2).
      unfold bind at 1. rewrite E.
      refine (converting_breaks lo cv x _ cf sh (rc_providers rc) _ t1 _ _ Hcv Hty _ G2); [ reflexivity | exact Hred | ].
      intro b. set (ib := iv_with_redacted b (iv_with_strat (Some st) (iv_with_luopts lo i))).
      eapply breaks_after with (a := Some st).
      { intros t' G'. exists t'. split; [ | exact G' ]. unfold run_op. rewrite (g_iv _ _ _ _ _ _ G'). reflexivity. }
      unfold merge_hierarchy.
      assert (Hph : Data st <> Options -> w_top w = LkConfig /\ iv_mode ib = MdData /\ iv_strat ib = strategy_in (Data st) /\
        exists rc', aget (w_cfgpath w) cf = Some rc' /\ rc_providers rc' = rc_providers rc).
      { intros _. split; [ exact Htop | split; [ exact Hmd | split; [ reflexivity | ] ] ]. exists rc. split; [ exact Hcf | reflexivity ]. }
      refine (breaks_hierarchy w rec ib cf sh (rc_providers rc) Hi R2 (value_in w sc es (Data st) n) _ (fails_in w sc es (Data st) n) _
                (mk_key r (PStr x0 :: qs)) r st x Hrk Fn _); [ | | change (iv_scope ib) with (iv_scope i); rewrite R1, Hsc; exact Hx ].
      + intros v' o' Hv'. rewrite <- R1, <- Hsc in Hv'.
        exact (yields_phase w ib cf sh (rc_providers rc) Hi R2 Fn (Data st) Hph n (S (S N)) v' o' HN Hv').
      + intros v' e' Hv'. rewrite <- R1, <- Hsc in Hv'.
        exact (breaks_phase w ib cf sh (rc_providers rc) Hi R2 Fn (Data st) Hph n (S (S N)) v' e' HN Hv').
    - destruct (correct_new r Hp) as (x0 & qs & _ & Hrk).
      apply (lookup_breaks es k opts r (mk_key r (PStr x0 :: qs)) ps all lo x s Hs Hc Hsh Hh Hk Hr Hrk Ha Hlo).
      intros rc cf sh i t0 Hsc Hi Hmd Hred Hcf R1 R2 Fn G.
      destruct (set_merge_run w i cf sh (rc_providers rc) opts lo mo st t0 Hi Hmo Hst G) as (t1 & E & G2).
      unfold bind at 1. rewrite E.
      set (ib := iv_with_strat (Some st) (iv_with_luopts lo i)) in *.
      set (fn := bind (run_op OStrat) (fun s => merge_hierarchy w rec (mk_key r (PStr x0 :: qs)) (rc_providers rc) s)).
      assert (Y : forall b, yields (good w (iv_with_redacted b ib) cf sh (rc_providers rc)) fn (Some v)).
      { intro b. set (ir := iv_with_redacted b ib). unfold fn.
        eapply yields_bind with (a := Some st).
        { intros t' G'. exists t'. split; [ | exact G' ]. unfold run_op. rewrite (g_iv _ _ _ _ _ _ G'). reflexivity. }
        unfold merge_hierarchy.
        refine (yields_hierarchy w ir cf sh (rc_providers rc) _ rec R2
                  (value_is (fun t => answers w sc es (Some st) n (QStr t))) _ (mk_key r (PStr x0 :: qs)) r st (Some v) Hrk Fn _);
          [ exact Hi | | change (iv_scope ir) with (iv_scope i); rewrite R1, Hsc; exact Hv ].
        intros v' o' Hv'. rewrite <- R1, <- Hsc in Hv'.
        refine (yields_level w ir cf sh (rc_providers rc) (Some st) n (S (S N)) _ R2 Fn _ HN v' o' Hv'); [ exact Hi | ].
        intros s' E'. injection E' as <-. split; [ exact Htop | split; [ exact Hmd | split; [ reflexivity | ] ] ].
        exists rc. split; [ exact Hcf | reflexivity ]. }
      assert (Ei : iv_with_redacted false ib = ib) by (unfold ib; rewrite <- Hred; destruct i; reflexivity).
      assert (Plain : exists s', fn t1 = (Ok (Some v), s') /\ s_shared s' = sh).
      { destruct (Y false t1) as (s' & E' & G'); [ rewrite Ei; exact G2 | exists s'; split; [ exact E' | exact (g_shared _ _ _ _ _ _ G') ] ]. }
      assert (Red : exists s', run_scoped SRedacted fn t1 = (Ok (Some v), s') /\ s_shared s' = sh).
      { unfold run_scoped. rewrite (g_iv _ _ _ _ _ _ G2). cbn [ib iv_with_strat iv_with_luopts iv_redacted]. rewrite Hred.
        destruct (Y true (with_iv (iv_with_redacted true ib) t1) (good_with_iv _ _ _ _ _ _ _ G2)) as (s' & E' & G').
        match goal with |- context [let (_, _) := ?t in _] => replace t with (Ok (Some v), s') by (symmetry; exact E') end.
        eexists. split; [ reflexivity | exact (g_shared _ _ _ _ _ _ G') ]. }
      unfold lookup_and_convert, extract_conversion. unfold bind at 1. unfold bind at 1. unfold run_op at 1.
      rewrite (g_iv _ _ _ _ _ _ G2). cbn [ib iv_with_strat iv_with_luopts iv_luopts]. rewrite (conversion_model lo _ Hcv).
      cbn [option_map fst snd]. unfold bind at 1, lift at 1. rewrite Ht. unfold ret at 1.
      destruct ty as [|tx].
      + destruct a as [a|]; [ | destruct Hne; congruence ].
        destruct Red as (s' & E' & K). exists s'. unfold bind at 1. rewrite E'. unfold bind, lift, convert. rewrite Hnew. split; [ reflexivity | exact K ].
      + destruct Plain as (s' & E' & K). exists s'. unfold bind at 1. rewrite E'. unfold bind, lift, convert. rewrite Hnew. split; [ reflexivity | exact K ].
    - exact (result_breaks es k opts r ps all lo mo st cv v y x s Hs Hc Hsh Hh Hk Hr Hp Ha Hlo Hmo Hst Hcv Hv Hy Hx).
  Qed.
End Top.
