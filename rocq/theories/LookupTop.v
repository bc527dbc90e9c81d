(** A whole lookup, from the configuration file to the value. *)

From Coq Require Import String Ascii List ZArith Bool Arith Lia.
From Verif Require Import Str Value Outcome Key Merge Fpath Config Ipl Explain State Engine Meta Fuel Session
  SpecKey SpecIpl SpecInterp SpecConfig SpecMerge SpecLookup
  KeyFacts ValueFacts MergeFacts MergeLookup StrFacts IplFacts InterpFacts IplExact ResolveFacts LookupExact HierarchyExact RootFacts.
Import ListNotations.
Open Scope nat_scope.
Open Scope string_scope.
Open Scope list_scope.

Lemma yields_more w P n N q r : n <= N -> yields P (run w n q) r -> yields P (run w N q) r.
Proof.
  intros H Hn s Hs. destruct (Hn s Hs) as (s' & E & Hs'). exists s'. split; [ | exact Hs' ].
  rewrite (run_mono w n N q s H); [ exact E | ]. rewrite E. discriminate.
Qed.

(** Values of a level, with more fuel. *)
Lemma yields_level w i cf sh ps st n N : iv_expl i = false -> NoDup (map p_id ps) ->
  Forall (fun p => e_function (p_entry p) <> None) ps ->
  (forall s, st = Some s -> w_top w = LkConfig /\ iv_mode i = MdData /\ iv_strat i = Some s /\
     exists rc, aget (w_cfgpath w) cf = Some rc /\ rc_providers rc = ps) ->
  n <= N ->
  forall v o, value_is (fun t => answers w (iv_scope i) (map p_entry ps) st n (QStr t)) v o ->
  yields (good w i cf sh ps) (interpolate (run w N) true v) o.
Proof.
  intros Hi Hd Hf Hs HN. apply yields_interpolate. intros t o H.
  destruct (yields_answers w i cf sh ps Hi Hd Hf st Hs n (QStr t) o H) as (b & B & G).
  exists b. split; [ exact B | exact (yields_more w _ n N _ _ HN G) ].
Qed.

(** A run with a changed copy of the invocation. *)
Lemma good_with_iv w i i' cf sh ps s : good w i cf sh ps s -> good w i' cf sh ps (with_iv i' s).
Proof. intros [G1 G2 G3 G4]. constructor; [ reflexivity | assumption.. ]. Qed.

Lemma copy_run w i f cf sh ps A (m : M st A) a s : good w i cf sh ps s -> yields (good w (f i) cf sh ps) m a ->
  exists s', with_copy f m s = (Ok a, s') /\ good w i cf sh ps s'.
Proof.
  intros G H. destruct (H (with_iv (f (s_iv s)) s)) as (s1 & E1 & G1).
  { rewrite (g_iv _ _ _ _ _ _ G). exact (good_with_iv _ _ _ _ _ _ _ G). }
  unfold with_copy. rewrite E1. eexists. split; [ reflexivity | ].
  rewrite (g_iv _ _ _ _ _ _ G). exact (good_with_iv _ _ _ _ _ _ _ G1).
Qed.

(** The entries of a resolved hierarchy have functions. *)
Lemma resolved_functions w od mt sc env root d es es' :
  Forall2 (entry_resolved w od mt sc env root d) es es' -> Forall (fun e => e_function e <> None) es'.
Proof.
  induction 1 as [|e e' es es' H _ IH]; constructor; [ | exact IH ].
  destruct (er_function _ _ _ _ _ _ _ _ _ H) as (f & Hf & _). congruence.
Qed.

(** The entries of a hierarchy that is in use have functions, and their
    locations are places. *)
Definition usable (e : entry) : Prop :=
  e_function e <> None /\
  forall ls l, e_locations e = Some ls -> In l ls -> exists p, loc_resolved l = Ok p.

Lemma resolved_usable w od mt sc env root d e e' : entry_resolved w od mt sc env root d e e' -> usable e'.
Proof.
  intro H. split.
  - destruct (er_function _ _ _ _ _ _ _ _ _ H) as (f & Hf & _). congruence.
  - intros ls l El Hl. pose proof (er_locations _ _ _ _ _ _ _ _ _ H) as L.
    destruct (e_locations e) as [ls0|]; [ | congruence ]. destruct L as (lss & Hall & E). rewrite El in E. injection E as ->.
    apply in_concat in Hl as (x & Hx & Hl). clear El. induction Hall as [|a b ls0 lss Hab _ IH]; [ destruct Hx | ].
    destruct Hx as [<-|Hx]; [ | exact (IH Hx) ].
    destruct Hab as [o r e0 t _|p t _|o r t _|src key tm v l0 ts _ _ _].
    + destruct Hl as [<-|[]]. eexists. reflexivity.
    + apply in_map_iff in Hl as (f & <- & _). eexists. reflexivity.
    + destruct Hl as [<-|[]]. eexists. reflexivity.
    + apply in_map_iff in Hl as (f & <- & _). eexists. reflexivity.
Qed.

(** The providers of a configuration are made from the entries of a hierarchy,
    in a scope, whatever was made before. *)
Definition created (w : world) (n : nat) (sc : scope) (c : config) (es : list entry) : Prop :=
  Forall usable es /\
  forall s, iv_scope (s_iv s) = sc -> off s -> exists ps s1 ds qs s2,
    create_providers w (run w n) c (c_hierarchy c) s = (Ok ps, s1) /\ news s s1 es ps /\
    create_providers w (run w n) c (c_default_hierarchy c) s1 = (Ok qs, s2) /\ news s1 s2 ds qs.

Lemma hierarchy_created w on_disk matching sc c es N :
  (forall t p, w_stat w t p = on_disk p) -> (forall t p, w_glob w t p = matching p) ->
  hierarchy_is w on_disk matching sc c es -> created w (S (S N)) sc c es.
Proof.
  intros Hstat Hglob (d & ds & H1 & H2 & H3). split.
  - clear H3. induction H2 as [|e e' l l' H _ IH]; constructor; [ exact (resolved_usable _ _ _ _ _ _ _ _ _ H) | exact IH ].
  - intros s Hsc Ho.
    destruct (create_providers_run w N on_disk matching Hstat Hglob sc c (c_hierarchy c) d es H1 H2 s Hsc Ho) as (ps & s1 & E1 & N1).
    destruct (create_providers_run w N on_disk matching Hstat Hglob sc c (c_default_hierarchy c) d ds H1 H3 s1) as (qs & s2 & E2 & N2).
    { rewrite (m_iv _ _ (n_made _ _ _ _ N1)). exact Hsc. }
    { unfold off. rewrite (m_iv _ _ (n_made _ _ _ _ N1)). exact Ho. }
    exists ps, s1, ds, qs, s2. auto.
Qed.

Lemma created_functions w n sc c es : created w n sc c es -> Forall (fun e => e_function e <> None) es.
Proof. intros [H _]. eapply Forall_impl; [ | exact H ]. intros e [He _]. exact He. Qed.

Section Top.
  Variables (w : world) (n N : nat).
  Hypothesis HN : n <= S (S N).
  Let rec := run w (S (S N)).

  (** An invocation in a scope. *)
  Variable sc : scope.

  Lemma resolve_run i0 c es all s : iv_expl i0 = false -> iv_scope i0 = sc -> s_iv s = i0 ->
    created w (S (S N)) sc c es ->
    hierarchy_gives w sc (value_is (fun t => answers w sc es None n (QStr t))) "lookup_options" (SDeep []) es all ->
    exists rc s', resolve_config w rec c "" s = (Ok rc, s') /\
      map p_entry (rc_providers rc) = es /\ NoDup (map p_id (rc_providers rc)) /\
      rc_luopts rc = as_map all /\ rc_module rc = "" /\
      good w i0 (s_configs s) (s_shared s) (rc_providers rc) s'.
  Proof.
    intros X0 Sc0 Hs Hh Ha. unfold resolve_config.
    assert (Ho : off s) by (unfold off; rewrite Hs; exact X0).
    assert (Hsc : iv_scope (s_iv s) = sc) by (rewrite Hs; exact Sc0).
    destruct (proj2 Hh s Hsc Ho) as (ps & s1 & ds & qs & s2 & E1 & [N1 N2 N3 N4] & E2 & [M1 M2 M3 M4]).
    pose proof (made_trans _ _ _ N2 M2) as M.
    assert (I2 : s_iv s2 = i0) by (rewrite (m_iv _ _ M); exact Hs).
    unfold bind at 1. unfold run_scoped at 1. rewrite Hs, X0.
    unfold bind at 1. fold rec in E1, E2. rewrite E1. unfold bind at 1. rewrite E2. unfold ret at 1.
    unfold bind at 1. change (new_key "lookup_options") with (Ok (mk_key "lookup_options" [PStr "lookup_options"])).
    unfold lift at 1. unfold bind at 1.
    assert (G2 : good w i0 (s_configs s) (s_shared s) ps s2).
    { constructor; [ exact I2 | exact (m_configs _ _ M) | exact (m_shared _ _ M) | ].
      intros p Hp. pose proof (proj1 (Forall_forall _ _) N3 p Hp) as Hid. cbn in Hid.
      rewrite (m_old _ _ M2) by lia. rewrite (m_new _ _ N2) by lia. apply agrees_new. }
    assert (Fn : Forall (fun p => e_function (p_entry p) <> None) ps).
    { apply (proj1 (Forall_map p_entry (fun e => e_function e <> None) _)). rewrite N1. exact (created_functions _ _ _ _ _ Hh). }
    set (m := run_scoped (SNode NLookup (k_source (mk_key "lookup_options" [PStr "lookup_options"])))
                (merging (SDeep []) ps (merge_locations w rec (mk_key "lookup_options" [PStr "lookup_options"]) (SDeep [])))).
    assert (Y : forall i, iv_expl i = false -> iv_scope i = sc -> yields (good w i (s_configs s) (s_shared s) ps) m all).
    { intros i Hi Hisc. apply yields_node; [ exact (good_off w i _ _ ps Hi) | ].
      refine (yields_hierarchy w i (s_configs s) (s_shared s) ps Hi rec N4 _ _ (mk_key "lookup_options" [PStr "lookup_options"]) "lookup_options" (SDeep []) all
                eq_refl Fn _); [ | rewrite N1, Hisc; exact Ha ].
      intros v o Hv. rewrite <- N1, <- Hisc in Hv.
      refine (yields_level w i _ _ ps None n (S (S N)) Hi N4 Fn _ HN v o Hv). discriminate. }
    assert (C : exists s3, run_scoped SLookup m s2 = (Ok all, s3) /\ good w i0 (s_configs s) (s_shared s) ps s3).
    { unfold run_scoped. rewrite I2.
      destruct (iv_mode i0).
      - apply (copy_run w i0 _ _ _ _ _ m all s2 G2). apply Y; [ destruct i0; cbn in *; rewrite X0; reflexivity | exact Sc0 ].
      - exact (Y i0 X0 Sc0 s2 G2).
      - apply (copy_run w i0 _ _ _ _ _ m all s2 G2). apply Y; [ destruct i0; cbn in *; rewrite X0; reflexivity | exact Sc0 ]. }
    destruct C as (s3 & E3 & G3).
    cbn [fst snd]. fold m. rewrite E3. eexists _, s3. split; [ reflexivity | ]. cbn [rc_providers rc_luopts rc_module].
    repeat (split; [ first [ reflexivity | assumption ] | ]). exact G3.
  Qed.

  (** The configuration file. *)
  Variables (c : config) (file : cfg_file).
  Hypothesis Hfile : forall t, w_config w t (w_cfgpath w) = file.
  Hypothesis Hconf : config_new (w_env w) (w_cfgpath w) file = Ok c.

  (** The shared cache has the configuration or nothing. *)
  Definition shared_ok (s : st) : Prop :=
    aget (w_cfgpath w) (s_shared s) = None \/ aget (w_cfgpath w) (s_shared s) = Some (ShLoaded c).

  Lemma shared_run s : shared_ok s -> exists s', shared_config w (w_cfgpath w) s = (Ok c, s') /\
    s_iv s' = s_iv s /\ s_configs s' = s_configs s /\ aget (w_cfgpath w) (s_shared s') = Some (ShLoaded c).
  Proof.
    intros H. unfold shared_config, bind at 1, run_op at 1. destruct H as [E|E]; rewrite E.
    - unfold load_config, ask, bind, run_op, lift, ret. rewrite Hfile, Hconf. eexists. split; [ reflexivity | ].
      cbn. rewrite String.eqb_refl. auto.
    - exists s. unfold ret. auto.
  Qed.

  Lemma get_config_run i0 es all s : iv_expl i0 = false -> iv_scope i0 = sc -> s_iv s = i0 -> s_configs s = [] -> shared_ok s ->
    created w (S (S N)) sc c es ->
    hierarchy_gives w sc (value_is (fun t => answers w sc es None n (QStr t))) "lookup_options" (SDeep []) es all ->
    exists rc s', get_config w rec (w_cfgpath w) "" s = (Ok rc, s') /\
      map p_entry (rc_providers rc) = es /\ NoDup (map p_id (rc_providers rc)) /\
      rc_luopts rc = as_map all /\ rc_module rc = "" /\
      exists sh, aget (w_cfgpath w) sh = Some (ShLoaded c) /\
      good w i0 [(w_cfgpath w, rc)] sh (rc_providers rc) s'.
  Proof.
    intros X0 Sc0 Hs Hc Hsh Hh Ha. unfold get_config.
    replace (if String.eqb (w_cfgpath w) "" then w_cfgpath w else w_cfgpath w) with (w_cfgpath w)
      by (destruct (String.eqb (w_cfgpath w) ""); reflexivity).
    unfold bind at 1. unfold run_op at 1. rewrite Hc. cbn [aget].
    destruct (shared_run s Hsh) as (s1 & E1 & I1 & C1 & S1).
    unfold bind at 1. rewrite E1.
    destruct (resolve_run i0 c es all s1) as (rc & s2 & E2 & R1 & R2 & R3 & R4 & [G1 G2 G3 G4]); try assumption; [ congruence | ].
    unfold bind at 1. rewrite E2. unfold bind, run_op, ret.
    eexists rc, _. split; [ reflexivity | ]. repeat (split; [ assumption | ]).
    exists (s_shared s1). split; [ exact S1 | ]. constructor; cbn; try assumption. rewrite G2, C1, Hc. reflexivity.
  Qed.

  (** In an invocation the configuration is resolved by the first lookup. *)
  Definition resolved_in (es : list entry) (all : option value) (i0 : iv) (rc : rconfig) (s : st) : Prop :=
    map p_entry (rc_providers rc) = es /\ NoDup (map p_id (rc_providers rc)) /\
    rc_luopts rc = as_map all /\ rc_module rc = "" /\
    exists sh, aget (w_cfgpath w) sh = Some (ShLoaded c) /\
    good w i0 [(w_cfgpath w, rc)] sh (rc_providers rc) s.
  Definition ready (es : list entry) (all : option value) (s : st) : Prop :=
    (s_configs s = [] /\ shared_ok s) \/ exists rc, resolved_in es all (s_iv s) rc s.

  Lemma ready_new es all s : s_configs s = [] -> shared_ok s -> ready es all s.
  Proof. left. auto. Qed.

  Lemma ready_shared es all s : ready es all s -> shared_ok s.
  Proof.
    intros [[_ H]|(rc & _ & _ & _ & _ & sh & H & G)]; [ exact H | ]. right. rewrite (g_shared _ _ _ _ _ _ G). exact H.
  Qed.

  Lemma get_config_ready i0 es all s : iv_expl i0 = false -> iv_scope i0 = sc -> s_iv s = i0 -> ready es all s ->
    created w (S (S N)) sc c es -> all_options w sc es n all ->
    exists rc s', get_config w rec (w_cfgpath w) "" s = (Ok rc, s') /\
      map p_entry (rc_providers rc) = es /\ NoDup (map p_id (rc_providers rc)) /\
      rc_luopts rc = as_map all /\ rc_module rc = "" /\
      exists sh, aget (w_cfgpath w) sh = Some (ShLoaded c) /\
      good w i0 [(w_cfgpath w, rc)] sh (rc_providers rc) s'.
  Proof.
    intros X0 S0 Hs [[H1 H2]|(rc & R1 & R2 & R3 & R4 & sh & Sh & G)] Hh Ha.
    - exact (get_config_run i0 es all s X0 S0 Hs H1 H2 Hh Ha).
    - exists rc, s. split.
      + unfold get_config.
        replace (if String.eqb (w_cfgpath w) "" then w_cfgpath w else w_cfgpath w) with (w_cfgpath w)
          by (destruct (String.eqb (w_cfgpath w) ""); reflexivity).
        unfold bind, run_op. rewrite (g_configs _ _ _ _ _ _ G). cbn [aget]. rewrite String.eqb_refl. reflexivity.
      + repeat (split; [ assumption | ]). exists sh. split; [ exact Sh | ]. rewrite <- Hs. exact G.
  Qed.

  (** ** Options, strategy and conversion *)

  Lemma options_for_model rc all r lo k : rc_luopts rc = as_map all -> rc_module rc = "" ->
    k_parts k = [PStr r] -> options_for all r lo -> lookup_options rc k = Ok lo.
  Proof.
    intros H1 H2 Hk H. unfold lookup_options, root. rewrite Hk. cbn [obind]. rewrite H1, H2. cbn [String.eqb orb].
    destruct H as [m o -> Hg|m -> Hg|Hn]; cbn [as_map].
    - rewrite Hg. reflexivity.
    - destruct (mgets r m) as [[]|] eqn:E; try reflexivity. destruct (Hg _ eq_refl).
    - destruct all as [[]|]; try reflexivity. destruct (Hn _ eq_refl).
  Qed.

  Lemma options_of_model rc all r lo k : rc_luopts rc = as_map all -> rc_module rc = "" ->
    new_key r = Ok k -> options_of all r lo -> lookup_options rc k = Ok lo.
  Proof.
    intros H1 H2 Hk (x & (ps & Hx) & H). rewrite (written_new _ _ Hx) in Hk. injection Hk as <-.
    rewrite <- (options_for_model rc all x lo (mk_key x [PStr x]) H1 H2 eq_refl H). reflexivity.
  Qed.

  Lemma strategy_model mo s : strategy_is mo s -> get_strategy (fst (merge_spec mo)) (snd (merge_spec mo)) = Ok s.
  Proof.
    intros [nm s' H|m nm s' Hm H| |v Hs Hm].
    - inversion H; subst; reflexivity.
    - cbn [merge_spec]. rewrite Hm. inversion H; subst; reflexivity.
    - reflexivity.
    - destruct v; try reflexivity; [ destruct (Hs _ eq_refl) | destruct (Hm _ eq_refl) ].
  Qed.

  Lemma set_merge_run i cf sh ps opts lo mo s st0 : iv_expl i = false ->
    merge_option opts lo mo -> strategy_is mo s -> good w i cf sh ps st0 ->
    exists s', set_merge (mgets "merge" (match opts with Some o => o | None => [] end)) lo st0 = (Ok tt, s') /\
               good w (iv_with_strat (Some s) (iv_with_luopts lo i)) cf sh ps s'.
  Proof.
    intros Hi Hm Hs G. pose proof (good_off w i cf sh ps Hi st0 G) as Ho.
    unfold set_merge.
    assert (E : (match mgets "merge" (match opts with Some o => o | None => [] end), lo with
                 | Some v, _ => bind (run_op (OReport (RMergeSource "CLI option"))) (fun _ => ret (Some v))
                 | None, Some m =>
                     match mgets "merge" m with
                     | Some v => bind (run_op (OReport (RMergeSource """lookup_options"" hash"))) (fun _ => ret (Some v))
                     | None => ret None
                     end
                 | None, None => ret None
                 end) st0 = (Ok mo, st0)).
    { destruct Hm as [o v -> Hv|l v Hn -> Hv|Hn Hl].
      - rewrite Hv. unfold bind. rewrite report_off by exact Ho. reflexivity.
      - assert (E0 : mgets "merge" (match opts with Some o => o | None => [] end) = None)
          by (destruct opts; [ exact (Hn _ eq_refl) | reflexivity ]).
        rewrite E0, Hv. unfold bind. rewrite report_off by exact Ho. reflexivity.
      - assert (E0 : mgets "merge" (match opts with Some o => o | None => [] end) = None)
          by (destruct opts; [ exact (Hn _ eq_refl) | reflexivity ]).
        rewrite E0. destruct lo as [l|]; [ rewrite (Hl l eq_refl) | ]; reflexivity. }
    unfold bind at 1. rewrite E. unfold bind, lift, run_op. rewrite (strategy_model _ _ Hs).
    eexists. split; [ reflexivity | ]. cbn [with_iv s_iv]. rewrite (g_iv _ _ _ _ _ _ G).
    apply good_with_iv with (i := iv_with_luopts lo i). apply good_with_iv with (i := i). exact G.
  Qed.

  Lemma conversion_model lo cv : conversion_is lo cv ->
    conversion lo = option_map (fun p => (VStr (fst p), snd p)) cv.
  Proof.
    intros [H|l t -> [E|E]|l t x a -> E]; unfold conversion; try (rewrite E; reflexivity).
    destruct lo as [l|]; [ | reflexivity ]. destruct (H l eq_refl) as [E|E]; rewrite E; reflexivity.
  Qed.

  Lemma convert_run i cf sh ps lo cv v x fn s0 : iv_luopts i = lo -> iv_expl i = false -> iv_redacted i = false ->
    conversion_is lo cv -> converted w cv v x ->
    (forall b, yields (good w (iv_with_redacted b i) cf sh ps) fn v) ->
    good w i cf sh ps s0 ->
    exists s', lookup_and_convert w fn s0 = (Ok x, s') /\ good w i cf sh ps s'.
  Proof.
    intros Hl Hi Hr Hc Hx Hfn G. pose proof (conversion_model lo cv Hc) as Ec.
    assert (Ei : iv_with_redacted false i = i) by (rewrite <- Hr; destruct i; reflexivity).
    unfold lookup_and_convert, extract_conversion. unfold bind at 1. unfold bind at 1. unfold run_op at 1.
    rewrite (g_iv _ _ _ _ _ _ G), Hl, Ec.
    assert (Plain : exists s', fn s0 = (Ok v, s') /\ good w i cf sh ps s').
    { specialize (Hfn false). rewrite Ei in Hfn. exact (Hfn s0 G). }
    assert (Red : exists s', run_scoped SRedacted fn s0 = (Ok v, s') /\ good w i cf sh ps s').
    { unfold run_scoped. rewrite (g_iv _ _ _ _ _ _ G), Hr.
      destruct (Hfn true (with_iv (iv_with_redacted true i) s0) (good_with_iv _ _ _ _ _ _ _ G)) as (s1 & E1 & G1).
      rewrite E1. eexists. split; [ reflexivity | ]. rewrite (g_iv _ _ _ _ _ _ G1).
      replace (iv_with_redacted false (iv_with_redacted true i)) with i by (rewrite <- Ei at 1; destruct i; reflexivity).
      exact (good_with_iv _ _ _ _ _ _ _ G1). }
    assert (Any : forall ty (a : option (list value)),
      exists s', (match Some (ty, a) with Some (CSensitive, _) => run_scoped SRedacted fn | _ => fn end) s0 = (Ok v, s')
                 /\ good w i cf sh ps s').
    { intros [|t] a; [ exact Red | exact Plain ]. }
    destruct Hx as [o|t a ty Ht|t y Ht|t a ty y y' Ht Hty Hnew]; cbn [option_map fst snd].
    - unfold ret at 1. destruct Plain as (s1 & E1 & G1). unfold bind. rewrite E1. exists s1. split; [ | exact G1 ]. destruct o; reflexivity.
    - unfold bind at 1, lift at 1. rewrite Ht. unfold ret at 1. destruct (Any ty a) as (s1 & E1 & G1).
      unfold bind. rewrite E1. exists s1. split; [ reflexivity | exact G1 ].
    - unfold bind at 1, lift at 1. rewrite Ht. unfold ret at 1. destruct (Any CSensitive None) as (s1 & E1 & G1).
      unfold bind. rewrite E1. exists s1. split; [ reflexivity | exact G1 ].
    - unfold bind at 1, lift at 1. rewrite Ht. unfold ret at 1. destruct (Any ty a) as (s1 & E1 & G1).
      unfold bind. rewrite E1. exists s1. split; [ | exact G1 ]. unfold lift, convert.
      destruct ty as [|tt]; [ destruct a as [a|]; [ | destruct Hty; congruence ] | ]; rewrite Hnew; reflexivity.
  Qed.

  (** ** The lookup *)

  Hypothesis Htop : w_top w = LkConfig.
  Let i0 := new_iv sc false.

  (** The value under the root of the key, converted. *)
  Lemma value_again es all r opts lo mo st cv v x s : s_iv s = i0 -> ready es all s ->
    created w (S (S N)) sc c es -> all_options w sc es n all ->
    correct_key r -> options_of all r lo -> merge_option opts lo mo -> strategy_is mo st -> conversion_is lo cv ->
    hierarchy_gives w sc (value_is (fun t => answers w sc es (Some st) n (QStr t))) r st es v -> converted w cv v x ->
    exists rc sh s2, config_lookup_at w rec (match opts with Some o => o | None => [] end) (w_cfgpath w) r "" s = (Ok x, s2) /\
      map p_entry (rc_providers rc) = es /\ NoDup (map p_id (rc_providers rc)) /\
      rc_luopts rc = as_map all /\ rc_module rc = "" /\ aget (w_cfgpath w) sh = Some (ShLoaded c) /\
      Forall (fun p => e_function (p_entry p) <> None) (rc_providers rc) /\
      good w i0 [(w_cfgpath w, rc)] sh (rc_providers rc) s2.
  Proof.
    intros Hs Hsh Hh Ha Hp Hlo Hmo Hst Hcv Hv Hx.
    destruct (correct_new r Hp) as (x0 & qs & _ & Hnew).
    destruct (get_config_ready i0 es all s eq_refl eq_refl Hs Hsh Hh Ha) as (rc & s1 & E1 & R1 & R2 & R3 & R4 & sh & Sh & G1).
    assert (Fn : Forall (fun p => e_function (p_entry p) <> None) (rc_providers rc)).
    { apply (proj1 (Forall_map p_entry (fun e => e_function e <> None) _)). rewrite R1. exact (created_functions _ _ _ _ _ Hh). }
    exists rc, sh.
    set (cf := [(w_cfgpath w, rc)]) in *. set (ps := rc_providers rc) in *.
    assert (C : exists s2, config_lookup_at w rec (match opts with Some o => o | None => [] end) (w_cfgpath w) r "" s = (Ok x, s2) /\
                good w i0 cf sh ps s2).
    { unfold config_lookup_at. unfold bind at 1. rewrite E1. unfold bind at 1, lift at 1. rewrite Hnew.
      unfold bind at 1, run_op at 1. rewrite (g_iv _ _ _ _ _ _ G1). cbn [i0 new_iv iv_mode].
      unfold run_scoped at 1. rewrite (g_iv _ _ _ _ _ _ G1). cbn [i0 new_iv iv_mode].
      set (f := fun i : iv => iv_with_mode MdData (iv_with_expl (iv_expl i && negb (x_only (s_ex s1))) i)).
      assert (I : iv_expl (f i0) = false) by reflexivity.
      (* inside the copy the options and the strategy are set *)
      assert (B : forall t0, good w (f i0) cf sh ps t0 -> exists t1,
        run_scoped (SNode NLookup (k_source (mk_key r (PStr x0 :: qs))))
           (bind (lift (lookup_options rc (mk_key r (PStr x0 :: qs)))) (fun lo =>
            bind (set_merge (mgets "merge" (match opts with Some o => o | None => [] end)) lo) (fun _ =>
            lookup_and_convert w (bind (run_op OStrat) (fun s => merge_hierarchy w rec (mk_key r (PStr x0 :: qs)) ps s))))) t0
        = (Ok x, t1) /\ exists i', good w i' cf sh ps t1).
      { intros t0 G0. rewrite node_off by exact (good_off w (f i0) _ _ _ I t0 G0).
        unfold bind at 1, lift at 1. rewrite (options_of_model rc all r lo (mk_key r (PStr x0 :: qs)) R3 R4 Hnew Hlo).
        destruct (set_merge_run (f i0) cf sh ps opts lo mo st t0 I Hmo Hst G0) as (t1 & E & G2).
        unfold bind at 1. rewrite E.
        destruct (convert_run (iv_with_strat (Some st) (iv_with_luopts lo (f i0))) cf sh ps lo cv v x
                    (bind (run_op OStrat) (fun s => merge_hierarchy w rec (mk_key r (PStr x0 :: qs)) ps s)) t1) as (t2 & E2 & G3);
          try assumption; try reflexivity.
        - intro b. set (ib := iv_with_redacted b (iv_with_strat (Some st) (iv_with_luopts lo (f i0)))).
          eapply yields_bind with (a := Some st).
          { intros t G. exists t. split; [ | exact G ]. unfold run_op. rewrite (g_iv _ _ _ _ _ _ G). reflexivity. }
          unfold merge_hierarchy.
          refine (yields_hierarchy w ib cf sh ps _ rec R2 _ _ (mk_key r (PStr x0 :: qs)) r st v Hnew Fn _);
            [ reflexivity | | rewrite R1; exact Hv ].
          intros v' o' Hv'. rewrite <- R1 in Hv'.
          refine (yields_level w ib cf sh ps (Some st) n (S (S N)) _ R2 Fn _ HN v' o' Hv'); [ reflexivity | ].
          intros s' E'. injection E' as <-. split; [ exact Htop | split; [ reflexivity | split; [ reflexivity | ] ] ].
          exists rc. split; [ | reflexivity ]. unfold cf. cbn [aget]. rewrite String.eqb_refl. reflexivity.
        - exists t2. split; [ exact E2 | eexists; exact G3 ]. }
      destruct (B (with_iv (f i0) s1) (good_with_iv _ _ _ _ _ _ _ G1)) as (t1 & E & i' & G2).
      unfold with_copy. rewrite (g_iv _ _ _ _ _ _ G1).
      match goal with |- context [let (_, _) := ?t in _] => replace t with (Ok x, t1) by (symmetry; exact E) end.
      eexists. split; [ reflexivity | ].
      exact (good_with_iv _ _ _ _ _ _ _ G2). }
    destruct C as (s2 & E2 & G2). exists s2. repeat (split; [ assumption | ]). assumption.
  Qed.

  Lemma lookup_again es all k opts o s : s_iv s = i0 -> ready es all s ->
    created w (S (S N)) sc c es -> all_options w sc es n all -> lookup_finds w sc es all n k opts o ->
    exists s', lookup w rec k opts s = (Ok o, s') /\ s_iv s' = i0 /\ ready es all s'.
  Proof.
    intros Hs Hsh Hh Ha (r & rest & lo & mo & st & cv & v & x & Hk & Hr & Hp & Hlo & Hmo & Hst & Hcv & Hv & Hx & Ho).
    unfold lookup. unfold bind at 1, lift at 1, root at 1. rewrite Hk.
    apply String.eqb_neq in Hr. rewrite Hr. rewrite Htop. cbn [call_lk].
    destruct (value_again es all r opts lo mo st cv v x s Hs Hsh Hh Ha Hp Hlo Hmo Hst Hcv Hv Hx)
      as (rc & sh & s2 & E2 & R1 & R2 & R3 & R4 & Sh & Fn & G2).
    set (cf := [(w_cfgpath w, rc)]) in *. set (ps := rc_providers rc) in *.
    assert (Fin : forall t, good w i0 cf sh ps t -> s_iv t = i0 /\ ready es all t).
    { intros t G. pose proof (g_iv _ _ _ _ _ _ G) as It. split; [ exact It | ]. right. exists rc. rewrite It.
      repeat (split; [ assumption | ]). exists sh. split; assumption. }
    unfold bind at 1. rewrite E2.
    destruct x as [x|].
    - destruct Ho as (y & Hy & Hdig). unfold run_scoped. rewrite (g_iv _ _ _ _ _ _ G2). cbn [i0 new_iv iv_mode].
      set (f := fun i : iv => iv_with_mode MdData (iv_with_expl (iv_expl i && negb (x_only (s_ex s2))) i)).
      destruct (copy_run w i0 f cf sh ps _ (bind (interpolate rec true x) (dig_in k)) o s2 G2) as (s3 & E3 & G3).
      + eapply yields_bind with (a := y).
        * refine (yields_level w (f i0) cf sh ps None n (S (S N)) eq_refl R2 Fn _ HN x y _); [ discriminate | ].
          rewrite R1. exact Hy.
        * destruct k as [ks kp]. cbn in Hk. subst kp.
          exact (digs_dig _ (good_off w (f i0) cf sh ps eq_refl) ks r rest y o Hdig).
      + exists s3. split; [ exact E3 | exact (Fin s3 G3) ].
    - subst o. exists s2. split; [ reflexivity | exact (Fin s2 G2) ].
  Qed.

  Lemma lookup_run es k opts o s : s_iv s = i0 -> s_configs s = [] -> shared_ok s ->
    created w (S (S N)) sc c es -> lookup_gives w sc es n k opts o ->
    exists s', lookup w rec k opts s = (Ok o, s') /\ shared_ok s'.
  Proof.
    intros Hs Hc Hsh Hh (r & rest & all & lo & mo & st & cv & v & x & Hk & Hr & Hp & Ha & Hrest).
    destruct (lookup_again es all k opts o s Hs (or_introl (conj Hc Hsh)) Hh Ha) as (s' & E & _ & R).
    { exists r, rest, lo, mo, st, cv, v, x. repeat (split; [ assumption | ]). exact Hrest. }
    exists s'. split; [ exact E | exact (ready_shared es all s' R) ].
  Qed.
End Top.
