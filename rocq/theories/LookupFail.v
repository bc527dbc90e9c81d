(** Lookups with lookup options: the value, and the ways to fail. *)

From Coq Require Import String Ascii List ZArith Bool Arith Lia.
From Verif Require Import Str Value Outcome Key Merge Fpath Config Ipl Explain State Engine Fuel Session
  SpecKey SpecIpl SpecInterp SpecConfig SpecMerge SpecLookup
  KeyFacts ValueFacts MergeFacts MergeLookup StrFacts IplFacts InterpFacts IplExact ResolveFacts LookupExact HierarchyExact
  LookupTop SettledLookup RootFacts.
Import ListNotations.
Open Scope nat_scope.
Open Scope string_scope.
Open Scope list_scope.

(** ** Settled data with lookup options *)

Lemma settled_options w sc es ls k r ps opts all lo mo s cv x o :
  k_parts k = PStr r :: ps -> r <> "lookup_options" -> plain_key r ->
  Forall2 (level_is w) es ls ->
  Forall (fun l => forall v, under "lookup_options" l = Some v -> quiet v) ls ->
  Forall (fun l => forall v, under r l = Some v -> quiet v) ls ->
  all = pure_lookup (SDeep []) (map (under "lookup_options") ls) ->
  options_for all r lo -> merge_option opts lo mo -> strategy_is mo s -> conversion_is lo cv ->
  converted w cv (pure_lookup s (map (under r) ls)) x ->
  (forall y, x = Some y -> quiet y) -> digs ps x o ->
  lookup_gives w sc es 1 k opts o.
Proof.
  intros Hk Hr Hp Hl Ho Hq Ha Hlo Hm Hs Hcv Hx Hy Hd.
  assert (L : forall st key, plain_key key -> Forall (fun l => forall v, under key l = Some v -> quiet v) ls -> forall s',
     hierarchy_gives w sc (value_is (fun t => answers w sc es st 1 (QStr t))) key s' es (pure_lookup s' (map (under key) ls))).
  { intros st key Hk0 H s'. apply picks_pure. clear - Hk0 Hl H.
    induction Hl as [|e l es ls H1 Hl IH]; [ constructor | ]. inversion H as [|? ? Hv H']; subst. constructor; [ | apply IH; assumption ].
    apply level_gives; [ exact Hk0 | exact H1 | ]. intros v E. apply quiet_answers. apply Hv. exact E. }
  exists r, ps, all, lo, mo, s, cv, (pure_lookup s (map (under r) ls)), x.
  split; [ exact Hk | ]. split; [ exact Hr | ]. split; [ exact (plain_correct r Hp) | ]. split; [ rewrite Ha; apply L; [ exact options_key_plain | exact Ho ] | ].
  split; [ exact (plain_options all r lo Hp Hlo) | ]. split; [ exact Hm | ]. split; [ exact Hs | ]. split; [ exact Hcv | ].
  split; [ apply L; [ exact Hp | exact Hq ] | ]. split; [ exact Hx | ].
  destruct x as [y|].
  - exists (Some y). split; [ | exact Hd ]. apply quiet_answers. apply Hy. reflexivity.
  - inversion Hd. reflexivity.
Qed.

(** ** Failures *)

Section Fail.
  Variables (w : world) (n : nat) (on_disk : string -> bool) (matching : string -> list string).
  Hypothesis Hstat : forall t p, w_stat w t p = on_disk p.
  Hypothesis Hglob : forall t p, w_glob w t p = matching p.
  Hypothesis Htop : w_top w = LkConfig.
  Variable N : nat.
  Hypothesis HN : n <= S (S N).
  Let rec := run w (S (S N)).
  Variable sc : scope.
  Let i0 := new_iv sc false.
  Variables (c : config) (file : cfg_file).
  Hypothesis Hfile : forall t, w_config w t (w_cfgpath w) = file.
  Hypothesis Hconf : config_new (w_env w) (w_cfgpath w) file = Ok c.

  (** What comes after the lookup options are known decides when it fails. *)
  Lemma lookup_panics es k opts r rk ps all lo e s :
    s_iv s = i0 -> s_configs s = [] ->
    aget (w_cfgpath w) (s_shared s) = None \/ aget (w_cfgpath w) (s_shared s) = Some (ShLoaded c) ->
    hierarchy_is w on_disk matching sc c es ->
    k_parts k = PStr r :: ps -> r <> "lookup_options" -> new_key r = Ok rk ->
    hierarchy_gives w sc (value_is (fun t => answers w sc es None n (QStr t))) "lookup_options" (SDeep []) es all ->
    options_of all r lo ->
    (forall rc cf sh i t, iv_scope i = sc -> iv_expl i = false -> iv_mode i = MdData -> iv_redacted i = false ->
       aget (w_cfgpath w) cf = Some rc -> map p_entry (rc_providers rc) = es -> NoDup (map p_id (rc_providers rc)) ->
       Forall (fun p => e_function (p_entry p) <> None) (rc_providers rc) ->
       good w i cf sh (rc_providers rc) t ->
       fst (bind (set_merge (mgets "merge" (match opts with Some o => o | None => [] end)) lo) (fun _ =>
            lookup_and_convert w (bind (run_op OStrat) (fun s => merge_hierarchy w rec rk (rc_providers rc) s))) t)
       = Panic e) ->
    fst (lookup w rec k opts s) = Panic e.
  Proof.
    intros Hs Hc Hsh Hh Hk Hr Hp Ha Hlo H.
    unfold lookup. unfold bind at 1, lift at 1, root at 1. rewrite Hk.
    apply String.eqb_neq in Hr. rewrite Hr. rewrite Htop. cbn [call_lk].
    destruct (get_config_run w n N HN sc c file Hfile Hconf (new_iv sc false) es all s eq_refl eq_refl Hs Hc Hsh (hierarchy_created w on_disk matching sc c es N Hstat Hglob Hh) Ha)
      as (rc & s1 & E1 & R1 & R2 & R3 & R4 & sh & Sh & G1).
    assert (Fn : Forall (fun p => e_function (p_entry p) <> None) (rc_providers rc)).
    { destruct Hh as (d & ds & _ & H2 & _). apply (proj1 (Forall_map p_entry (fun e => e_function e <> None) _)). rewrite R1. exact (resolved_functions _ _ _ _ _ _ _ _ _ H2). }
    assert (C : fst (config_lookup_at w rec (match opts with Some o => o | None => [] end) (w_cfgpath w) r "" s) = Panic e).
    { unfold config_lookup_at. unfold bind at 1. unfold rec. rewrite E1. unfold bind at 1, lift at 1. rewrite Hp.
      unfold bind at 1, run_op at 1. rewrite (g_iv _ _ _ _ _ _ G1). cbn [new_iv iv_mode].
      unfold run_scoped at 1. rewrite (g_iv _ _ _ _ _ _ G1). cbn [new_iv iv_mode].
      set (f := fun i : iv => iv_with_mode MdData (iv_with_expl (iv_expl i && negb (x_only (s_ex s1))) i)).
      assert (I : iv_expl (f (new_iv sc false)) = false) by reflexivity.
      unfold with_copy. rewrite (g_iv _ _ _ _ _ _ G1).
      set (t0 := with_iv (f (new_iv sc false)) s1).
      assert (G0 : good w (f (new_iv sc false)) [(w_cfgpath w, rc)] sh (rc_providers rc) t0) by exact (good_with_iv _ _ _ _ _ _ _ G1).
      rewrite node_off by exact (good_off w _ _ _ _ I t0 G0).
      unfold bind at 1, lift at 1. rewrite (options_of_model rc all r lo rk R3 R4 Hp Hlo).
      specialize (H rc [(w_cfgpath w, rc)] sh (f (new_iv sc false)) t0 eq_refl I eq_refl eq_refl).
      cbn [aget] in H. rewrite String.eqb_refl in H. specialize (H eq_refl R1 R2 Fn G0). unfold rec in H.
      match goal with |- fst (let (_, _) := ?t in _) = _ => change (fst t = Panic e) in H; destruct t as [o s2] end.
      exact H. }
    unfold bind at 1.
    match goal with |- fst (match ?t with pair _ _ => _ end) = _ => destruct t as [o s2] end.
    cbn [fst] in C. subst o. reflexivity.
  Qed.

  Lemma merge_source opts lo mo i cf sh ps t : merge_option opts lo mo -> iv_expl i = false -> good w i cf sh ps t ->
    (match mgets "merge" (match opts with Some o => o | None => [] end), lo with
     | Some v, _ => bind (run_op (OReport (RMergeSource "CLI option"))) (fun _ => ret (Some v))
     | None, Some m =>
         match mgets "merge" m with
         | Some v => bind (run_op (OReport (RMergeSource """lookup_options"" hash"))) (fun _ => ret (Some v))
         | None => ret None
         end
     | None, None => ret None
     end) t = (Ok mo, t).
  Proof.
    intros Hm Hi G. pose proof (good_off w i cf sh ps Hi t G) as Ho.
    destruct Hm as [o v -> Hv|l v He -> Hv|He Hl].
    - rewrite Hv. unfold bind. rewrite report_off by exact Ho. reflexivity.
    - assert (E : mgets "merge" (match opts with Some o => o | None => [] end) = None).
      { destruct opts as [o|]; [ exact (He o eq_refl) | reflexivity ]. }
      rewrite E, Hv. unfold bind. rewrite report_off by exact Ho. reflexivity.
    - assert (E : mgets "merge" (match opts with Some o => o | None => [] end) = None).
      { destruct opts as [o|]; [ exact (He o eq_refl) | reflexivity ]. }
      rewrite E. destruct lo as [l|]; [ rewrite (Hl l eq_refl) | ]; reflexivity.
  Qed.

  (** A merge option that names no strategy. *)
  Definition no_strategy_text (mo : option value) : string :=
    match mo with
    | Some (VStr n) => n
    | Some (VMap m) => match mgets "strategy" m with Some (VStr n) => n | _ => "" end
    | _ => ""
    end.

  Lemma strategy_unknown mo : (forall s, ~ strategy_is mo s) ->
    get_strategy (fst (merge_spec mo)) (snd (merge_spec mo))
    = Panic (EErr ("unknown merge strategy '" ++ no_strategy_text mo ++ "'")).
  Proof.
    intro H. destruct mo as [v|]; [ | destruct (H _ si_none) ].
    assert (K : forall nm o, (forall s, ~ strategy_named nm (match o with Some x => x | None => [] end) s) ->
       get_strategy nm o = Panic (EErr ("unknown merge strategy '" ++ nm ++ "'"))).
    { intros nm o Hn. unfold get_strategy.
      destruct (String.eqb nm "first") eqn:E1; [ apply String.eqb_eq in E1; subst; destruct (Hn _ (sn_first _)) | ].
      destruct (String.eqb nm "unique") eqn:E2; [ apply String.eqb_eq in E2; subst; destruct (Hn _ (sn_unique _)) | ].
      destruct (String.eqb nm "hash") eqn:E3; [ apply String.eqb_eq in E3; subst; destruct (Hn _ (sn_hash _)) | ].
      destruct (String.eqb nm "deep") eqn:E4; [ apply String.eqb_eq in E4; subst; destruct (Hn _ (sn_deep _)) | ].
      reflexivity. }
    assert (Other : (forall nm, v <> VStr nm) -> (forall m, v <> VMap m) -> False).
    { intros H1 H2. exact (H _ (si_other v H1 H2)). }
    destruct v as [| | | |t| |m|]; try (exfalso; apply Other; discriminate); cbn [merge_spec no_strategy_text].
    - apply K. intros s Hs. exact (H s (si_name _ _ Hs)).
    - destruct (mgets "strategy" m) as [[| | | |t| | |]|] eqn:E; try reflexivity.
      cbn [fst snd]. apply K. intros s Hs. exact (H s (si_map _ _ _ E Hs)).
  Qed.

  Lemma unknown_strategy es k opts r ps all lo mo s :
    s_iv s = i0 -> s_configs s = [] ->
    aget (w_cfgpath w) (s_shared s) = None \/ aget (w_cfgpath w) (s_shared s) = Some (ShLoaded c) ->
    hierarchy_is w on_disk matching sc c es ->
    k_parts k = PStr r :: ps -> r <> "lookup_options" -> correct_key r ->
    hierarchy_gives w sc (value_is (fun t => answers w sc es None n (QStr t))) "lookup_options" (SDeep []) es all ->
    options_of all r lo -> merge_option opts lo mo -> (forall s, ~ strategy_is mo s) ->
    fst (lookup w rec k opts s) = Panic (EErr ("unknown merge strategy '" ++ no_strategy_text mo ++ "'")).
  Proof.
    intros Hs Hc Hsh Hh Hk Hr Hp Ha Hlo Hmo Hno.
    destruct (correct_new r Hp) as (x0 & qs & _ & Hrk).
    apply (lookup_panics es k opts r (mk_key r (PStr x0 :: qs)) ps all lo _ s Hs Hc Hsh Hh Hk Hr Hrk Ha Hlo).
    intros rc cf sh i t _ Hi _ _ _ _ _ _ G. unfold set_merge. unfold bind at 1. unfold bind at 1.
    rewrite (merge_source opts lo mo i cf sh (rc_providers rc) t Hmo Hi G).
    unfold bind, lift, run_op. rewrite (strategy_unknown mo Hno). reflexivity.
  Qed.

  (** A type that cannot be parsed, or a value that cannot be converted. *)
  Inductive conversion_fails (cv : option (string * option (list value))) (v : option value) (e : err) : Prop :=
  | cf_type : forall t a, cv = Some (t, a) -> w_parse_type w t = Panic e -> conversion_fails cv v e
  | cf_value : forall t a ty x, cv = Some (t, a) -> w_parse_type w t = Ok ty -> ty <> CSensitive \/ a <> None ->
      v = Some x -> w_new w ty x (match a with Some l => l | None => [] end) = Panic e -> conversion_fails cv v e.

  Lemma failing_conversion es k opts r ps all lo mo st cv v e s :
    s_iv s = i0 -> s_configs s = [] ->
    aget (w_cfgpath w) (s_shared s) = None \/ aget (w_cfgpath w) (s_shared s) = Some (ShLoaded c) ->
    hierarchy_is w on_disk matching sc c es ->
    k_parts k = PStr r :: ps -> r <> "lookup_options" -> correct_key r ->
    hierarchy_gives w sc (value_is (fun t => answers w sc es None n (QStr t))) "lookup_options" (SDeep []) es all ->
    options_of all r lo -> merge_option opts lo mo -> strategy_is mo st -> conversion_is lo cv ->
    hierarchy_gives w sc (value_is (fun t => answers w sc es (Some st) n (QStr t))) r st es v ->
    conversion_fails cv v e ->
    fst (lookup w rec k opts s) = Panic e.
  Proof.
    intros Hs Hc Hsh Hh Hk Hr Hp Ha Hlo Hmo Hst Hcv Hv Hf.
    destruct (correct_new r Hp) as (x0 & qs & _ & Hrk).
    apply (lookup_panics es k opts r (mk_key r (PStr x0 :: qs)) ps all lo e s Hs Hc Hsh Hh Hk Hr Hrk Ha Hlo).
    intros rc cf sh i t Hsc Hi Hmd Hred Hcf R1 R2 Fn G.
    destruct (set_merge_run w i cf sh (rc_providers rc) opts lo mo st t Hi Hmo Hst G) as (t1 & E & G2).
    unfold bind at 1. rewrite E.
    set (ib := iv_with_strat (Some st) (iv_with_luopts lo i)) in *.
    unfold lookup_and_convert, extract_conversion. unfold bind at 1. unfold bind at 1. unfold run_op at 1.
    rewrite (g_iv _ _ _ _ _ _ G2). cbn [ib iv_with_strat iv_with_luopts iv_luopts]. rewrite (conversion_model lo cv Hcv).
    assert (Y : forall b, yields (good w (iv_with_redacted b ib) cf sh (rc_providers rc))
       (bind (run_op OStrat) (fun s => merge_hierarchy w rec (mk_key r (PStr x0 :: qs)) (rc_providers rc) s)) v).
    { intro b. set (ir := iv_with_redacted b ib).
      eapply yields_bind with (a := Some st).
      { intros t' G'. exists t'. split; [ | exact G' ]. unfold run_op. rewrite (g_iv _ _ _ _ _ _ G'). reflexivity. }
      unfold merge_hierarchy.
      refine (yields_hierarchy w ir cf sh (rc_providers rc) _ rec R2
                (value_is (fun t => answers w sc es (Some st) n (QStr t))) _ (mk_key r (PStr x0 :: qs)) r st v Hrk Fn _);
        [ exact Hi | | change (iv_scope ir) with (iv_scope i); rewrite R1, Hsc; exact Hv ].
      intros v' o' Hv'. rewrite <- R1, <- Hsc in Hv'.
      refine (yields_level w ir cf sh (rc_providers rc) (Some st) n (S (S N)) _ R2 Fn _ HN v' o' Hv'); [ exact Hi | ].
      intros s' E'. injection E' as <-. split; [ exact Htop | split; [ exact Hmd | split; [ reflexivity | ] ] ].
      exists rc. split; [ exact Hcf | reflexivity ]. }
    assert (Plain : exists s', (bind (run_op OStrat) (fun s => merge_hierarchy w rec (mk_key r (PStr x0 :: qs)) (rc_providers rc) s)) t1 = (Ok v, s')).
    { destruct (Y false t1) as (s' & E' & _); [ | exists s'; exact E' ].
      replace (iv_with_redacted false ib) with ib by (unfold ib; rewrite <- Hred; destruct i; reflexivity). exact G2. }
    assert (Red : exists s', run_scoped SRedacted (bind (run_op OStrat) (fun s => merge_hierarchy w rec (mk_key r (PStr x0 :: qs)) (rc_providers rc) s)) t1 = (Ok v, s')).
    { unfold run_scoped. rewrite (g_iv _ _ _ _ _ _ G2). cbn [ib iv_with_strat iv_with_luopts iv_redacted]. rewrite Hred.
      destruct (Y true (with_iv (iv_with_redacted true ib) t1) (good_with_iv _ _ _ _ _ _ _ G2)) as (s' & E' & _).
      match goal with |- context [let (_, _) := ?t in _] => replace t with (Ok v, s') by (symmetry; exact E') end.
      eexists. reflexivity. }
    destruct Hf as [ct ca -> Hty|ct ca ty x -> Hty Hne -> Hnew]; cbn [option_map fst snd].
    - unfold bind, lift. rewrite Hty. reflexivity.
    - unfold bind at 1, lift at 1. rewrite Hty. unfold ret at 1.
      destruct ty as [|tx].
      + destruct ca as [ca|]; [ | destruct Hne; congruence ].
        destruct Red as (s' & E'). unfold bind at 1. rewrite E'. unfold bind, lift, convert. rewrite Hnew. reflexivity.
      + destruct Plain as (s' & E'). unfold bind at 1. rewrite E'. unfold bind, lift, convert. rewrite Hnew. reflexivity.
  Qed.
End Fail.
