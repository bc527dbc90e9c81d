(** A lookup with several functions, among them those that read the configuration
    of the session and those of modules, gives what its specification says. *)

From Coq Require Import String Ascii List ZArith Bool Arith Lia.
From Verif Require Import Str Value Outcome Key Merge Fpath Config Ipl Explain State Engine Meta Fuel Session
  SpecKey SpecIpl SpecInterp SpecConfig SpecMerge SpecPath SpecLookup SpecMux SpecTop SpecModules
  KeyFacts ValueFacts MergeFacts MergeLookup StrFacts IplFacts InterpFacts IplExact ResolveFacts LookupExact
  HierarchyExact LookupTop RootFacts PathFacts P_Mux MuxExact P_Modules.
Import ListNotations.
Open Scope nat_scope.
Open Scope string_scope.
Open Scope list_scope.

Lemma aget_put {A} k x (l : list (string * A)) q : aget q (aput k x l) = if String.eqb q k then Some x else aget q l.
Proof. reflexivity. Qed.

Section Modules.
  Variables (w : world) (rd : string -> dir_list) (ls : string -> lstat).
  Variables (on_disk : string -> bool) (matching : string -> list string).
  Hypothesis Hdirs : settled_dirs w rd ls.
  Hypothesis Hstat : forall t p, w_stat w t p = on_disk p.
  Hypothesis Hglob : forall t p, w_glob w t p = matching p.
  Variables (sc : scope) (n0 : nat) (sites : string -> option site).
  Hypothesis Hsites : forall path si, sites path = Some si -> site_is w on_disk matching sc n0 path si.
  (** The configuration files that were found to be broken. *)
  Variable locked : string -> Prop.
  Hypothesis Hbroken : forall path, locked path -> exists x, broken w path x.

  (** ** States *)

  Definition matches (rc : rconfig) (si : site) : Prop :=
    map p_entry (rc_providers rc) = si_entries si /\ rc_luopts rc = as_map (si_options si) /\ rc_module rc = si_module si.

  (** What a session keeps from one lookup to the next. *)
  Record kept_over (s : st) : Prop := mk_kept_over {
    ko_shared : forall path,
      match aget path (s_shared s) with
      | None => ~ locked path
      | Some ShLocked => locked path
      | Some (ShLoaded c) => exists file, (forall t, w_config w t path = file) /\ config_new (w_env w) path file = Ok c
      end;
    ko_mods : forall name c, aget name (s_mods s) = Some c -> in_path rd ls name (module_dirs w) c;
    ko_yaml : forall d, aget "yaml::data" (s_tpc s) = Some d ->
      exists m, d = VMap m /\ forall t, file_has (w_yaml w t (yaml_path w)) m
  }.

  (** The configurations that have been resolved in the invocation and their
      providers. *)
  Definition resolved (s : st) : Prop :=
    exists qs, NoDup (map p_id qs) /\ Forall (fun p => p_id p < s_next s) qs /\
      (forall p, In p qs -> agrees w p (s_provs s (p_id p))) /\
      forall path rc, aget path (s_configs s) = Some rc ->
        incl (rc_providers rc) qs /\ exists si, sites path = Some si /\ matches rc si.

  (** The configurations in [R] are there. *)
  Definition has_all (R : list (string * rconfig)) (s : st) : Prop :=
    forall path rc, In (path, rc) R -> aget path (s_configs s) = Some rc.

  Definition steady (i : iv) (R : list (string * rconfig)) (s : st) : Prop :=
    s_iv s = i /\ kept_over s /\ resolved s /\ has_all R s.

  (** Options and strategy may be those of another lookup, if [K] says so. *)
  Definition fit (K : option strategy -> Prop) (i : iv) (R : list (string * rconfig)) (s : st) : Prop :=
    exists lo g, K g /\ steady (iv_with_strat g (iv_with_luopts lo i)) R s.

  Lemma steady_with_iv i i' R s : steady i R s -> steady i' R (with_iv i' s).
  Proof. intros (_ & K & Q & H). split; [ reflexivity | ]. split; [ destruct K; constructor; assumption | ]. split; assumption. Qed.

  Lemma steady_fit (K : option strategy -> Prop) i R s : K (iv_strat i) -> steady i R s -> fit K i R s.
  Proof.
    intros H S. exists (iv_luopts i), (iv_strat i). split; [ exact H | ].
    replace (iv_with_strat (iv_strat i) (iv_with_luopts (iv_luopts i) i)) with i by (destruct i; reflexivity). exact S.
  Qed.

  Lemma fit_set K i lo g R s : fit K (iv_with_strat g (iv_with_luopts lo i)) R s -> fit K i R s.
  Proof. intros (lo' & g' & H & S). exists lo', g'. split; [ exact H | ]. destruct i; exact S. Qed.

  Lemma fit_weak (K K' : option strategy -> Prop) i R s : (forall g, K g -> K' g) -> fit K i R s -> fit K' i R s.
  Proof. intros H (lo & g & Kg & S). exists lo, g. auto. Qed.

  Lemma steady_less i R R' s : incl R' R -> steady i R s -> steady i R' s.
  Proof. intros H (A & B & C & D). repeat (split; [ assumption | ]). intros path rc Q. apply D. apply H. exact Q. Qed.

  Lemma fit_off K i R s : iv_expl i = false -> fit K i R s -> off s.
  Proof. intros Hi (lo & g & _ & E & _). unfold off. rewrite E. exact Hi. Qed.
  Lemma fit_scope K i R s : fit K i R s -> iv_scope (s_iv s) = iv_scope i.
  Proof. intros (lo & g & _ & E & _). rewrite E. reflexivity. Qed.
  Lemma steady_off i R s : iv_expl i = false -> steady i R s -> off s.
  Proof. intros Hi (E & _). unfold off. rewrite E. exact Hi. Qed.

  (** ** Code that asks the providers of resolved configurations *)

  Lemma steady_frames i R ps A (m : M st A) a : iv_expl i = false -> iv_scope i = sc ->
    (forall p, In p ps -> exists path rc, In (path, rc) R /\ In p (rc_providers rc)) ->
    frames w sc ps m a -> yields (steady i R) m a.
  Proof.
    intros Hi Hsc Hps F s (E & K & (qs & Hd & Hlt & Ha & Hc) & H).
    destruct (F i (s_configs s) (s_shared s) qs s Hi Hsc) as (s' & E' & [G1 G2 G3 G4] & (S1 & S2 & S3)).
    - intros p Hp. destruct (Hps p Hp) as (path & rc & HR & Hin). exact (proj1 (Hc path rc (H path rc HR)) p Hin).
    - exact Hd.
    - constructor; [ exact E | reflexivity | reflexivity | exact Ha ].
    - exists s'. split; [ exact E' | ]. split; [ exact G1 | ]. destruct K as [K1 K2 K3]. split.
      { constructor; [ rewrite G3 | rewrite S2 | rewrite S3 ]; assumption. }
      split; [ | intros path rc HR; rewrite G2; exact (H path rc HR) ].
      exists qs. split; [ exact Hd | ]. split; [ rewrite S1; exact Hlt | ]. split; [ exact G4 | rewrite G2; exact Hc ].
  Qed.

  Lemma steady_gives i R A (m : M st A) a : iv_expl i = false -> iv_scope i = sc -> gives sc m a -> yields (steady i R) m a.
  Proof. intros Hi Hsc H. apply (steady_frames i R [] A m a Hi Hsc); [ intros p [] | exact (frames_gives w sc [] A m a H) ]. Qed.

  Lemma fit_all K i R A (m : M st A) a :
    (forall lo g, yields (steady (iv_with_strat g (iv_with_luopts lo i)) R) m a) -> yields (fit K i R) m a.
  Proof.
    intros H s (lo & g & Kg & S). destruct (H lo g s S) as (s' & E & S'). exists s'. split; [ exact E | exists lo, g; auto ].
  Qed.

  Lemma fit_frames K i R ps A (m : M st A) a : iv_expl i = false -> iv_scope i = sc ->
    (forall p, In p ps -> exists path rc, In (path, rc) R /\ In p (rc_providers rc)) ->
    frames w sc ps m a -> yields (fit K i R) m a.
  Proof. intros Hi Hsc Hps F. apply fit_all. intros lo g. exact (steady_frames (iv_with_strat g (iv_with_luopts lo i)) R ps A m a Hi Hsc Hps F). Qed.

  (** The providers of a configuration that is there. *)
  Lemma fit_of K i R path rc s : iv_expl i = false -> iv_scope i = sc -> In (path, rc) R -> fit K i R s ->
    exists i' cf' sh', iv_expl i' = false /\ iv_scope i' = sc /\ good w i' cf' sh' (rc_providers rc) s.
  Proof.
    intros Hi Hsc HR (lo & g & _ & E & _ & (qs & _ & _ & Ha & Hc) & H).
    exists (s_iv s), (s_configs s), (s_shared s). rewrite E. split; [ exact Hi | ]. split; [ exact Hsc | ].
    constructor; [ exact E | reflexivity | reflexivity | ]. intros p Hp. apply Ha. exact (proj1 (Hc path rc (H path rc HR)) p Hp).
  Qed.

  (** ** Configurations *)

  Lemma site_functions path si : sites path = Some si -> Forall (fun e => e_function e <> None) (si_entries si).
  Proof.
    intro H. destruct (Hsites path si H) as (file & c & _ & _ & (d & ds & _ & H2 & _) & _).
    exact (resolved_functions _ _ _ _ _ _ _ _ _ H2).
  Qed.

  Lemma shared_steady i R path file c s : steady i R s -> (forall t, w_config w t path = file) ->
    config_new (w_env w) path file = Ok c ->
    exists s', shared_config w path s = (Ok c, s') /\ steady i R s' /\ s_configs s' = s_configs s.
  Proof.
    intros (E & [K1 K2 K3] & Q & H) Hf Hc. unfold shared_config, bind at 1, run_op at 1.
    pose proof (K1 path) as Kp. destruct (aget path (s_shared s)) as [[c'|]|] eqn:Es.
    - destruct Kp as (file' & Hf' & Hc'). specialize (Hf []). specialize (Hf' []).
      exists s. split; [ unfold ret; congruence | ]. split; [ | reflexivity ].
      split; [ exact E | ]. split; [ constructor; assumption | split; assumption ].
    - exfalso. destruct (Hbroken path Kp) as (x & file' & Hf' & Hc'). specialize (Hf []). specialize (Hf' []). congruence.
    - unfold load_config, ask, bind, run_op, lift, ret. rewrite Hf, Hc. eexists. split; [ reflexivity | ]. split; [ | reflexivity ].
      split; [ exact E | ]. split; [ | split; [ exact Q | exact H ] ]. constructor; [ | exact K2 | exact K3 ].
      cbn [with_shared with_trace s_shared]. intro q. rewrite aget_put.
      destruct (String.eqb_spec q path) as [->|Hne].
      + exists file. auto.
      + rewrite aget_put. apply String.eqb_neq in Hne. rewrite Hne. exact (K1 q).
  Qed.

  Lemma resolve_steady N i R path si c s : n0 <= S (S N) -> iv_expl i = false -> iv_scope i = sc -> steady i R s ->
    sites path = Some si -> aget path (s_configs s) = None ->
    hierarchy_is w on_disk matching sc c (si_entries si) -> all_options w sc (si_entries si) n0 (si_options si) ->
    exists rc s', resolve_config w (run w (S (S N))) c (si_module si) s = (Ok rc, s') /\ matches rc si /\
      s_configs s' = s_configs s /\ steady i R (with_configs (aput path rc (s_configs s)) s').
  Proof.
    intros HN Hi Hsc (E & K & (qs & Hd & Hlt & Ha & Hc) & H) Hsi Hnone Hh Ho.
    set (rec := run w (S (S N))).
    destruct (hierarchy_created w on_disk matching sc c (si_entries si) N Hstat Hglob Hh) as [Hu Hcr].
    assert (Hoff : off s) by (unfold off; rewrite E; exact Hi).
    assert (Hscs : iv_scope (s_iv s) = sc) by (rewrite E; exact Hsc).
    destruct (Hcr s Hscs Hoff) as (ps & s1 & ds & rs & s2 & E1 & [N1 N2 N3 N4] & E2 & [M1 M2 M3 M4]).
    pose proof (made_trans _ _ _ N2 M2) as MM. fold rec in E1, E2.
    assert (I2 : s_iv s2 = i) by (rewrite (m_iv _ _ MM); exact E).
    assert (Dall : NoDup (map p_id (ps ++ qs))).
    { rewrite map_app. clear - N3 N4 Hd Hlt. induction ps as [|p ps IH]; [ exact Hd | ]. cbn [map app] in *.
      inversion N4 as [|? ? A B]; subst. inversion N3 as [|? ? C D]; subst. constructor; [ | exact (IH D B) ].
      intro Q. apply in_app_or in Q as [Q|Q]; [ exact (A Q) | ]. apply in_map_iff in Q as (q & Eq & Hq).
      pose proof (proj1 (Forall_forall _ _) Hlt q Hq) as L. cbn in L. lia. }
    assert (Gall : good w i (s_configs s) (s_shared s) (ps ++ qs) s2).
    { constructor; [ exact I2 | exact (m_configs _ _ MM) | exact (m_shared _ _ MM) | ].
      intros p Hp. apply in_app_or in Hp as [Hp|Hp].
      - pose proof (proj1 (Forall_forall _ _) N3 p Hp) as Hid. cbn in Hid.
        rewrite (m_old _ _ M2) by lia. rewrite (m_new _ _ N2) by lia. apply agrees_new.
      - pose proof (proj1 (Forall_forall _ _) Hlt p Hp) as L. cbn in L. rewrite (m_old _ _ MM) by exact L. exact (Ha p Hp). }
    assert (Fn : Forall (fun p => e_function (p_entry p) <> None) ps).
    { apply (proj1 (Forall_map p_entry (fun e => e_function e <> None) _)). rewrite N1.
      eapply Forall_impl; [ | exact Hu ]. intros e [He _]. exact He. }
    set (k := mk_key "lookup_options" [PStr "lookup_options"]).
    set (m := run_scoped (SNode NLookup (k_source k)) (merging (SDeep []) ps (merge_locations w rec k (SDeep [])))).
    (* all providers are kept while those of the new configuration are asked *)
    set (P := fun j s' => good w j (s_configs s) (s_shared s) (ps ++ qs) s' /\ same_rest s2 s').
    assert (Pof : forall j, iv_expl j = false -> iv_scope j = sc -> forall s', P j s' ->
              exists i' cf' sh', iv_expl i' = false /\ iv_scope i' = sc /\ good w i' cf' sh' ps s').
    { intros j Xj Sj s' [[G1 G2 G3 G4] _]. exists j, (s_configs s), (s_shared s). split; [ exact Xj | ]. split; [ exact Sj | ].
      constructor; try assumption. intros p Hp. apply G4. apply in_or_app. left. exact Hp. }
    assert (Pall : forall j, iv_expl j = false -> iv_scope j = sc -> forall A (m : M st A) a, frames w sc ps m a -> yields (P j) m a).
    { intros j Xj Sj A m0 a F s' [G S].
      destruct (F j (s_configs s) (s_shared s) (ps ++ qs) s' Xj Sj) as (s'' & E' & G' & S'); try assumption.
      { intros p Hp. apply in_or_app. left. exact Hp. }
      exists s''. split; [ exact E' | ]. split; [ exact G' | exact (same_rest_trans _ _ _ S S') ]. }
    assert (Y : forall j, iv_expl j = false -> iv_scope j = sc -> yields (P j) m (si_options si)).
    { intros j Xj Sj.
      assert (Poff : forall s', P j s' -> off s') by (intros s' [G _]; exact (good_off w j _ _ _ Xj s' G)).
      assert (Psc : forall s', P j s' -> iv_scope (s_iv s') = sc).
      { intros s' [G _]. rewrite (g_iv _ _ _ _ _ _ G). exact Sj. }
      apply (yields_node (P j) Poff).
      refine (hierarchy_yields w rec sc ps (P j) (Pof j Xj Sj) (Pall j Xj Sj) _ _ k "lookup_options" (SDeep []) (si_options si) eq_refl Fn _);
        [ | rewrite N1; exact Ho ].
      apply (yields_interpolate (P j) rec). intros t o Ht.
      assert (An : forall n q o, answers w sc (si_entries si) None n q o ->
         match q with
         | QStr t => exists b, (b = false -> o = Some (VStr t)) /\ yields (P j) (run w n (RStr t true)) (o, b)
         | QKey k => exists b, yields (P j) (run w n (RLookup k None)) (o, b)
         end).
      { induction n as [|n IH]; intros q o' Hq; [ destruct Hq | ]. cbn [run].
        assert (Hs : forall t o, answers w sc (si_entries si) None n (QStr t) o ->
           exists b, (b = false -> o = Some (VStr t)) /\ yields (P j) (run w n (RStr t true)) (o, b)).
        { intros t' o'' Ht'. exact (IH (QStr t') o'' Ht'). }
        assert (Hl : forall k o, answers w sc (si_entries si) None n (QKey k) o ->
           exists b, yields (P j) (run w n (RLookup k None)) (o, b)).
        { intros k' o'' Hk'. exact (IH (QKey k') o'' Hk'). }
        destruct q as [t'|k']; cbn [answers] in Hq.
        - exact (yields_string w sc (P j) Poff Psc (run w n) _ _ Hs Hl t' o' Hq).
        - destruct Hq as [(rest & Ek & ->)|(s0 & r & rest & v & Es & _)]; [ | discriminate ]. exists true.
          cbn [body]. eapply yields_bind with (a := None); [ | apply yields_ret ].
          unfold lookup. eapply yields_bind with (a := "lookup_options"); [ apply yields_lift; unfold root; rewrite Ek; reflexivity | ].
          rewrite String.eqb_refl. apply yields_node; [ exact Poff | ].
          eapply yields_bind; [ apply yields_report; exact Poff | apply yields_ret ]. }
      destruct (An n0 (QStr t) o Ht) as (b & B & G). exists b. split; [ exact B | exact (yields_more w _ n0 (S (S N)) _ _ HN G) ]. }
    assert (P2 : P i s2) by (split; [ exact Gall | apply same_rest_refl ]).
    assert (C : exists s3, run_scoped SLookup m s2 = (Ok (si_options si), s3) /\ P i s3).
    { assert (Cp : forall f, iv_expl (f i) = false -> iv_scope (f i) = sc ->
        exists s3, with_copy f m s2 = (Ok (si_options si), s3) /\ P i s3).
      { intros f Xf Sf. destruct (Y (f i) Xf Sf (with_iv (f i) s2)) as (s3 & E3 & [G3 R3]).
        { split; [ exact (good_with_iv _ _ _ _ _ _ _ Gall) | repeat split ]. }
        unfold with_copy. rewrite I2, E3. eexists. split; [ reflexivity | ]. split; [ exact (good_with_iv _ _ _ _ _ _ _ G3) | ].
        exact R3. }
      unfold run_scoped. rewrite I2. destruct (iv_mode i).
      - apply Cp; [ destruct i; cbn in *; rewrite Hi; reflexivity | exact Hsc ].
      - exact (Y i Hi Hsc s2 P2).
      - apply Cp; [ destruct i; cbn in *; rewrite Hi; reflexivity | exact Hsc ]. }
    destruct C as (s3 & E3 & [[G1 G2 G3 G4] (S1 & S2 & S3)]).
    set (rc := mk_rconfig c ps rs (as_map (si_options si)) (si_module si)).
    exists rc, s3. split.
    { unfold resolve_config. unfold bind at 1. unfold run_scoped at 1. rewrite E, Hi.
      unfold bind at 1. rewrite E1. unfold bind at 1. rewrite E2. unfold ret at 1.
      unfold bind at 1. change (new_key "lookup_options") with (Ok k). unfold lift at 1. unfold bind at 1.
      cbn [fst snd]. fold m. rewrite E3. reflexivity. }
    assert (Hm : matches rc si) by (split; [ exact N1 | split; reflexivity ]).
    split; [ exact Hm | ]. split; [ exact G2 | ]. split; [ exact G1 | ].
    split.
    { destruct K as [K1 K2 K3]. constructor; cbn [with_configs s_shared s_mods s_tpc].
      - rewrite G3. exact K1.
      - rewrite S2, (m_mods _ _ MM). exact K2.
      - rewrite S3, (m_tpc _ _ MM). exact K3. }
    split.
    - exists (ps ++ qs). split; [ exact Dall | ]. split.
      { cbn [with_configs s_next]. rewrite S1. apply Forall_app. split.
        - eapply Forall_impl; [ | exact N3 ]. cbn. intros p Hp. pose proof (m_next _ _ M2). lia.
        - eapply Forall_impl; [ | exact Hlt ]. cbn. intros p Hp. pose proof (m_next _ _ MM). lia. }
      split; [ exact G4 | ]. cbn [with_configs s_configs]. intros q rc' Hq. rewrite aget_put in Hq.
      destruct (String.eqb_spec q path) as [->|Hne].
      + injection Hq as <-. split; [ intros p Hp; apply in_or_app; left; exact Hp | exists si; split; assumption ].
      + destruct (Hc q rc' Hq) as [Hi' Hm']. split; [ intros p Hp; apply in_or_app; right; exact (Hi' p Hp) | exact Hm' ].
    - intros q rc' HR. cbn [with_configs s_configs]. rewrite aget_put. pose proof (H q rc' HR) as Hq.
      destruct (String.eqb_spec q path) as [->|_]; [ congruence | exact Hq ].
  Qed.

  (** A configuration, resolved when it is not there. *)
  Lemma config_steady N i R path si s : n0 <= S (S N) -> iv_expl i = false -> iv_scope i = sc -> steady i R s ->
    sites path = Some si -> (path <> "" \/ path = w_cfgpath w) ->
    exists rc s', get_config w (run w (S (S N))) path (si_module si) s = (Ok rc, s') /\ matches rc si /\ steady i ((path, rc) :: R) s'.
  Proof.
    intros HN Hi Hsc S Hsi Hp. unfold get_config.
    replace (if String.eqb path "" then w_cfgpath w else path) with path
      by (destruct (String.eqb_spec path ""); [ destruct Hp; congruence | reflexivity ]).
    unfold bind at 1, run_op at 1. destruct (aget path (s_configs s)) as [rc|] eqn:Ec.
    - exists rc, s. split; [ reflexivity | ]. destruct S as (E & K & (qs & Q1 & Q2 & Q3 & Hc) & H).
      destruct (Hc path rc Ec) as [_ (si' & Hsi' & Hm)]. rewrite Hsi in Hsi'. injection Hsi' as <-. split; [ exact Hm | ].
      split; [ exact E | ]. split; [ exact K | ]. split; [ exists qs; auto | ].
      intros q rc' [Q|Q]; [ injection Q as <- <-; exact Ec | exact (H q rc' Q) ].
    - destruct (Hsites path si Hsi) as (file & c & Hf & Hcn & Hh & Ho).
      destruct (shared_steady i R path file c s S Hf Hcn) as (s1 & E1 & S1 & C1). unfold bind at 1. rewrite E1.
      destruct (resolve_steady N i R path si c s1 HN Hi Hsc S1 Hsi) as (rc & s2 & E2 & Hm & C2 & S2); try assumption; [ congruence | ].
      unfold bind at 1. rewrite E2. unfold bind, run_op, ret. exists rc. eexists. split; [ reflexivity | ]. split; [ exact Hm | ].
      rewrite C2. destruct S2 as (A & B & C & D). repeat (split; [ assumption | ]).
      intros q rc' [Q|Q]; [ injection Q as <- <- | exact (D q rc' Q) ].
      cbn [with_configs s_configs]. rewrite aget_put, String.eqb_refl. reflexivity.
  Qed.

  (** ** The module path *)

  Lemma module_steady i R pre c s : steady i R s -> in_path rd ls pre (module_dirs w) c ->
    exists s', module_config w (to_lower pre) s = (Ok c, s') /\ steady i R s'.
  Proof.
    intros (E & [K1 K2 K3] & Q & H) Hin.
    assert (Hp : in_path rd ls (to_lower pre) (module_dirs w) c).
    { apply (in_path_same rd ls pre); [ apply same_name_lower; rewrite to_lower_twice; reflexivity | exact Hin ]. }
    destruct (aget (to_lower pre) (s_mods s)) as [d|] eqn:Em.
    - exists s. rewrite (in_path_one _ _ _ _ _ Hp _ (K2 _ _ Em)). split; [ exact (module_config_known w _ d s Em) | ].
      split; [ exact E | ]. split; [ constructor; assumption | split; assumption ].
    - destruct (module_config_new w rd ls (to_lower pre) c s Hdirs Hp Em) as (s' & E' & (l & _ & ->)).
      eexists. split; [ exact E' | ]. split; [ exact E | ]. split; [ | split; [ exact Q | exact H ] ].
      constructor; [ exact K1 | | exact K3 ]. cbn [with_mods with_trace s_mods]. intros name d Hd. rewrite aget_put in Hd.
      destruct (String.eqb_spec name (to_lower pre)) as [->|_]; [ injection Hd as <-; exact Hp | exact (K2 name d Hd) ].
  Qed.

  Lemma in_path_file pre dirs c : in_path rd ls pre dirs (Some c) -> c <> "".
  Proof.
    intro H. remember (Some c) as o eqn:Eo. induction H as [|p c' r H|p c' r H _ IH]; [ discriminate | | exact (IH Eo) ].
    injection Eo as ->. inversion H; subst. unfold join2 at 1. cbn [String.eqb].
    match goal with |- context [if ?b then _ else _] => destruct b end; apply clean_not_empty.
  Qed.

  (** ** Functions that read no configuration *)

  Lemma value_steady rec i R args r f o : iv_expl i = false -> iv_scope i = sc -> keeps_value w rd ls sc args r f o ->
    yields (steady i R) (call_lk w rec f args r) o.
  Proof.
    intros Hi Hsc [| |m Hm|g v H| |H]; cbn [call_lk].
    - apply yields_ret.
    - apply (steady_gives i R _ _ _ Hi Hsc). unfold scope_lookup. intros s Hs Ho. exists s. split; [ | apply asked_refl ].
      unfold bind, run_op, ret. rewrite Hs. reflexivity.
    - intros s (E & [K1 K2 K3] & Q & H). unfold yaml_lookup, bind at 1, run_op at 1.
      destruct (aget "yaml::data" (s_tpc s)) as [d|] eqn:Ed.
      + destruct (K3 d eq_refl) as (m' & -> & Hm'). exists s. split; [ rewrite (file_has_det _ _ (Hm []) _ (Hm' [])); reflexivity | ].
        split; [ exact E | ]. split; [ constructor; assumption || (intros d Hd; rewrite Ed in Hd; injection Hd as <-; eauto) | split; assumption ].
      + assert (Y : exists s1, file_data w false [(VStr "path", nil_to_null (w_yamlpath w))] s = (Ok m, s1) /\ asked s s1).
        { apply (gives_file_data w false _ (nil_to_null (w_yamlpath w)) m sc).
          - reflexivity.
          - exact Hm.
          - rewrite E. exact Hsc.
          - unfold off. rewrite E. exact Hi. }
        destruct Y as (s1 & E1 & (l & ->)). unfold bind at 1. unfold bind at 1. rewrite E1. unfold bind, run_op, ret. eexists. split; [ reflexivity | ].
        split; [ exact E | ]. split; [ | split; [ exact Q | exact H ] ]. constructor; [ exact K1 | exact K2 | ].
        cbn. intros d Hd. injection Hd as <-. exists m. auto.
    - apply (steady_gives i R _ _ _ Hi Hsc). apply gives_call_fn. exact H.
    - apply yields_ret.
    - destruct H as [H|pre Hn Hp].
      + intros s S. exists s. split; [ exact (C57_no_namespace w rec args r s H) | exact S ].
      + rewrite (module_lookup_inside w rec args r pre Hn). intros s S.
        destruct (module_steady i R pre None s S Hp) as (s1 & E1 & S1). unfold bind at 1. rewrite E1.
        rewrite node_off by exact (steady_off i R s1 Hi S1). unfold bind. rewrite report_off by exact (steady_off i R s1 Hi S1).
        exists s1. split; [ reflexivity | exact S1 ].
  Qed.

  (** A function that reads a configuration. *)
  Lemma site_steady N i R args r f si s : n0 <= S (S N) -> iv_expl i = false -> iv_scope i = sc -> steady i R s ->
    reads_site w rd ls sites r f si ->
    exists path rc s1, sites path = Some si /\ matches rc si /\ steady i ((path, rc) :: R) s1 /\
      call_lk w (run w (S (S N))) f args r s =
      bind (lift (new_key r)) (fun k =>
      bind (run_op OMode) (fun mode =>
      match mode with
      | MdLookup => bind (lift (lookup_options rc k)) (fun lo => ret (option_map VMap lo))
      | MdData => bind (run_op OStrat) (fun s => merge_hierarchy w (run w (S (S N))) k (rc_providers rc) s)
      | MdTop =>
        run_scoped SData
          (run_scoped (SNode NLookup (k_source k))
             (bind (lift (lookup_options rc k)) (fun lo =>
              bind (set_merge (mgets "merge" args) lo) (fun _ =>
              lookup_and_convert w
                (bind (run_op OStrat) (fun s => merge_hierarchy w (run w (S (S N))) k (rc_providers rc) s))))))
      end)) s1.
  Proof.
    intros HN Hi Hsc S [si' Hsi Hmod|pre file si' Hn Hp Hsi Hname]; cbn [call_lk].
    - destruct (config_steady N i R (w_cfgpath w) si' s HN Hi Hsc S Hsi (or_intror eq_refl)) as (rc & s1 & E1 & Hm & S1).
      exists (w_cfgpath w), rc, s1. repeat (split; [ assumption | ]). rewrite Hmod in E1.
      unfold config_lookup_at. unfold bind at 1. rewrite E1. reflexivity.
    - apply module_name_lower in Hname. rewrite (module_lookup_inside w _ args r pre Hn).
      destruct (module_steady i R pre (Some file) s S Hp) as (s1 & E1 & S1). unfold bind at 1. rewrite E1.
      rewrite node_off by exact (steady_off i R s1 Hi S1).
      destruct (config_steady N i R file si' s1 HN Hi Hsc S1 Hsi (or_introl (in_path_file _ _ _ Hp))) as (rc & s2 & E2 & Hm & S2).
      exists file, rc, s2. repeat (split; [ assumption | ]). rewrite Hname in E2.
      unfold config_lookup_at. unfold bind at 1. rewrite E2. reflexivity.
  Qed.

  (** ** The question for lookup options *)

  Lemma site_options_model rc si r lo k : matches rc si -> new_key r = Ok k -> site_options r si lo -> lookup_options rc k = Ok lo.
  Proof.
    intros (_ & H1 & H2) Hk H.
    assert (Hx : forall x, root_is r x -> root k = Ok x).
    { intros x (ps & Hx). rewrite (written_new _ _ Hx) in Hk. injection Hk as <-. reflexivity. }
    assert (Hw : forall x, concerns (si_module si) x <-> (String.eqb (rc_module rc) "" || has_prefix (rc_module rc ++ "::") x)%bool = true).
    { intro x. unfold concerns. rewrite H2, orb_true_iff, String.eqb_eq, has_prefix_app.
      split; (intros [E|(rest & E)]; [ left; exact E | right; exists rest; rewrite E; rewrite ?app_assoc_s; reflexivity ]). }
    unfold lookup_options. rewrite H1. destruct H as [x lo Hr Hin Ho|x Hr Hout]; rewrite (Hx x Hr); cbn [obind].
    - apply Hw in Hin. rewrite Hin. destruct Ho as [m o -> Hg|m -> Hg|Hn]; cbn [as_map].
      + rewrite Hg. reflexivity.
      + destruct (mgets x m) as [[]|] eqn:E; try reflexivity. destruct (Hg _ eq_refl).
      + destruct (si_options si) as [[]|]; try reflexivity. destruct (Hn _ eq_refl).
    - destruct (String.eqb (rc_module rc) "" || has_prefix (rc_module rc ++ "::") x)%bool eqn:E; [ apply Hw in E; contradiction | ].
      destruct (as_map (si_options si)); reflexivity.
  Qed.

  Lemma option_steady N i R args r f o : n0 <= S (S N) -> iv_expl i = false -> iv_scope i = sc -> iv_mode i = MdLookup ->
    correct_key r -> option_of w rd ls sc sites args r f o -> yields (steady i R) (call_lk w (run w (S (S N))) f args r) o.
  Proof.
    intros HN Hi Hsc Hm Hr [f' si lo Hf Hlo|f' o' H]; [ | exact (value_steady _ i R args r f' o' Hi Hsc H) ].
    intros s S. destruct (site_steady N i R args r f' si s HN Hi Hsc S Hf) as (path & rc & s1 & _ & Hrc & S1 & ->).
    destruct (correct_new r Hr) as (x0 & qs & _ & Hnew). exists s1. split; [ | exact (steady_less i _ R s1 (incl_tl _ (incl_refl R)) S1) ].
    unfold bind at 1, lift at 1. rewrite Hnew. unfold bind at 1, run_op at 1. rewrite (proj1 S1), Hm.
    unfold bind, lift. rewrite (site_options_model rc si r lo _ Hrc Hnew Hlo). reflexivity.
  Qed.

  Variable fs : list lkfn.

  Lemma options_steady N i R args r outs s : n0 <= S (S N) -> iv_expl i = false -> iv_scope i = sc ->
    correct_key r -> Forall2 (option_of w rd ls sc sites args r) fs outs -> steady i R s ->
    exists s', run_scoped SLookup (merging (SDeep []) fs (fun f => call_lk w (run w (S (S N))) f args r)) s
               = (Ok (pure_lookup (SDeep []) outs), s') /\ steady i R s'.
  Proof.
    intros HN Hi Hsc Hr H S0.
    assert (Y : forall j, iv_expl j = false -> iv_scope j = sc -> iv_mode j = MdLookup ->
      yields (steady j R) (merging (SDeep []) fs (fun f => call_lk w (run w (S (S N))) f args r)) (pure_lookup (SDeep []) outs)).
    { intros j Xj Sj Mj. apply (yields_picks _ (fun s => steady_off j R s Xj) lkfn _ (option_of w rd ls sc sites args r)).
      - intros f o _ Hfo. exact (option_steady N j R args r f o HN Xj Sj Mj Hr Hfo).
      - apply pk_merge; [ discriminate | exact H ]. }
    assert (Cp : forall f, iv_expl (f i) = false -> iv_scope (f i) = sc -> iv_mode (f i) = MdLookup ->
        exists s', with_copy f (merging (SDeep []) fs (fun f => call_lk w (run w (S (S N))) f args r)) s
                   = (Ok (pure_lookup (SDeep []) outs), s') /\ steady i R s').
    { intros f Xf Sf Mf. destruct (Y (f i) Xf Sf Mf (with_iv (f i) s) (steady_with_iv _ _ _ _ S0)) as (s1 & E1 & S1).
      unfold with_copy. rewrite (proj1 S0), E1. eexists. split; [ reflexivity | exact (steady_with_iv _ _ _ _ S1) ]. }
    unfold run_scoped. rewrite (proj1 S0). destruct (iv_mode i) eqn:Em.
    - apply Cp; [ destruct i; cbn in *; rewrite Hi; reflexivity | exact Hsc | reflexivity ].
    - exact (Y i Hi Hsc Em s S0).
    - apply Cp; [ destruct i; cbn in *; rewrite Hi; reflexivity | exact Hsc | reflexivity ].
  Qed.

  (** ** The question for data *)

  Section Data.
    Variables (N : nat) (i : iv) (args : entries) (r : string) (g : strategy).
    Hypothesis HN : n0 <= S (S N).
    Hypothesis Hi : iv_expl i = false.
    Hypothesis Hsc : iv_scope i = sc.
    Hypothesis Hm : iv_mode i = MdData.
    Hypothesis Hr : correct_key r.
    Let rec := run w (S (S N)).
    Let call := fun f => call_lk w rec f args r.
    Let mine := fun g' : option strategy => g' = Some g.

    (** One function, with the strategy that was set. *)
    Lemma datum_fit (K : option strategy -> Prop) (value_is : value -> option value -> Prop) : K (Some g) ->
      (forall R v o, value_is v o -> yields (fit K i R) (interpolate rec true v) o) ->
      forall R f o s, datum_of w rd ls sc sites args r value_is g f o -> fit mine i R s ->
      exists s', call f s = (Ok o, s') /\ fit K i R s'.
    Proof.
      intros Kg Hv R f o s [f' si o' Hf Hh|f' o' H] (lo & g' & -> & S).
      - destruct (site_steady N (iv_with_strat (Some g) (iv_with_luopts lo i)) R args r f' si s HN Hi Hsc S Hf) as (path & rc & s1 & Hsi & Hrc & S1 & E1).
        destruct (correct_new r Hr) as (x0 & qs & _ & Hnew). unfold call. fold rec in E1. rewrite E1.
        unfold bind at 1, lift at 1. rewrite Hnew. unfold bind at 1, run_op at 1. rewrite (proj1 S1).
        cbn [iv_with_strat iv_with_luopts iv_mode]. rewrite Hm. unfold bind at 1, run_op at 1. rewrite (proj1 S1).
        cbn [iv_with_strat iv_with_luopts iv_strat]. unfold merge_hierarchy.
        assert (F1 : fit K i ((path, rc) :: R) s1) by (exists lo, (Some g); auto).
        destruct Hrc as (Hes & _).
        assert (There : In (path, rc) ((path, rc) :: R)) by (left; reflexivity).
        assert (Hps : forall p, In p (rc_providers rc) -> exists path0 rc0, In (path0, rc0) ((path, rc) :: R) /\ In p (rc_providers rc0)).
        { intros p Hp. exists path, rc. split; [ exact There | exact Hp ]. }
        destruct (hierarchy_yields w rec sc (rc_providers rc) (fit K i ((path, rc) :: R))
                    (fun s => fit_of K i _ path rc s Hi Hsc There)
                    (fun A m a => fit_frames K i _ (rc_providers rc) A m a Hi Hsc Hps)
                    value_is (Hv _) (mk_key r (PStr x0 :: qs)) r g o' Hnew) with (s := s1) as (s2 & E2 & F2).
        + apply (proj1 (Forall_map p_entry (fun e => e_function e <> None) _)). rewrite Hes. exact (site_functions path si Hsi).
        + rewrite Hes. exact Hh.
        + exact F1.
        + exists s2. split; [ exact E2 | ]. destruct F2 as (lo' & g' & K' & S2). exists lo', g'. split; [ exact K' | ].
          exact (steady_less _ _ R s2 (incl_tl _ (incl_refl R)) S2).
      - destruct (value_steady rec (iv_with_strat (Some g) (iv_with_luopts lo i)) R args r f' o' Hi Hsc H s S) as (s' & E & S'). exists s'. split; [ exact E | ].
        exists lo, (Some g). auto.
    Qed.

    Lemma values_fit K R : forall l outs s, Forall2 (keeps_value w rd ls sc args r) l outs -> fit K i R s ->
      exists s', consults call l s outs s' /\ fit K i R s'.
    Proof.
      intros l outs s H. revert s. induction H as [|f o l outs' Hfo _ IH]; intros s F.
      - exists s. split; [ constructor | exact F ].
      - destruct (fit_all K i R _ (call f) o (fun lo g' => value_steady rec (iv_with_strat g' (iv_with_luopts lo i)) R args r f o Hi Hsc Hfo) s F) as (s1 & E1 & F1).
        destruct (IH s1 F1) as (s2 & C2 & F2). exists s2. split; [ exact (con_cons _ f l s o s1 outs' s2 E1 C2) | exact F2 ].
    Qed.

    Variable K : option strategy -> Prop.
    Variables same free : value -> option value -> Prop.
    Hypothesis Kg : K (Some g).
    Hypothesis Hsame : forall R v o, same v o -> yields (fit mine i R) (interpolate rec true v) o.
    Hypothesis Hfree : forall R v o, free v o -> yields (fit K i R) (interpolate rec true v) o.

    Lemma consulted_fit R : forall l outs s, consulted w rd ls sc sites args r same free g l outs -> fit mine i R s ->
      exists s', consults call l s outs s' /\ fit K i R s'.
    Proof.
      intros l outs s H. revert s. induction H as [|f l o outs Hf _ IH|f l o outs Hf Hl]; intros s F.
      - exists s. split; [ constructor | ]. apply (fit_weak mine K i R s); [ | exact F ]. intros g' ->. exact Kg.
      - destruct (datum_fit mine same eq_refl Hsame R f o s Hf F) as (s1 & E1 & F1).
        destruct (IH s1 F1) as (s2 & C2 & F2). exists s2. split; [ exact (con_cons _ f l s o s1 outs s2 E1 C2) | exact F2 ].
      - destruct (datum_fit K free Kg Hfree R f o s Hf F) as (s1 & E1 & F1).
        destruct (values_fit K R l outs s1 Hl F1) as (s2 & C2 & F2).
        exists s2. split; [ exact (con_cons _ f l s o s1 outs s2 E1 C2) | exact F2 ].
    Qed.

    Lemma consults_last {L} (h : L -> M st (option value)) : forall pre x s outs v s', consults h (pre ++ [x]) s (outs ++ [v]) s' ->
      exists s1, consults h pre s outs s1 /\ h x s1 = (Ok v, s').
    Proof.
      induction pre as [|y pre IH]; intros x s outs v s' H; inversion H as [|? ? ? o s1 outs' s2 E C EL Es Eo]; subst.
      - destruct outs as [|o' outs]; cbn [app] in *.
        + match goal with Q : _ :: _ = [v] |- _ => injection Q as -> -> end. inversion C; subst. exists s. split; [ constructor | exact E ].
        + match goal with Q : _ :: _ = _ :: _ |- _ => injection Q as -> -> end. inversion C. destruct outs; discriminate.
      - destruct outs as [|o' outs]; cbn [app] in *.
        + match goal with Q : _ :: _ = [v] |- _ => injection Q as -> -> end. inversion C. destruct pre; discriminate.
        + match goal with Q : _ :: _ = _ :: _ |- _ => injection Q as -> -> end.
          destruct (IH x s1 outs v s' C) as (s3 & C3 & E3). exists s3. split; [ exact (con_cons _ y pre s o' s1 outs s3 E C3) | exact E3 ].
    Qed.

    Lemma picked_fit R l v s : picked w rd ls sc sites args r same free g l v -> fit mine i R s ->
      exists s', taken call g l s v s' /\ fit K i R s'.
    Proof.
      intros [pre f post outs v' Eg Hn Hc|l' outs Eg Hn Hc|l' outs Hg Hc] F;
        destruct (consulted_fit R _ _ s Hc F) as (s' & C & F'); exists s'; (split; [ | exact F' ]).
      - rewrite Eg. destruct (consults_last call pre f s outs (Some v') s' C) as (s1 & C1 & E1).
        exact (tk_first call pre f post s outs s1 v' s' C1 (proj1 (Forall_forall _ _) Hn) E1).
      - rewrite Eg. exact (tk_none call l' s outs s' C (proj1 (Forall_forall _ _) Hn)).
      - exact (tk_merge call g l' s outs s' Hg C).
    Qed.
  End Data.

  Lemma merge_set i R opts lo mo g s : iv_expl i = false -> merge_option opts lo mo -> strategy_is mo g -> steady i R s ->
    exists s', set_merge (mgets "merge" (match opts with Some o => o | None => [] end)) lo s = (Ok tt, s') /\
               steady (iv_with_strat (Some g) (iv_with_luopts lo i)) R s'.
  Proof.
    intros Hi Hmo Hg S0. exists (with_iv (iv_with_strat (Some g) (iv_with_luopts lo i)) s).
    split; [ | exact (steady_with_iv _ _ _ _ S0) ].
    pose proof (steady_off i R s Hi S0) as Ho. unfold set_merge.
    assert (E : (match mgets "merge" (match opts with Some o => o | None => [] end), lo with
                 | Some v, _ => bind (run_op (OReport (RMergeSource "CLI option"))) (fun _ => ret (Some v))
                 | None, Some m =>
                     match mgets "merge" m with
                     | Some v => bind (run_op (OReport (RMergeSource """lookup_options"" hash"))) (fun _ => ret (Some v))
                     | None => ret None
                     end
                 | None, None => ret None
                 end) s = (Ok mo, s)).
    { destruct Hmo as [o v -> Hv|l v Hn -> Hv|Hn Hl].
      - rewrite Hv. unfold bind. rewrite report_off by exact Ho. reflexivity.
      - assert (E0 : mgets "merge" (match opts with Some o => o | None => [] end) = None)
          by (destruct opts; [ exact (Hn _ eq_refl) | reflexivity ]).
        rewrite E0, Hv. unfold bind. rewrite report_off by exact Ho. reflexivity.
      - assert (E0 : mgets "merge" (match opts with Some o => o | None => [] end) = None)
          by (destruct opts; [ exact (Hn _ eq_refl) | reflexivity ]).
        rewrite E0. destruct lo as [l|]; [ rewrite (Hl l eq_refl) | ]; reflexivity. }
    unfold bind at 1. rewrite E. unfold bind, lift, run_op. rewrite (strategy_model _ _ Hg). cbn [with_iv s_iv].
    rewrite (proj1 S0). reflexivity.
  Qed.

  (** The value under the root of the key, converted. *)
  Lemma data_fit N i R r opts lo mo g c v x (K : option strategy -> Prop) (same free : value -> option value -> Prop) s :
    n0 <= S (S N) -> iv_expl i = false -> iv_scope i = sc -> iv_mode i = MdData -> correct_key r -> K (Some g) ->
    (forall b R v o, same v o -> yields (fit (fun g' => g' = Some g) (iv_with_redacted b i) R) (interpolate (run w (S (S N))) true v) o) ->
    (forall b R v o, free v o -> yields (fit K (iv_with_redacted b i) R) (interpolate (run w (S (S N))) true v) o) ->
    merge_option opts lo mo -> strategy_is mo g -> conversion_is lo c ->
    picked w rd ls sc sites (match opts with Some o => o | None => [] end) r same free g fs v ->
    converted w c v x -> steady i R s ->
    exists s', (bind (lift (new_key r)) (fun k =>
                run_scoped (SNode NLookup (k_source k))
                  (bind (set_merge (mgets "merge" (match opts with Some o => o | None => [] end)) lo) (fun _ =>
                   lookup_and_convert w
                     (bind (run_op OStrat) (fun s =>
                      match s with
                      | None => panic nil_deref
                      | Some s => merging s fs (fun f => call_lk w (run w (S (S N))) f (match opts with Some o => o | None => [] end) r)
                      end)))))) s = (Ok x, s') /\ fit K i R s'.
  Proof.
    intros HN Hi Hsc Hm Hr Kg Hsame Hfree Hmo Hst Hc Hpk Hx S0. set (o := match opts with Some o => o | None => [] end) in *.
    destruct (correct_new r Hr) as (x0 & qs & _ & Hnew).
    unfold bind at 1, lift at 1. rewrite Hnew. rewrite node_off by exact (steady_off i R s Hi S0).
    destruct (merge_set i R opts lo mo g s Hi Hmo Hst S0) as (s1 & E1 & S1). fold o in E1.
    unfold bind at 1. rewrite E1. set (i1 := iv_with_strat (Some g) (iv_with_luopts lo i)) in *.
    set (fn := bind (run_op OStrat) _).
    assert (FN : forall b t, steady (iv_with_redacted b i1) R t ->
              exists t', fn t = (Ok v, t') /\ fit K (iv_with_redacted b i) R t').
    { intros b t St.
      destruct (picked_fit N (iv_with_redacted b i) o r g HN Hi Hsc Hm Hr K same free Kg (Hsame b) (Hfree b) R fs v t Hpk) as (t' & T & F').
      { exists lo, (Some g). split; [ reflexivity | ]. destruct i; exact St. }
      exists t'. split; [ | exact F' ]. unfold fn. unfold bind, run_op. rewrite (proj1 St). cbn [i1 iv_with_redacted iv_with_strat iv_strat].
      exact (merging_taken _ (call_off w (S (S N)) o r) g fs t v t' (steady_off (iv_with_redacted b i1) R t Hi St) T). }
    assert (Ri : forall j, iv_with_redacted (iv_redacted j) j = j) by (intros []; reflexivity).
    assert (Plain : exists s', fn s1 = (Ok v, s') /\ fit K i R s').
    { destruct (FN (iv_redacted i) s1) as (s' & E & L).
      - replace (iv_redacted i) with (iv_redacted i1) by reflexivity. rewrite Ri. exact S1.
      - rewrite Ri in L. exists s'. split; assumption. }
    assert (Red : exists s', run_scoped SRedacted fn s1 = (Ok v, s') /\ fit K i R s').
    { unfold run_scoped. rewrite (proj1 S1). change (iv_redacted i1) with (iv_redacted i).
      destruct (iv_redacted i) eqn:Er; [ exact Plain | ].
      destruct (FN true (with_iv (iv_with_redacted true i1) s1) (steady_with_iv _ _ _ _ S1)) as (s' & E & (lo' & g' & Kg' & S')).
      rewrite E. eexists. split; [ reflexivity | ]. exists lo', g'. split; [ exact Kg' | ]. rewrite (proj1 S').
      replace (iv_with_redacted false (iv_with_strat g' (iv_with_luopts lo' (iv_with_redacted true i))))
        with (iv_with_strat g' (iv_with_luopts lo' i)) by (destruct i; cbn in *; subst; reflexivity).
      exact (steady_with_iv _ _ _ _ S'). }
    assert (Any : forall ty (a : option (list value)),
      exists s', (match Some (ty, a) with Some (CSensitive, _) => run_scoped SRedacted fn | _ => fn end) s1 = (Ok v, s')
                 /\ fit K i R s').
    { intros [|t] a; [ exact Red | exact Plain ]. }
    unfold lookup_and_convert, extract_conversion. unfold bind at 1. unfold bind at 1. unfold run_op at 1.
    rewrite (proj1 S1). cbn [i1 iv_with_strat iv_with_luopts iv_luopts]. rewrite (conversion_model lo c Hc).
    destruct Hx as [o'|t a ty Ht|t y Ht|t a ty y y' Ht Hty Hy]; cbn [option_map fst snd].
    - unfold ret at 1. destruct Plain as (s2 & E2 & L2). unfold bind at 1. rewrite E2. exists s2. split; [ | exact L2 ]. destruct o'; reflexivity.
    - unfold bind at 1, lift at 1. rewrite Ht. unfold ret at 1. destruct (Any ty a) as (s2 & E2 & L2).
      unfold bind at 1. rewrite E2. exists s2. split; [ reflexivity | exact L2 ].
    - unfold bind at 1, lift at 1. rewrite Ht. unfold ret at 1. destruct (Any CSensitive None) as (s2 & E2 & L2).
      unfold bind at 1. rewrite E2. exists s2. split; [ reflexivity | exact L2 ].
    - unfold bind at 1, lift at 1. rewrite Ht. unfold ret at 1. destruct (Any ty a) as (s2 & E2 & L2).
      unfold bind at 1. rewrite E2. exists s2. split; [ | exact L2 ]. unfold bind, lift, convert, ret.
      destruct ty as [|tt]; [ destruct a as [a|]; [ | destruct Hty; congruence ] | ]; rewrite Hy; reflexivity.
  Qed.

  (** ** Nested lookups *)

  Hypothesis Hmux : w_mux w = Some fs.
  Hypothesis Htop : w_top w = LkMux.

  Definition only (allowed : strategy -> Prop) (K : option strategy -> Prop) : Prop := forall g, allowed g -> K (Some g).

  Lemma answers_fit : forall n i, iv_expl i = false -> iv_scope i = sc -> iv_mode i = MdData ->
    forall allowed K R, only allowed K -> forall q o, answers_among w rd ls sc sites fs n allowed q o ->
    match q with
    | QStr t => exists b, (b = false -> o = Some (VStr t)) /\ yields (fit K i R) (run w (2 * n + (n0 + 2)) (RStr t true)) (o, b)
    | QKey k => exists b, yields (fit K i R) (run w (2 * n + (n0 + 2)) (RLookup k None)) (o, b)
    end.
  Proof.
    induction n as [|n IH]; intros i Hi Hsc Hm allowed K R HK q o H; [ destruct H | ].
    set (F := 2 * n + (n0 + 2)) in *. replace (2 * S n + (n0 + 2)) with (S (S F)) by (unfold F; lia).
    change (run w (S (S F))) with (body w (run w (S F))).
    assert (Hs : forall i, iv_expl i = false -> iv_scope i = sc -> iv_mode i = MdData -> forall allowed K R, only allowed K ->
       forall t o, answers_among w rd ls sc sites fs n allowed (QStr t) o ->
       forall N, F <= N -> exists b, (b = false -> o = Some (VStr t)) /\ yields (fit K i R) (run w N (RStr t true)) (o, b)).
    { intros j Xj Sj Mj al K' R' HK' t o' Ht N HN. destruct (IH j Xj Sj Mj al K' R' HK' (QStr t) o' Ht) as (b & B & Y).
      exists b. split; [ exact B | exact (yields_more w _ _ N _ _ HN Y) ]. }
    assert (Hl : forall k o, answers_among w rd ls sc sites fs n allowed (QKey k) o ->
       exists b, yields (fit K i R) (run w (S F) (RLookup k None)) (o, b)).
    { intros k o' Hk. destruct (IH i Hi Hsc Hm allowed K R HK (QKey k) o' Hk) as (b & Y).
      exists b. refine (yields_more w _ _ (S F) _ _ _ Y). lia. }
    assert (Hv : forall j, iv_expl j = false -> iv_scope j = sc -> iv_mode j = MdData -> forall allowed K R, only allowed K ->
       forall N, F <= N -> forall v o,
       value_is (fun t => answers_among w rd ls sc sites fs n allowed (QStr t)) v o ->
       yields (fit K j R) (interpolate (run w N) true v) o).
    { intros j Xj Sj Mj al K' R' HK' N HN. apply (yields_interpolate (fit K' j R') (run w N)).
      intros t o' Ht. exact (Hs j Xj Sj Mj al K' R' HK' t o' Ht N HN). }
    assert (Poff : forall s, fit K i R s -> off s) by (intro s0; exact (fit_off K i R s0 Hi)).
    assert (Psc : forall s, fit K i R s -> iv_scope (s_iv s) = sc) by (intros s0 Q; rewrite <- Hsc; exact (fit_scope K i R s0 Q)).
    destruct q as [t|k]; cbn [answers_among] in H.
    - refine (yields_string w sc (fit K i R) Poff Psc (run w (S F)) _ _ _ Hl t o H).
      intros t' o' Ht'. exact (Hs i Hi Hsc Hm allowed K R HK t' o' Ht' (S F) ltac:(lia)).
    - exists true. cbn [body]. eapply yields_bind with (a := o); [ | apply yields_ret ].
      destruct H as [(ps & Ek & ->)|(r & rest & x & Ek & Hr & Hp & (outs & lo & mo & g & c & v & Ho & Hlo & Hmo & Hst & Hg & Hc & Hpk & Hx) & Hfo)].
      { unfold lookup. eapply yields_bind with (a := "lookup_options"); [ apply yields_lift; unfold root; rewrite Ek; reflexivity | ].
        rewrite String.eqb_refl. apply yields_node; [ exact Poff | ].
        eapply yields_bind; [ apply yields_report; exact Poff | apply yields_ret ]. }
      unfold lookup. eapply yields_bind with (a := r); [ apply yields_lift; unfold root; rewrite Ek; reflexivity | ].
      apply String.eqb_neq in Hr. rewrite Hr. rewrite Htop. cbn [call_lk].
      eapply yields_bind with (a := x).
      + eapply yields_bind with (a := (x, true)); [ | apply yields_ret ].
        change (run w (S F) (RMux [] r)) with (bind (mux_lookup w (run w F) [] r) (fun v => ret (v, true))).
        eapply yields_bind; [ | apply yields_ret ].
        assert (EF : exists N, F = S (S N)) by (exists (2 * n + n0); unfold F; lia). destruct EF as (N & EF).
        assert (HN : n0 <= S (S N)) by (unfold F in EF; lia).
        intros s (lo0 & g0 & Kg0 & S0). set (j := iv_with_strat g0 (iv_with_luopts lo0 i)) in *.
        unfold mux_lookup. rewrite Hmux. rewrite EF.
        destruct (options_steady N j R [] r outs s HN Hi Hsc Hp Ho S0) as (s1 & E1 & S1).
        unfold bind at 1. rewrite E1. unfold run_scoped at 1. rewrite (proj1 S1). change (iv_mode j) with (iv_mode i). rewrite Hm.
        rewrite (map_of_model _ _ Hlo).
        destruct (data_fit N j R r None lo mo g c v x K
                    (value_is (fun t => answers_among w rd ls sc sites fs n (fun g' => g' = g) (QStr t)))
                    (value_is (fun t => answers_among w rd ls sc sites fs n allowed (QStr t)))
                    s1 HN Hi Hsc Hm Hp (HK g Hg)) as (s2 & E2 & F2); try assumption.
        * intros b R' v' o' Hvo. refine (Hv (iv_with_redacted b j) Hi Hsc Hm _ _ R' _ (S (S N)) _ v' o' Hvo); [ | lia ].
          intros g1 ->. reflexivity.
        * intros b R' v' o' Hvo. refine (Hv (iv_with_redacted b j) Hi Hsc Hm _ _ R' HK (S (S N)) _ v' o' Hvo). lia.
        * exists s2. split; [ exact E2 | exact (fit_set _ _ _ _ _ _ F2) ].
      + destruct x as [x|]; [ | cbn in Hfo; subst o; apply yields_ret ]. destruct Hfo as (y & Hy & Hdig).
        intros s0 Q. assert (Em : iv_mode (s_iv s0) = MdData) by (destruct Q as (lo' & g' & _ & E & _); rewrite E; exact Hm).
        unfold run_scoped. rewrite Em. revert s0 Q Em.
        enough (Y : yields (fit K i R) (bind (interpolate (run w (S F)) true x) (dig_in k)) o) by (intros s0 L _; exact (Y s0 L)).
        eapply yields_bind; [ exact (Hv i Hi Hsc Hm allowed K R HK (S F) ltac:(lia) x y Hy) | ].
        destruct k as [ks kp]. cbn in Ek. subst kp. exact (digs_dig _ Poff ks r rest y o Hdig).
  Qed.

  (** ** A lookup by a user *)

  Lemma lookup_steady n N k opts o s : 2 * n + (n0 + 2) <= S (S N) -> steady (new_iv sc false) [] s ->
    gives_among w rd ls sc sites fs n k opts o ->
    exists s', lookup w (run w (S (S (S N)))) k opts s = (Ok o, s') /\ kept_over s'.
  Proof.
    intros HN S0 H. set (i0 := new_iv sc false) in *. set (op := match opts with Some o => o | None => [] end).
    assert (Fin : forall K i s, fit K i [] s -> kept_over s) by (intros K i t (lo & g & _ & _ & Q & _); exact Q).
    assert (Hv : forall j, iv_expl j = false -> iv_scope j = sc -> iv_mode j = MdData -> forall allowed K R, only allowed K ->
       forall M, S (S N) <= M -> forall v o,
       value_is (fun t => answers_among w rd ls sc sites fs n allowed (QStr t)) v o ->
       yields (fit K j R) (interpolate (run w M) true v) o).
    { intros j Xj Sj Mj al K' R' HK' M0 HM. apply (yields_interpolate (fit K' j R') (run w M0)).
      intros t o' Ht. destruct (answers_fit n j Xj Sj Mj al K' R' HK' (QStr t) o' Ht) as (b & B & Y).
      exists b. split; [ exact B | ]. refine (yields_more w _ _ M0 _ _ _ Y). lia. }
    destruct H as [(ps & Ek & ->)|(r & rest & x & Ek & Hr & Hp & (outs & lo & mo & g & c & v & Ho & Hlo & Hmo & Hst & Hg & Hc & Hpk & Hx) & Hfo)].
    { exists s. split; [ | exact (proj1 (proj2 S0)) ]. unfold lookup. unfold bind at 1, lift at 1, root at 1. rewrite Ek, String.eqb_refl.
      pose proof (steady_off i0 [] s eq_refl S0) as Hoff. rewrite node_off by exact Hoff. unfold bind. rewrite report_off by exact Hoff. reflexivity. }
    fold op in Ho, Hpk.
    set (any := fun _ : option strategy => True). assert (HK : only (fun _ => True) any) by (intros g' _; exact I).
    set (fd := fun (e : explainer) (j : iv) => iv_with_mode MdData (iv_with_expl (iv_expl j && negb (x_only e)) j)).
    assert (E2 : exists s2, mux_lookup w (run w (S (S N))) op r s = (Ok x, s2) /\ steady i0 [] s2).
    { unfold mux_lookup. rewrite Hmux.
      destruct (options_steady N i0 [] op r outs s ltac:(lia) eq_refl eq_refl Hp Ho S0) as (s1 & E1 & S1).
      unfold bind at 1. rewrite E1. rewrite (map_of_model _ _ Hlo).
      unfold run_scoped at 1. rewrite (proj1 S1). cbn [i0 new_iv iv_mode].
      unfold with_copy. rewrite (proj1 S1). fold (fd (s_ex s1) i0).
      destruct (data_fit N (fd (s_ex s1) i0) [] r opts lo mo g c v x any
                  (value_is (fun t => answers_among w rd ls sc sites fs n (fun g' => g' = g) (QStr t)))
                  (value_is (fun t => answers_among w rd ls sc sites fs n (fun _ => True) (QStr t)))
                  (with_iv (fd (s_ex s1) i0) s1)) as (s2 & E2 & (lo' & g' & _ & S2));
        try assumption; try reflexivity; try lia; [ | | exact (steady_with_iv _ _ _ _ S1) | ].
      - intros b R v' o' Hv'. refine (Hv _ _ _ _ _ _ R _ (S (S N)) (le_n _) v' o' Hv'); try reflexivity. intros g1 ->. reflexivity.
      - intros b R v' o' Hv'. refine (Hv _ _ _ _ _ _ R HK (S (S N)) (le_n _) v' o' Hv'); reflexivity.
      - fold op in E2.
        match goal with |- context [let (_, _) := ?t in _] => replace t with (Ok x, s2) by (symmetry; exact E2) end.
        eexists. split; [ reflexivity | ]. exact (steady_with_iv _ _ _ _ S2). }
    destruct E2 as (s2 & E2 & S2).
    unfold lookup. unfold bind at 1, lift at 1, root at 1. rewrite Ek.
    apply String.eqb_neq in Hr. rewrite Hr. rewrite Htop. cbn [call_lk]. fold op.
    change (run w (S (S (S N))) (RMux op r)) with (bind (mux_lookup w (run w (S (S N))) op r) (fun v => ret (v, true))).
    unfold bind at 1. unfold bind at 1. unfold bind at 1. rewrite E2. cbn [ret fst].
    destruct x as [x|].
    - destruct Hfo as (y & Hy & Hdig). unfold run_scoped. rewrite (proj1 S2). cbn [i0 new_iv iv_mode].
      unfold with_copy. rewrite (proj1 S2). fold (fd (s_ex s2) i0).
      assert (Y : yields (fit any (fd (s_ex s2) i0) []) (bind (interpolate (run w (S (S (S N)))) true x) (dig_in k)) o).
      { eapply yields_bind with (a := y).
        - refine (Hv _ _ _ _ _ _ [] HK (S (S (S N))) _ x y Hy); [ reflexivity | reflexivity | reflexivity | lia ].
        - destruct k as [ks kp]. cbn in Ek. subst kp.
          refine (digs_dig _ _ ks r rest y o Hdig). intro t. apply fit_off. reflexivity. }
      destruct (Y (with_iv (fd (s_ex s2) i0) s2) (steady_fit any _ [] _ I (steady_with_iv _ _ _ _ S2))) as (s3 & E3 & F3).
      match goal with |- context [let (_, _) := ?t in _] => replace t with (Ok o, s3) by (symmetry; exact E3) end.
      eexists. split; [ reflexivity | ]. destruct (Fin _ _ _ F3). constructor; assumption.
    - cbn in Hfo. subst o. exists s2. split; [ reflexivity | exact (proj1 (proj2 S2)) ].
  Qed.
End Modules.
