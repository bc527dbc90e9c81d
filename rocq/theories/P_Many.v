(** C86: sessions in which the configuration is one of several functions that are
    asked, as in the lookup command and the REST service. *)

From Coq Require Import String Ascii List ZArith Bool Arith Lia.
From Verif Require Import Str Value Outcome Key Merge Fpath Config Ipl Explain State Engine Session Worlds
  SpecKey SpecKeyErr SpecIpl SpecInterp SpecConfig SpecMerge SpecPath SpecLookup SpecExplain SpecFail SpecMux SpecMany SpecWorld SpecDeep Transparent
  KeyFacts KeyErrFacts ValueFacts MergeLookup StrFacts IplFacts InterpFacts IplExact Fuel ResolveFacts LookupTop SettledLookup ExLevels
  AnswerFacts FailMore FailTop P_Lookup P_Nested P_Fail RootFacts Cycles Decided DecidedOptions DecidedTop P_Complete DeepExact DeepEntry
  DeepConfig ConfigEnds P_MuxLookup P_Deep ManyNested ManyTop.
Import ListNotations.
Open Scope nat_scope.
Open Scope string_scope.
Open Scope list_scope.

(** A world whose files stay as they are, in which the functions [pre], the
    configuration and the functions [post] are asked. *)
Record asks (w : world) (on_disk : string -> bool) (matching : string -> list string) (file : cfg_file) (pre post : list lkfn) : Prop := mk_asks {
  ak_stat : forall t p, w_stat w t p = on_disk p;
  ak_glob : forall t p, w_glob w t p = matching p;
  ak_top : w_top w = LkMux;
  ak_functions : w_mux w = Some (pre ++ LkConfig :: post);
  ak_before : Forall (replies w) pre;
  ak_after : Forall (replies w) post;
  ak_config : forall t, w_config w t (w_cfgpath w) = file;
  ak_orderly : forall v, file = CfYaml v -> wf v = true
}.

(** What a request must come to. *)
Definition ends_as (w : world) (on_disk : string -> bool) (matching : string -> list string) (c : config) (fs : list lkfn) (n : nat)
           (q : request) (o : outcome (option value)) : Prop :=
  match o with
  | Ok v => (for_options q /\ v = None) \/
            exists es, hierarchy_in w on_disk matching n (q_scope q) c es /\
                       many_gives w (q_scope q) es fs n (q_key q) (q_opts q) v
  | Panic x => (~ for_options q /\ hierarchy_not w on_disk matching n (q_scope q) c x) \/
               exists es, hierarchy_in w on_disk matching n (q_scope q) c es /\
                          many_breaks w (q_scope q) es fs n (q_key q) (q_opts q) x
  | _ => False
  end.

(** What a session must come to. *)
Inductive session_among (w : world) (on_disk : string -> bool) (matching : string -> list string) (file : cfg_file) (fs : list lkfn) (n : nat)
          (rs : list request) (os : list (outcome (option value))) : Prop :=
| sa_config : forall c, config_new (w_env w) (w_cfgpath w) file = Ok c ->
    Forall2 (ends_as w on_disk matching c fs n) rs os -> session_among w on_disk matching file fs n rs os
| sa_no_config : forall x, config_new (w_env w) (w_cfgpath w) file = Panic x ->
    without_config (Panic x) rs os -> session_among w on_disk matching file fs n rs os.

(** ** With a configuration *)
Section Config.
  Variables (w : world) (od : string -> bool) (mt : string -> list string) (file : cfg_file) (pre post : list lkfn) (c : config).
  Hypothesis Hst : asks w od mt file pre post.
  Hypothesis Hconf : config_new (w_env w) (w_cfgpath w) file = Ok c.
  Hypothesis Hw : dependable w.
  Let fs := pre ++ LkConfig :: post.

  Let both n := bind (create_providers w (run w n) c (c_hierarchy c)) (fun ps =>
    bind (create_providers w (run w n) c (c_default_hierarchy c)) (fun ds => ret (ps, ds))).

  (** What the configuration is resolved to does not depend on the steps. *)
  Lemma resolved_more n n' sc : (forall x v, scope_get sc x = Some v -> wf v = true) -> n <= n' ->
    (forall es, hierarchy_in w od mt n sc c es -> hierarchy_in w od mt n' sc c es) /\
    (forall x, hierarchy_not w od mt n sc c x -> hierarchy_not w od mt n' sc c x).
  Proof.
    intros Hv Hn. destruct Hst as [H1 H2 H3 H4 H5 H6 H7 H8].
    assert (Base : iv_scope (s_iv (base sc)) = sc /\ off (base sc)) by (split; reflexivity). destruct Base as [B1 B2].
    assert (Set' : (exists es, hierarchy_in w od mt n' sc c es) \/ (exists x, hierarchy_not w od mt n' sc c x) \/ endless sc (both n')).
    { apply (hierarchy_settles w n' od mt sc c H1 H2 Hv). intros e o He Eo. exact (orderly_config _ _ _ _ H8 Hconf e He o Eo). }
    split.
    - intros es Hh. pose proof (created_more w n n' sc c es Hn (hierarchy_made w n od mt sc c H1 H2 es Hh)) as [_ Hc].
      destruct (Hc (base sc) B1 B2) as (ps & s1 & ds & qs & s2 & E1 & N1 & E2 & N2).
      destruct Set' as [(es' & Hh')|[(x & Hx)|Hx]].
      + destruct (proj2 (hierarchy_made w n' od mt sc c H1 H2 es' Hh') (base sc) B1 B2) as (ps' & s1' & ds' & qs' & s2' & E1' & N1' & _ & _).
        rewrite E1 in E1'. injection E1' as <- <-. rewrite <- (n_entries _ _ _ _ N1). rewrite (n_entries _ _ _ _ N1'). exact Hh'.
      + exfalso. destruct (hierarchy_refused w n' od mt sc c H1 H2 x Hx (base sc) B1 B2) as (s' & E & _).
        unfold bind in E. rewrite E1, E2 in E. discriminate E.
      + exfalso. specialize (Hx (base sc) B1 B2). unfold both, bind in Hx. rewrite E1, E2 in Hx. discriminate Hx.
    - intros x Hx. pose proof (refused_more w n n' sc c x Hn (hierarchy_refused w n od mt sc c H1 H2 x Hx)) as Hr.
      destruct (Hr (base sc) B1 B2) as (s' & E & _).
      destruct Set' as [(es' & Hh')|[(x' & Hx')|Hx']].
      + exfalso. destruct (proj2 (hierarchy_made w n' od mt sc c H1 H2 es' Hh') (base sc) B1 B2) as (ps' & s1' & ds' & qs' & s2' & E1' & N1' & E2' & _).
        unfold bind in E. rewrite E1', E2' in E. discriminate E.
      + destruct (hierarchy_refused w n' od mt sc c H1 H2 x' Hx' (base sc) B1 B2) as (s'' & E' & _). rewrite E in E'. injection E' as <- _. exact Hx'.
      + exfalso. specialize (Hx' (base sc) B1 B2). unfold both in Hx'. rewrite E in Hx'. discriminate Hx'.
  Qed.

  Lemma options_more sc es m n all : m <= n -> all_options w sc es m all -> all_options w sc es n all.
  Proof.
    induction 1 as [|n H IH]; [ auto | ]. intro Ha. eapply hierarchy_gives_more; [ | exact (IH Ha) ]. exact (value_in_step w sc es Options n).
  Qed.
  Lemma options_fail_more sc es m n x : m <= n ->
    hierarchy_fails w sc (value_in w sc es Options m) (fails_in w sc es Options m) "lookup_options" (SDeep []) es x ->
    hierarchy_fails w sc (value_in w sc es Options n) (fails_in w sc es Options n) "lookup_options" (SDeep []) es x.
  Proof.
    induction 1 as [|n H IH]; [ auto | ]. intro Ha.
    eapply hierarchy_fails_more; [ | | exact (IH Ha) ]; [ exact (value_in_step w sc es Options n) | exact (fails_in_step w sc es Options n) ].
  Qed.

  (** Lookups that end where the configuration does. *)
  Lemma lookup_ends F q r ps o s : wellformed q -> k_parts (q_key q) = PStr r :: ps -> r <> "lookup_options" -> (forall rc, o <> Ok rc) -> fresh w c s ->
    (forall t, iv_scope (s_iv t) = q_scope q -> off t -> s_configs t = [] -> shared_ok w c t ->
      exists t', get_config w (run w F) (w_cfgpath w) "" t = (o, t') /\ (o = NoFuel \/ aget (w_cfgpath w) (s_shared t') = Some (ShLoaded c))) ->
    exists s', lookup w (run w (S F)) (q_key q) (q_opts q) (invocation (q_scope q) false s) = (recast o, s') /\
      (o = NoFuel \/ aget (w_cfgpath w) (s_shared s') = Some (ShLoaded c)).
  Proof.
    intros [_ Hv] Hk Hr Hno Hs Hget.
    apply (run_stops w pre post (ak_top _ _ _ _ _ _ Hst) (ak_functions _ _ _ _ _ _ Hst) (ak_before _ _ _ _ _ _ Hst) Hw (q_scope q) Hv F o
             (fun sh => o = NoFuel \/ aget (w_cfgpath w) sh = Some (ShLoaded c)) (invocation (q_scope q) false s) Hno eq_refl eq_refl) with (r := r) (ps := ps);
      [ | exact Hk | exact Hr ].
    intros t Ts To Tc Th. apply Hget; [ exact Ts | exact To | exact Tc | ].
    unfold shared_ok. rewrite Th. exact Hs.
  Qed.

  Lemma one_ends n N q o s : n <= S (S N) -> wellformed q -> ends_as w od mt c fs n q o -> fresh w c s ->
    exists s', run_lookup w (S (S (S (S N)))) (q_key q) (q_opts q) (invocation (q_scope q) false s) = (o, s') /\ fresh w c s'.
  Proof.
    intros HN Hq Hl Hs. destruct Hst as [H1 H2 H3 H4 H5 H6 H7 H8]. destruct Hq as [(r & ps & Hk) Hv].
    set (sc := q_scope q) in *.
    assert (Made : forall es, hierarchy_in w od mt n sc c es -> created w (S (S N)) sc c es)
      by (intros es Hh; exact (created_more w n (S (S N)) sc c es HN (hierarchy_made w n od mt sc c H1 H2 es Hh))).
    assert (Q : exists s', lookup w (run w (S (S (S N)))) (q_key q) (q_opts q) (invocation sc false s) = (o, s') /\ fresh w c s').
    { destruct o as [v|x| |]; cbn [ends_as] in Hl; try contradiction.
      - destruct Hl as [[(ps' & Ek) ->]|(es & Hh & all & Ha & Hl)].
        + eexists. split; [ apply options_lookup with (ps := ps'); [ exact Ek | reflexivity ] | exact Hs ].
        + destruct (many_run w pre post H3 H4 H5 H6 Hw sc Hv c file H7 Hconf N es (Made es Hh) n all HN Ha (invocation sc false s) eq_refl
                      (ready_new w c es all (invocation sc false s) eq_refl Hs) n (q_key q) (q_opts q) v HN Hl) as (s' & E & _ & R).
          exists s'. split; [ exact E | exact (ready_shared w c es all s' R) ].
      - assert (Stop : ~ for_options q ->
          (forall t, iv_scope (s_iv t) = sc -> off t -> s_configs t = [] -> shared_ok w c t ->
            exists t', get_config w (run w (S (S N))) (w_cfgpath w) "" t = (Panic x, t') /\ aget (w_cfgpath w) (s_shared t') = Some (ShLoaded c)) ->
          exists s', lookup w (run w (S (S (S N)))) (q_key q) (q_opts q) (invocation sc false s) = (Panic x, s') /\ fresh w c s').
        { intros Hr Hget. destruct (root_cases q r ps Hk) as [C|[_ Hr']]; [ contradiction | ].
          destruct (lookup_ends (S (S N)) q r ps (Panic x) s (conj (ex_intro _ r (ex_intro _ ps Hk)) Hv) Hk Hr' ltac:(discriminate) Hs) as (s' & E & K).
          - intros t T1 T2 T3 T4. destruct (Hget t T1 T2 T3 T4) as (t' & E & K). exists t'. split; [ exact E | right; exact K ].
          - exists s'. split; [ exact E | ]. destruct K as [K|K]; [ discriminate K | right; exact K ]. }
        destruct Hl as [[Hr Hx]|(es & Hh & [r' ps' Hk' Hr' Hx|all Ha Hx])].
        + apply (Stop Hr). intros t T1 T2 T3 T4.
          apply (get_refused w (S (S N)) sc file H7 c Hconf x t); try assumption.
          exact (refused_more w n (S (S N)) sc c x HN (hierarchy_refused w n od mt sc c H1 H2 x Hx)).
        + apply Stop.
          * intros (ps2 & E). congruence.
          * intros t T1 T2 T3 T4. exact (get_options_fail w n N sc c file es x t H7 Hconf HN (Made es Hh) Hx T1 T2 T3 T4).
        + exact (many_failing w pre post H3 H4 H5 H6 Hw sc Hv c file H7 Hconf N es (Made es Hh) n all HN Ha (invocation sc false s) eq_refl
                   (ready_new w c es all (invocation sc false s) eq_refl Hs) n (q_key q) (q_opts q) x HN Hx). }
    destruct Q as (s' & E & Hs'). exists s'. rewrite run_lookup_bind. unfold bind. rewrite E. split; [ | exact Hs' ].
    destruct o; reflexivity.
  Qed.

  Lemma one_outcome N q s : wellformed q -> fresh w c s ->
    fst (run_lookup w (S (S (S (S N)))) (q_key q) (q_opts q) (invocation (q_scope q) false s)) = NoFuel \/
    exists o, ends_as w od mt c fs (S (S (S (S N)))) q o.
  Proof.
    intros Hq Hs. pose proof Hq as [(r & ps & Hk) Hv]. pose proof Hst as [H1 H2 H3 H4 H5 H6 H7 H8].
    destruct (root_cases q r ps Hk) as [Hr|[Hr Hr']]; [ right; exists (Ok None); left; auto | ].
    set (sc := q_scope q) in *.
    assert (Up : S (S N) <= S (S (S (S N)))) by lia. destruct (resolved_more _ _ sc Hv Up) as [UpIn UpNot].
    assert (Hend : fst (lookup w (run w (S (S (S N)))) (q_key q) (q_opts q) (invocation sc false s)) = NoFuel ->
      fst (run_lookup w (S (S (S (S N)))) (q_key q) (q_opts q) (invocation sc false s)) = NoFuel).
    { intro H. rewrite run_lookup_bind. apply fst_bind. apply fst_bind. exact H. }
    assert (Stop : (forall t, iv_scope (s_iv t) = sc -> off t -> s_configs t = [] -> shared_ok w c t ->
        fst (get_config w (run w (S (S N))) (w_cfgpath w) "" t) = NoFuel) ->
      fst (run_lookup w (S (S (S (S N)))) (q_key q) (q_opts q) (invocation sc false s)) = NoFuel).
    { intro Hget. apply Hend.
      destruct (lookup_ends (S (S N)) q r ps NoFuel s Hq Hk Hr' ltac:(discriminate) Hs) as (s' & E & _).
      - intros t T1 T2 T3 T4. specialize (Hget t T1 T2 T3 T4). destruct (get_config w (run w (S (S N))) (w_cfgpath w) "" t) as [o t'].
        cbn [fst] in Hget. subst o. exists t'. auto.
      - fold sc in E. rewrite E. reflexivity. }
    destruct (hierarchy_settles w (S (S N)) od mt sc c H1 H2 Hv) as [(es & Hh)|[(x & Hx)|Hx]].
    - intros e o He Eo. exact (orderly_config _ _ _ _ H8 Hconf e He o Eo).
    - pose proof (hierarchy_made w (S (S N)) od mt sc c H1 H2 es Hh) as Made.
      destruct (options_settle w pre post H3 H4 H5 H6 Hw sc Hv c file H7 Hconf N es Made (S (S N))) as [[(all & Ha)|(x & Hx)]|Hstv].
      + destruct (many_settles w pre post H3 H4 H5 H6 Hw sc Hv c file H7 Hconf N es Made (S (S N)) all (le_n _) Ha (invocation sc false s) eq_refl
                    (ready_new w c es all (invocation sc false s) eq_refl Hs) (q_key q) (q_opts q) r ps Hk Hr') as [(o & H)|[(x & H)|H]].
        * right. exists (Ok o). right. exists es. split; [ exact (UpIn es Hh) | ]. exists all. split; [ exact (options_more sc es _ _ all Up Ha) | exact H ].
        * right. exists (Panic x). right. exists es. split; [ exact (UpIn es Hh) | ].
          apply mb_later with (all := all); [ exact (options_more sc es _ _ all Up Ha) | exact H ].
        * left. exact (Hend H).
      + right. exists (Panic x). right. exists es. split; [ exact (UpIn es Hh) | ].
        apply mb_options with (r := r) (ps := ps); [ exact Hk | exact Hr' | exact (options_fail_more sc es _ _ x Up Hx) ].
      + left. apply Stop. intros t T1 T2 T3 T4. apply Hstv; assumption.
    - right. exists (Panic x). left. split; [ exact Hr | exact (UpNot x Hx) ].
    - left. apply Stop. intros t T1 T2 T3 T4. destruct (get_endless w (S (S N)) sc file H7 c Hconf t Hx T1 T2 T3 T4) as (t' & E). rewrite E. reflexivity.
  Qed.

  Lemma serve_ends n N : n <= S (S N) -> forall rs os, Forall wellformed rs -> Forall2 (ends_as w od mt c fs n) rs os ->
    forall s, fresh w c s -> fst (serve w (S (S (S (S N)))) false rs s) = os.
  Proof.
    intros HN rs os Hp H. induction H as [|q o rs os Hl H IH]; intros s Hs; [ reflexivity | ].
    inversion Hp as [|? ? Hq Hrs]; subst.
    destruct (one_ends n N q o s HN Hq Hl Hs) as (s' & R & Hs'). cbn [serve]. rewrite R. specialize (IH Hrs s' Hs').
    destruct (serve w (S (S (S (S N)))) false rs s') as [os' s2]. cbn [fst] in *. congruence.
  Qed.

  Lemma serve_outcomes N : forall rs s, Forall wellformed rs -> fresh w c s ->
    Forall (fun o => o <> NoFuel) (fst (serve w (S (S (S (S N)))) false rs s)) ->
    Forall2 (ends_as w od mt c fs (S (S (S (S N))))) rs (fst (serve w (S (S (S (S N)))) false rs s)).
  Proof.
    intros rs. induction rs as [|q rs IH]; intros s Hp Hs Hf; [ constructor | ].
    inversion Hp as [|? ? Hq Hrs]; subst. pose proof (one_outcome N q s Hq Hs) as One.
    assert (Two : forall o, ends_as w od mt c fs (S (S (S (S N)))) q o ->
      fst (run_lookup w (S (S (S (S N)))) (q_key q) (q_opts q) (invocation (q_scope q) false s)) <> NoFuel ->
      fst (run_lookup w (S (S (S (S N)))) (q_key q) (q_opts q) (invocation (q_scope q) false s)) = o /\
      fresh w c (snd (run_lookup w (S (S (S (S N)))) (q_key q) (q_opts q) (invocation (q_scope q) false s)))).
    { intros o Ho Hne. destruct (one_ends (S (S (S (S N)))) (S (S N)) q o s (le_n _) Hq Ho Hs) as (s' & E & Hs').
      assert (HM : S (S (S (S N))) <= S (S (S (S (S (S N)))))) by lia.
      rewrite (run_lookup_mono w _ _ (q_key q) (q_opts q) (invocation (q_scope q) false s) HM Hne) in E. rewrite E. auto. }
    cbn [serve] in *.
    destruct (run_lookup w (S (S (S (S N)))) (q_key q) (q_opts q) (invocation (q_scope q) false s)) as [o s1].
    cbn [fst snd] in One, Two. specialize (IH s1 Hrs).
    destruct (serve w (S (S (S (S N)))) false rs s1) as [os s2]. cbn [fst] in *.
    inversion Hf as [|? ? Ho Hos]; subst. destruct One as [C|(o' & Ho')]; [ contradiction | ].
    destruct (Two o' Ho' Ho) as [-> Hs1]. constructor; [ exact Ho' | exact (IH Hs1 Hos) ].
  Qed.
End Config.

(** ** Without *)
Section NoConfig.
  Variables (w : world) (od : string -> bool) (mt : string -> list string) (file : cfg_file) (pre post : list lkfn) (x : err).
  Hypothesis Hst : asks w od mt file pre post.
  Hypothesis Hconf : config_new (w_env w) (w_cfgpath w) file = Panic x.
  Hypothesis Hw : dependable w.

  Lemma locked_among N q r ps first s : wellformed q -> k_parts (q_key q) = PStr r :: ps -> r <> "lookup_options" -> locked w x first s ->
    exists s', run_lookup w (S (S N)) (q_key q) (q_opts q) (invocation (q_scope q) false s) = (first, s') /\ locked w x Hang s'.
  Proof.
    intros [_ Hv] Hk Hr Hs.
    assert (Q : exists first' : outcome rconfig, first = recast first' /\ (forall rc, first' <> Ok rc) /\
      ((first' = Panic x /\ aget (w_cfgpath w) (s_shared s) = None) \/ (first' = Hang /\ aget (w_cfgpath w) (s_shared s) = Some ShLocked))).
    { destruct Hs as [[-> E]|[-> E]]; [ exists (Panic x) | exists Hang ]; repeat split; try discriminate; auto. }
    destruct Q as (first' & -> & Hno & Hs').
    destruct (run_stops w pre post (ak_top _ _ _ _ _ _ Hst) (ak_functions _ _ _ _ _ _ Hst) (ak_before _ _ _ _ _ _ Hst) Hw (q_scope q) Hv N first'
                (fun sh => aget (w_cfgpath w) sh = Some ShLocked) (invocation (q_scope q) false s) Hno eq_refl eq_refl) with (k := q_key q) (opts := q_opts q) (r := r) (ps := ps) as (s' & E & K);
      [ | exact Hk | exact Hr | ].
    - intros t Ts To Tc Th. apply (get_locked w N file (ak_config _ _ _ _ _ _ Hst) x t Hconf Tc first').
      change (s_shared (invocation (q_scope q) false s)) with (s_shared s) in Th. rewrite Th. exact Hs'.
    - exists s'. rewrite run_lookup_bind. unfold bind. rewrite E. split; [ | right; auto ].
      destruct first' as [rc|y| |]; [ destruct (Hno rc eq_refl) | | | ]; reflexivity.
  Qed.

  Lemma serve_locked_among N : forall first rs os, without_config first rs os -> Forall wellformed rs -> forall s, locked w x first s ->
    fst (serve w (S (S N)) false rs s) = os.
  Proof.
    induction 1 as [first|first q rs os (ps & Ek) H IH|first q rs os Hq H IH]; intros Hp s Hs; [ reflexivity | | ];
      inversion Hp as [|? ? Hwq Hrs]; subst; pose proof Hwq as [(r & ps' & Hk) _]; cbn [serve].
    - rewrite run_lookup_bind. unfold bind. rewrite (options_lookup w (S N) _ _ ps (invocation (q_scope q) false s) Ek eq_refl). unfold ret.
      specialize (IH Hrs (invocation (q_scope q) false s) Hs).
      destruct (serve w (S (S N)) false rs (invocation (q_scope q) false s)) as [os' s2]. cbn [fst] in *. congruence.
    - destruct (root_cases q r ps' Hk) as [C|[_ Hr]]; [ contradiction | ].
      destruct (locked_among N q r ps' first s Hwq Hk Hr Hs) as (s1 & -> & Hs1). specialize (IH Hrs s1 Hs1).
      destruct (serve w (S (S N)) false rs s1) as [os' s2]. cbn [fst] in *. congruence.
  Qed.
End NoConfig.

(** ** C86 *)

(** The outcomes of a session in which every lookup ends are exactly those of the
    stateless description: for every configuration file, all scopes, all keys and
    options, and whatever other functions are asked before and after the
    configuration. *)
Theorem C86_sessions : forall w on_disk matching file pre post rs os sc,
  asks w on_disk matching file pre post -> dependable w -> Forall wellformed rs ->
  ((exists N, fst (serve w N false rs (init_st sc None)) = os /\ Forall (fun o => o <> NoFuel) os) <->
   exists n, session_among w on_disk matching file (pre ++ LkConfig :: post) n rs os).
Proof.
  intros w od mt file pre post rs os sc Hst Hw Hp.
  destruct (ends_config (w_env w) (w_cfgpath w) file) as [(c & Hc)|(x & Hx)].
  - split.
    + intros (N & <- & Hf). exists (S (S (S (S N)))). apply sa_config with (c := c); [ exact Hc | ].
      assert (HN : N <= S (S (S (S N)))) by lia. rewrite <- (serve_more w N (S (S (S (S N)))) HN rs (init_st sc None) Hf) in Hf |- *.
      apply (serve_outcomes w od mt file pre post c Hst Hc Hw N rs (init_st sc None) Hp); [ left; reflexivity | exact Hf ].
    + intros (n & [c' Hc' H|x Hx _]); [ | congruence ]. rewrite Hc in Hc'. injection Hc' as <-. exists (S (S (S (S n)))). split.
      * apply (serve_ends w od mt file pre post c Hst Hc Hw n n); [ lia | exact Hp | exact H | left; reflexivity ].
      * clear - H. induction H as [|q o rs os Ho _ IH]; constructor; [ | exact IH ]. intros ->. exact Ho.
  - assert (L : locked w x (Panic x) (init_st sc None)) by (left; auto). split.
    + intros (N & <- & Hf). exists 0. apply sa_no_config with (x := x); [ exact Hx | ].
      assert (HN : N <= S (S N)) by lia. rewrite <- (serve_more w N (S (S N)) HN rs (init_st sc None) Hf).
      destruct (without_total rs (Panic x) Hp) as (os & Ho).
      rewrite (serve_locked_among w od mt file pre post x Hst Hx Hw N _ _ _ Ho Hp _ L). exact Ho.
    + intros (n & [c' Hc' _|x' Hx' H]); [ congruence | ]. rewrite Hx in Hx'. injection Hx' as <-. exists 2. split.
      * exact (serve_locked_among w od mt file pre post x Hst Hx Hw 0 _ _ _ H Hp _ L).
      * apply (without_ends (Panic x) rs os H). discriminate.
Qed.
Print Assumptions C86_sessions.

(** With an explainer it is the same. *)
Theorem C86_explained : forall w on_disk matching file pre post rs os sc options only,
  asks w on_disk matching file pre post -> dependable w -> Forall wellformed rs ->
  ((exists N, fst (serve w N true rs (init_st sc (Some (new_explainer options only)))) = os /\ Forall (fun o => o <> NoFuel) os) <->
   exists n, session_among w on_disk matching file (pre ++ LkConfig :: post) n rs os).
Proof.
  intros w od mt file pre post rs os sc options only Hst Hw Hp. rewrite <- (C86_sessions w od mt file pre post rs os sc Hst Hw Hp).
  split; intros (N & E & Hf); exists N; (split; [ | exact Hf ]); rewrite <- E.
  - symmetry. exact (proj1 (sim_serve w N rs (init_st sc (Some (new_explainer options only))) (init_st sc None) eq_refl eq_refl)).
  - exact (proj1 (sim_serve w N rs (init_st sc (Some (new_explainer options only))) (init_st sc None) eq_refl eq_refl)).
Qed.
Print Assumptions C86_explained.

(** The description says one thing at most. *)
Theorem C86_one_outcome : forall w on_disk matching file pre post n n' rs os os',
  asks w on_disk matching file pre post -> dependable w -> Forall wellformed rs ->
  session_among w on_disk matching file (pre ++ LkConfig :: post) n rs os ->
  session_among w on_disk matching file (pre ++ LkConfig :: post) n' rs os' -> os = os'.
Proof.
  intros w od mt file pre post n n' rs os os' Hst Hw Hp H H'.
  destruct (proj2 (C86_sessions w od mt file pre post rs os (ScMap []) Hst Hw Hp) (ex_intro _ n H)) as (N & E & F).
  destruct (proj2 (C86_sessions w od mt file pre post rs os' (ScMap []) Hst Hw Hp) (ex_intro _ n' H')) as (N' & E' & F').
  rewrite <- E in F. rewrite <- E' in F'. rewrite <- E, <- E'.
  rewrite <- (serve_more w N (Nat.max N N') (Nat.le_max_l _ _) rs _ F). rewrite <- (serve_more w N' (Nat.max N N') (Nat.le_max_r _ _) rs _ F'). reflexivity.
Qed.
Print Assumptions C86_one_outcome.

(** A lookup goes on for ever exactly if the description says nothing about it. *)
Theorem C86_endless : forall w on_disk matching file pre post q sc,
  asks w on_disk matching file pre post -> dependable w -> wellformed q ->
  ((forall N, fst (serve w N false [q] (init_st sc None)) = [NoFuel]) <->
   ~ exists n o, session_among w on_disk matching file (pre ++ LkConfig :: post) n [q] [o]).
Proof.
  intros w od mt file pre post q sc Hst Hw Hp. pose proof (Forall_cons q Hp (Forall_nil _)) as Hps. split.
  - intros H (n & o & Ho). destruct (proj2 (C86_sessions w od mt file pre post [q] [o] sc Hst Hw Hps) (ex_intro _ n Ho)) as (N & E & F).
    rewrite H in E. injection E as <-. inversion F; congruence.
  - intros H N.
    assert (K : forall a, fst (serve w N false [q] (init_st sc None)) = [a] -> a = NoFuel).
    { intros a E. destruct a as [v|x| |]; [ | | | reflexivity ]; exfalso; apply H;
        (destruct (proj1 (C86_sessions w od mt file pre post [q] (fst (serve w N false [q] (init_st sc None))) sc Hst Hw Hps)) as (n & L);
          [ exists N; split; [ reflexivity | rewrite E; constructor; [ discriminate | constructor ] ] | ];
         rewrite E in L; eauto). }
    cbn [serve] in *. destruct (run_lookup w N (q_key q) (q_opts q) (invocation (q_scope q) false (init_st sc None))) as [a s1].
    cbn [fst] in *. f_equal. apply K. reflexivity.
Qed.
Print Assumptions C86_endless.

(** A configuration that cannot be read: the first lookup fails with the reason
    and no other ever ends, although the other functions could answer. *)
Theorem C86_unreadable : forall w on_disk matching file pre post x N q rs sc,
  asks w on_disk matching file pre post -> dependable w -> config_new (w_env w) (w_cfgpath w) file = Panic x ->
  Forall wellformed (q :: rs) -> Forall (fun q => ~ for_options q) (q :: rs) ->
  fst (serve w (S (S N)) false (q :: rs) (init_st sc None)) = Panic x :: map (fun _ => Hang) rs.
Proof.
  intros w od mt file pre post x N q rs sc Hst Hw Hx Hp Ho.
  assert (G : forall l first, Forall (fun q => ~ for_options q) l -> without_config first l (match l with [] => [] | _ :: r => first :: map (fun _ => Hang) r end)).
  { induction l as [|a l IH]; intros first H; [ constructor | ]. inversion H as [|? ? Ha Hl]; subst. apply wc_other; [ exact Ha | ].
    specialize (IH Hang Hl). destruct l; exact IH. }
  apply (serve_locked_among w od mt file pre post x Hst Hx Hw N (Panic x)); [ exact (G (q :: rs) (Panic x) Ho) | exact Hp | left; auto ].
Qed.
Print Assumptions C86_unreadable.

(** ** Examples *)

(** The environment is asked before the configuration, the variables of the scope
    and a user function after it, as in the lookup command and beyond. *)
Definition many_fns (w : world) : world :=
  with_funs [("fn", fun a => match a with ALookupKey _ k => PRet (if String.eqb k "a" then Some (VArr [VStr "fn"]) else None) | _ => PRet None end)] w.
Definition many_files : list (string * value) :=
  [("/h/data/se-x.yaml", vmap [("a", VArr [VStr "one"; VStr "%{lookup('env::A')}"])]);
   ("/h/data/common.yaml", vmap [("a", VArr [VStr "two"]); ("b", VStr "%{lookup('site')} and %{lookup('nowhere')}"); ("bad", VStr "%{nope('x')}");
      ("c", VStr "%{lookup('a.1')}"); ("lookup_options", vmap [("a", vmap [("merge", VStr "unique")]); ("site", vmap [("convert_to", VStr "sensitive")]);
        ("d", vmap [("merge", VStr "wild")])])])].
Definition many_w (cfg : value) : world :=
  many_fns (with_env [("A", "x")] (with_top LkMux (Some ([LkEnv] ++ LkConfig :: [LkScope; LkUser "fn"])) (file_world [("/h/hiera.yaml", cfg)] many_files))).
Definition many_disk : string -> bool := fun p => match aget p many_files with Some _ => true | None => false end.

Lemma many_asks cfg : wf cfg = true -> asks (many_w cfg) many_disk (fun _ => []) (CfYaml cfg) [LkEnv] [LkScope; LkUser "fn"].
Proof.
  intro H. constructor; try reflexivity.
  - repeat constructor.
  - constructor; [ constructor | ]. constructor; [ | constructor ]. apply rp_user. intros args r. eexists. intro t. reflexivity.
  - intros v E. injection E as <-. exact H.
Qed.

Lemma many_dependable cfg : dependable (many_w cfg).
Proof.
  destruct (file_world_dependable [("/h/hiera.yaml", cfg)] many_files eq_refl) as [D1 D2 D3 D4 D5 D6 D7 D8 D9].
  constructor; try assumption.
  - intro n. cbn [many_w many_fns with_funs w_fun]. eexists. intros _. reflexivity.
  - intros f a. left.
    assert (Q : forall n, exists v, (forall t : list event, match aget n [("fn", fun a => match a with
        ALookupKey _ k => PRet (if String.eqb k "a" then Some (VArr [VStr "fn"]) else None) | _ => PRet None end)] with Some p => p a | None => PRet None end = PRet v) /\ tidy v).
    { intro n. cbn [aget]. destruct (String.eqb n "fn"); [ destruct a as [o|o r] | ]; eexists; (split; [ intros _; reflexivity | ]);
        try exact tidy_none. destruct (String.eqb r "a"); [ intros v E; injection E as <-; reflexivity | exact tidy_none ]. }
    destruct f as [n|p n|n]; [ exact (Q n) | exists None; split; [ reflexivity | exact tidy_none ] | exact (Q n) ].
Qed.

(** Merged over the hierarchy and the user function; a variable of the scope as a
    value, alone converted by the options of the hierarchy and in a text; a value
    of the environment; a nested lookup; errors of three kinds; and a scope in
    which the configuration cannot be resolved. *)
Definition many_rs : list request :=
  [deep_ask deep_sc "a"; deep_ask deep_sc "b"; deep_ask deep_sc "c"; deep_ask deep_sc "env::A"; deep_ask deep_sc "last"; deep_ask deep_sc "site";
   deep_ask deep_sc "bad"; deep_ask deep_sc "d"; deep_ask deep_sc "nothing"; deep_ask method_sc "env::A"; deep_ask method_sc "lookup_options"].
Definition many_os : list (outcome (option value)) :=
  [Ok (Some (VArr [VStr "one"; VStr "x"; VStr "two"; VStr "fn"])); Ok (Some (VStr "? and ")); Ok (Some (VStr "x")); Ok (Some (VStr "x")); Ok (Some (VStr "e"));
   Ok (Some (VSens (VStr "%{country.code}"))); Panic (EErr "unknown interpolation method 'nope'"); Panic (EErr "unknown merge strategy 'wild'"); Ok None;
   Panic (EErr "interpolation using method syntax is not allowed in this context"); Ok None].

Lemma many_wellformed : Forall wellformed many_rs.
Proof.
  assert (D : forall x v, scope_get deep_sc x = Some v -> wf v = true).
  { intros x v E. cbn in E. repeat match type of E with (if ?b then _ else _) = _ => destruct b end; try discriminate E; injection E as <-; reflexivity. }
  assert (M : forall x v, scope_get method_sc x = Some v -> wf v = true).
  { intros x v E. cbn in E. repeat match type of E with (if ?b then _ else _) = _ => destruct b end; try discriminate E; injection E as <-; reflexivity. }
  unfold many_rs. repeat constructor; cbn [deep_ask q_scope q_key k_parts]; eauto.
Qed.

Example C86_sessions_ex : exists n, session_among (many_w deep_cfg) many_disk (fun _ => []) (CfYaml deep_cfg) ([LkEnv] ++ LkConfig :: [LkScope; LkUser "fn"]) n many_rs many_os.
Proof.
  apply (C86_sessions (many_w deep_cfg) many_disk (fun _ => []) (CfYaml deep_cfg) [LkEnv] [LkScope; LkUser "fn"] many_rs many_os (ScMap [])
           (many_asks deep_cfg eq_refl) (many_dependable deep_cfg) many_wellformed).
  exists 14. split; [ vm_compute; reflexivity | ]. unfold many_os. repeat (constructor; [ discriminate | ]). constructor.
Qed.

Example C86_explained_ex : exists N, fst (serve (many_w deep_cfg) N true many_rs (init_st (ScMap []) (Some (new_explainer true false)))) = many_os.
Proof.
  destruct (proj2 (C86_explained (many_w deep_cfg) many_disk (fun _ => []) (CfYaml deep_cfg) [LkEnv] [LkScope; LkUser "fn"] many_rs many_os (ScMap []) true false
                     (many_asks deep_cfg eq_refl) (many_dependable deep_cfg) many_wellformed) C86_sessions_ex) as (N & E & _).
  exists N. exact E.
Qed.

Example C86_one_outcome_ex : forall n os,
  session_among (many_w deep_cfg) many_disk (fun _ => []) (CfYaml deep_cfg) ([LkEnv] ++ LkConfig :: [LkScope; LkUser "fn"]) n many_rs os -> os = many_os.
Proof.
  intros n os H. destruct C86_sessions_ex as (n' & H').
  exact (C86_one_outcome (many_w deep_cfg) many_disk (fun _ => []) (CfYaml deep_cfg) [LkEnv] [LkScope; LkUser "fn"] n n' many_rs os many_os
           (many_asks deep_cfg eq_refl) (many_dependable deep_cfg) many_wellformed H H').
Qed.

(** A variable that is in its own value, in the path of the first level: not even
    the environment is answered. *)
Example C86_endless_ex : forall N, fst (serve (many_w deep_cfg) N false [deep_ask ring_sc "env::A"] (init_st (ScMap []) None)) = [NoFuel].
Proof.
  assert (Hq : wellformed (deep_ask ring_sc "env::A")) by (split; [ exists "env::A", []; reflexivity | exact (proj2 ring_wellformed) ]).
  apply (C86_endless (many_w deep_cfg) many_disk (fun _ => []) (CfYaml deep_cfg) [LkEnv] [LkScope; LkUser "fn"] _ (ScMap [])
           (many_asks deep_cfg eq_refl) (many_dependable deep_cfg) Hq).
  assert (Ec : config_new (w_env (many_w deep_cfg)) (w_cfgpath (many_w deep_cfg)) (CfYaml deep_cfg) = Ok (levels_in ["%{env}"; "common"])) by (vm_compute; reflexivity).
  intros (n & o & [c Hc H|x Hx _]); [ | congruence ]. rewrite Ec in Hc. injection Hc as <-.
  inversion H as [|? ? ? ? Hco _]; subst. clear H.
  destruct o as [v|x| |]; cbn [ends_as] in Hco; try contradiction; destruct Hco as [Hco|(es & Hh & _)];
    try exact (ring_no_hierarchy _ _ _ _ ring_sc eq_refl es Hh).
  - destruct Hco as [(ps & E) _]. discriminate E.
  - destruct Hco as [_ Hn]. exact (ring_no_error _ _ _ _ ring_sc eq_refl x Hn).
Qed.

(** A configuration of a version that is not supported: the environment is not
    answered either. *)
Example C86_unreadable_ex : forall N,
  fst (serve (many_w old_cfg) (S (S N)) false [deep_ask (ScMap []) "env::A"; deep_ask (ScMap []) "a"; deep_ask (ScMap []) "env::A"] (init_st (ScMap []) None))
  = [Panic old_err; Hang; Hang].
Proof.
  intro N. apply (C86_unreadable (many_w old_cfg) many_disk (fun _ => []) (CfYaml old_cfg) [LkEnv] [LkScope; LkUser "fn"] old_err N).
  - apply many_asks. reflexivity.
  - apply many_dependable.
  - vm_compute. reflexivity.
  - repeat (constructor; [ apply old_wellformed | ]). constructor.
  - repeat (constructor; [ intros (ps & E); discriminate E | ]). constructor.
Qed.
