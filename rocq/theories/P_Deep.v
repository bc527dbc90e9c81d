(** C85: sessions with any configuration: its resolution is part of what is
    described, whatever the values of the variables are, and so are
    configurations that cannot be read. *)

From Coq Require Import String Ascii List ZArith Bool Arith Lia.
From Verif Require Import Str Value Outcome Key Merge Fpath Config Ipl Explain State Engine Session Worlds
  SpecKey SpecKeyErr SpecIpl SpecInterp SpecConfig SpecMerge SpecPath SpecLookup SpecExplain SpecFail SpecWorld SpecDeep Transparent
  KeyFacts KeyErrFacts ValueFacts MergeLookup StrFacts IplFacts InterpFacts IplExact Fuel ResolveFacts LookupTop SettledLookup ExLevels
  FailTop P_Lookup P_Nested P_Fail RootFacts Cycles Decided DecidedOptions DecidedTop P_Complete DeepExact DeepEntry DeepConfig ConfigEnds.
Import ListNotations.
Open Scope nat_scope.
Open Scope string_scope.
Open Scope list_scope.

(** A world whose files stay as they are, with the default provider; the file of
    the configuration is there or not, and can be read or not. *)
Record still (w : world) (on_disk : string -> bool) (matching : string -> list string) (file : cfg_file) : Prop := mk_still {
  sl_stat : forall t p, w_stat w t p = on_disk p;
  sl_glob : forall t p, w_glob w t p = matching p;
  sl_top : w_top w = LkConfig;
  sl_config : forall t, w_config w t (w_cfgpath w) = file;
  sl_orderly : forall v, file = CfYaml v -> wf v = true
}.

(** A key that starts with a text, as all keys that are read do, and a scope of
    values without double keys. *)
Definition wellformed (q : request) : Prop :=
  (exists r ps, k_parts (q_key q) = PStr r :: ps) /\ forall x v, scope_get (q_scope q) x = Some v -> wf v = true.

Definition for_options (q : request) : Prop := exists ps, k_parts (q_key q) = PStr "lookup_options" :: ps.

(** What a request must come to with the configuration [c]: the hierarchy is
    resolved in the scope of the request, or cannot be, which fails the lookup. *)
Definition comes_to (w : world) (on_disk : string -> bool) (matching : string -> list string) (c : config) (n : nat)
           (q : request) (o : outcome (option value)) : Prop :=
  match o with
  | Ok v => (for_options q /\ v = None) \/
            exists es, hierarchy_in w on_disk matching n (q_scope q) c es /\
                       lookup_gives w (q_scope q) es n (q_key q) (q_opts q) v
  | Panic x => (~ for_options q /\ hierarchy_not w on_disk matching n (q_scope q) c x) \/
               exists es, hierarchy_in w on_disk matching n (q_scope q) c es /\
                          lookup_fails w (q_scope q) es n (q_key q) (q_opts q) x
  | _ => False
  end.

(** A session whose configuration cannot be read: the first lookup that wants it
    comes to [first], and those after it wait for ever. *)
Inductive without_config : outcome (option value) -> list request -> list (outcome (option value)) -> Prop :=
| wc_end : forall first, without_config first [] []
| wc_options : forall first q rs os, for_options q -> without_config first rs os ->
    without_config first (q :: rs) (Ok None :: os)
| wc_other : forall first q rs os, ~ for_options q -> without_config Hang rs os ->
    without_config first (q :: rs) (first :: os).

(** What a session must come to. *)
Inductive session_is (w : world) (on_disk : string -> bool) (matching : string -> list string) (file : cfg_file) (n : nat)
          (rs : list request) (os : list (outcome (option value))) : Prop :=
| si_config : forall c, config_new (w_env w) (w_cfgpath w) file = Ok c ->
    Forall2 (comes_to w on_disk matching c n) rs os -> session_is w on_disk matching file n rs os
| si_no_config : forall x, config_new (w_env w) (w_cfgpath w) file = Panic x ->
    without_config (Panic x) rs os -> session_is w on_disk matching file n rs os.

Lemma run_lookup_bind w N k opts :
  run_lookup w (S N) k opts = bind (bind (lookup w (run w N) k opts) (fun v => ret (v, true))) (fun r => ret (fst r)).
Proof. reflexivity. Qed.

Lemma options_lookup w N k opts ps s : k_parts k = PStr "lookup_options" :: ps -> off s -> lookup w (run w N) k opts s = (Ok None, s).
Proof.
  intros Ek Ho. unfold lookup, bind, lift, root. rewrite Ek. cbn [String.eqb Ascii.eqb Bool.eqb].
  rewrite node_off by exact Ho. rewrite report_off by exact Ho. reflexivity.
Qed.

Lemma root_cases q r ps : k_parts (q_key q) = PStr r :: ps -> for_options q \/ (~ for_options q /\ r <> "lookup_options").
Proof.
  intro Hk. destruct (string_dec r "lookup_options") as [->|Hr]; [ left; exists ps; exact Hk | right ].
  split; [ | exact Hr ]. intros (ps' & E). congruence.
Qed.

(** ** With a configuration *)
Section Config.
  Variables (w : world) (od : string -> bool) (mt : string -> list string) (file : cfg_file) (c : config).
  Hypothesis Hst : still w od mt file.
  Hypothesis Hconf : config_new (w_env w) (w_cfgpath w) file = Ok c.

  Lemma one_settles N q s : dependable w -> wellformed q -> fresh w c s ->
    fst (run_lookup w (S (S (S N))) (q_key q) (q_opts q) (invocation (q_scope q) false s)) = NoFuel \/
    exists o, comes_to w od mt c (S (S N)) q o.
  Proof.
    intros Hw ((r & ps & Hk) & Hv) Hs. destruct Hst as [H1 H2 H3 H4 H5].
    destruct (root_cases q r ps Hk) as [Hr|[Hr Hr']]; [ right; exists (Ok None); left; auto | ].
    assert (Hend : fst (lookup w (run w (S (S N))) (q_key q) (q_opts q) (invocation (q_scope q) false s)) = NoFuel ->
      fst (run_lookup w (S (S (S N))) (q_key q) (q_opts q) (invocation (q_scope q) false s)) = NoFuel).
    { intro H. rewrite run_lookup_bind. apply fst_bind. apply fst_bind. exact H. }
    destruct (hierarchy_settles w (S (S N)) od mt (q_scope q) c H1 H2 Hv) as [(es & Hh)|[(x & Hx)|Hx]].
    - intros e o He Eo. exact (orderly_config _ _ _ _ H5 Hconf e He o Eo).
    - destruct (lookup_decided w N (q_scope q) c file es H4 Hconf H3 (hierarchy_made w (S (S N)) od mt (q_scope q) c H1 H2 es Hh) Hw Hv
                  (q_key q) (q_opts q) r ps (invocation (q_scope q) false s) Hk Hr' eq_refl eq_refl Hs) as [(o & H)|[(x & H)|H]].
      + right. exists (Ok o). right. exists es. auto.
      + right. exists (Panic x). right. exists es. auto.
      + left. exact (Hend H).
    - right. exists (Panic x). left. auto.
    - left. apply Hend.
      exact (endless_lookup w (S (S N)) (q_scope q) c file H4 Hconf H3 (q_key q) (q_opts q) r ps (invocation (q_scope q) false s)
               Hx Hk Hr' eq_refl eq_refl eq_refl Hs).
  Qed.

  Lemma one_comes n N q o s : n <= S (S N) -> (exists r ps, k_parts (q_key q) = PStr r :: ps) -> comes_to w od mt c n q o -> fresh w c s ->
    exists s', run_lookup w (S (S (S N))) (q_key q) (q_opts q) (invocation (q_scope q) false s) = (o, s') /\ fresh w c s'.
  Proof.
    intros HN (r & ps & Hk) Hl Hs. destruct Hst as [H1 H2 H3 H4 H5].
    assert (Q : exists s', lookup w (run w (S (S N))) (q_key q) (q_opts q) (invocation (q_scope q) false s) = (o, s') /\ fresh w c s').
    { destruct o as [v|x| |]; cbn [comes_to] in Hl; try contradiction.
      - destruct Hl as [[(ps' & Ek) ->]|(es & Hh & Hl)].
        + eexists. split; [ apply options_lookup with (ps := ps'); [ exact Ek | reflexivity ] | exact Hs ].
        + apply (lookup_run w n N HN (q_scope q) c file H4 Hconf H3 es (q_key q) (q_opts q) v
                  (invocation (q_scope q) false s) eq_refl eq_refl Hs); [ | exact Hl ].
          exact (created_more w n (S (S N)) _ c es HN (hierarchy_made w n od mt (q_scope q) c H1 H2 es Hh)).
      - destruct Hl as [[Hr Hx]|(es & Hh & Hl)].
        + destruct (root_cases q r ps Hk) as [C|[_ Hr']]; [ contradiction | ].
          apply (refused_lookup w (S (S N)) (q_scope q) c file H4 Hconf H3 (q_key q) (q_opts q) r ps x (invocation (q_scope q) false s));
            [ | exact Hk | exact Hr' | reflexivity | reflexivity | reflexivity | exact Hs ].
          exact (refused_more w n (S (S N)) _ c x HN (hierarchy_refused w n od mt (q_scope q) c H1 H2 x Hx)).
        + apply (lookup_failing w n N HN (q_scope q) c file H4 Hconf H3 es (q_key q) (q_opts q) x
                  (invocation (q_scope q) false s) eq_refl eq_refl Hs); [ | exact Hl ].
          exact (created_more w n (S (S N)) _ c es HN (hierarchy_made w n od mt (q_scope q) c H1 H2 es Hh)). }
    destruct Q as (s' & E & Hs'). exists s'. rewrite run_lookup_bind. unfold bind. rewrite E. split; [ | exact Hs' ].
    destruct o; reflexivity.
  Qed.

  Lemma serve_comes n N : n <= S (S N) -> forall rs os, Forall wellformed rs -> Forall2 (comes_to w od mt c n) rs os ->
    forall s, fresh w c s -> fst (serve w (S (S (S N))) false rs s) = os.
  Proof.
    intros HN rs os Hp H. induction H as [|q o rs os Hl H IH]; intros s Hs; [ reflexivity | ].
    inversion Hp as [|? ? [Hq _] Hrs]; subst.
    destruct (one_comes n N q o s HN Hq Hl Hs) as (s' & R & Hs'). cbn [serve]. rewrite R. specialize (IH Hrs s' Hs').
    destruct (serve w (S (S (S N))) false rs s') as [os' s2]. cbn [fst] in *. congruence.
  Qed.

  Lemma serve_settles N : dependable w -> forall rs s, Forall wellformed rs -> fresh w c s ->
    Forall (fun o => o <> NoFuel) (fst (serve w (S (S (S N))) false rs s)) ->
    Forall2 (comes_to w od mt c (S (S N))) rs (fst (serve w (S (S (S N))) false rs s)).
  Proof.
    intros Hw rs. induction rs as [|q rs IH]; intros s Hp Hs Hf; [ constructor | ].
    inversion Hp as [|? ? Hq Hrs]; subst. pose proof (one_settles N q s Hw Hq Hs) as One.
    assert (Two : forall o, comes_to w od mt c (S (S N)) q o ->
      fst (run_lookup w (S (S (S N))) (q_key q) (q_opts q) (invocation (q_scope q) false s)) = o /\
      fresh w c (snd (run_lookup w (S (S (S N))) (q_key q) (q_opts q) (invocation (q_scope q) false s)))).
    { intros o Ho. destruct (one_comes (S (S N)) N q o s (le_n _) (proj1 Hq) Ho Hs) as (s' & E & Hs'). rewrite E. auto. }
    cbn [serve] in *.
    destruct (run_lookup w (S (S (S N))) (q_key q) (q_opts q) (invocation (q_scope q) false s)) as [o s1].
    cbn [fst snd] in One, Two. specialize (IH s1 Hrs).
    destruct (serve w (S (S (S N))) false rs s1) as [os s2]. cbn [fst] in *.
    inversion Hf as [|? ? Ho Hos]; subst. destruct One as [C|(o' & Ho')]; [ contradiction | ].
    destruct (Two o' Ho') as [-> Hs1]. constructor; [ exact Ho' | exact (IH Hs1 Hos) ].
  Qed.
End Config.

(** ** Without *)
Section NoConfig.
  Variables (w : world) (od : string -> bool) (mt : string -> list string) (file : cfg_file) (x : err).
  Hypothesis Hst : still w od mt file.
  Hypothesis Hconf : config_new (w_env w) (w_cfgpath w) file = Panic x.

  (** Nobody wanted the configuration yet, or somebody did. *)
  Definition locked (first : outcome (option value)) (s : st) : Prop :=
    (first = Panic x /\ aget (w_cfgpath w) (s_shared s) = None) \/
    (first = Hang /\ aget (w_cfgpath w) (s_shared s) = Some ShLocked).

  Lemma locked_lookup N q r ps first s : k_parts (q_key q) = PStr r :: ps -> r <> "lookup_options" -> locked first s ->
    exists s', run_lookup w (S N) (q_key q) (q_opts q) (invocation (q_scope q) false s) = (first, s') /\ locked Hang s'.
  Proof.
    intros Hk Hr Hs. rewrite run_lookup_bind. unfold bind at 1 2.
    destruct (lookup_starts w N (sl_top _ _ _ _ Hst) (q_key q) (q_opts q) r ps (invocation (q_scope q) false s) Hk Hr) as (A & f & g & ->).
    unfold bind at 1 2. unfold get_config.
    replace (if String.eqb (w_cfgpath w) "" then w_cfgpath w else w_cfgpath w) with (w_cfgpath w)
      by (destruct (String.eqb (w_cfgpath w) ""); reflexivity).
    unfold bind at 1. unfold run_op at 1. change (s_configs (invocation (q_scope q) false s)) with (@nil (string * rconfig)).
    cbn [aget]. unfold bind at 1. unfold shared_config. unfold bind at 1. unfold run_op at 1.
    change (s_shared (invocation (q_scope q) false s)) with (s_shared s). destruct Hs as [[-> E]|[-> E]]; rewrite E.
    - unfold load_config, ask, bind, run_op, lift, ret. rewrite (sl_config _ _ _ _ Hst), Hconf.
      eexists. split; [ reflexivity | ]. right. split; [ reflexivity | ]. cbn. rewrite String.eqb_refl. reflexivity.
    - eexists. split; [ reflexivity | ]. right. split; [ reflexivity | exact E ].
  Qed.

  Lemma serve_locked N : forall first rs os, without_config first rs os -> Forall wellformed rs -> forall s, locked first s ->
    fst (serve w (S N) false rs s) = os.
  Proof.
    induction 1 as [first|first q rs os (ps & Ek) H IH|first q rs os Hq H IH]; intros Hp s Hs; [ reflexivity | | ];
      inversion Hp as [|? ? [(r & ps' & Hk) _] Hrs]; subst; cbn [serve].
    - rewrite run_lookup_bind. unfold bind. rewrite (options_lookup w N _ _ ps (invocation (q_scope q) false s) Ek eq_refl). unfold ret.
      specialize (IH Hrs (invocation (q_scope q) false s) Hs).
      destruct (serve w (S N) false rs (invocation (q_scope q) false s)) as [os' s2]. cbn [fst] in *. congruence.
    - destruct (root_cases q r ps' Hk) as [C|[_ Hr]]; [ contradiction | ].
      destruct (locked_lookup N q r ps' first s Hk Hr Hs) as (s1 & -> & Hs1). specialize (IH Hrs s1 Hs1).
      destruct (serve w (S N) false rs s1) as [os' s2]. cbn [fst] in *. congruence.
  Qed.

  Lemma without_total : forall rs first, Forall wellformed rs -> exists os, without_config first rs os.
  Proof.
    induction rs as [|q rs IH]; intros first H; [ exists []; constructor | ]. inversion H as [|? ? [(r & ps & Hk) _] Hrs]; subst.
    destruct (root_cases q r ps Hk) as [C|[C _]].
    - destruct (IH first Hrs) as (os & Ho). eexists. apply wc_options; eassumption.
    - destruct (IH Hang Hrs) as (os & Ho). eexists. apply wc_other; eassumption.
  Qed.

  Lemma without_ends first rs os : without_config first rs os -> first <> NoFuel -> Forall (fun o => o <> NoFuel) os.
  Proof.
    induction 1 as [|first q rs os _ _ IH|first q rs os _ _ IH]; intro Hf; constructor; try assumption; try discriminate; apply IH; [ exact Hf | discriminate ].
  Qed.
End NoConfig.

(** ** C85 *)

(** The outcomes of a session in which every lookup ends are exactly those of the
    stateless description, for every configuration file and all scopes: the
    resolution of the configuration is described too. *)
Theorem C85_sessions : forall w on_disk matching file rs os sc,
  still w on_disk matching file -> dependable w -> Forall wellformed rs ->
  ((exists N, fst (serve w N false rs (init_st sc None)) = os /\ Forall (fun o => o <> NoFuel) os) <->
   exists n, session_is w on_disk matching file n rs os).
Proof.
  intros w od mt file rs os sc Hst Hw Hp.
  destruct (ends_config (w_env w) (w_cfgpath w) file) as [(c & Hc)|(x & Hx)].
  - split.
    + intros (N & <- & Hf). exists (S (S N)). apply si_config with (c := c); [ exact Hc | ].
      assert (HN : N <= S (S (S N))) by lia. rewrite <- (serve_more w N (S (S (S N))) HN rs (init_st sc None) Hf) in Hf |- *.
      apply (serve_settles w od mt file c Hst Hc N Hw rs (init_st sc None) Hp); [ left; reflexivity | exact Hf ].
    + intros (n & [c' Hc' H|x Hx _]); [ | congruence ]. rewrite Hc in Hc'. injection Hc' as <-. exists (S (S (S n))). split.
      * apply (serve_comes w od mt file c Hst Hc n n); [ lia | exact Hp | exact H | left; reflexivity ].
      * clear - H. induction H as [|q o rs os Ho _ IH]; constructor; [ | exact IH ]. intros ->. exact Ho.
  - assert (L : locked w x (Panic x) (init_st sc None)) by (left; auto). split.
    + intros (N & <- & Hf). exists 0. apply si_no_config with (x := x); [ exact Hx | ].
      assert (HN : N <= S N) by lia. rewrite <- (serve_more w N (S N) HN rs (init_st sc None) Hf).
      destruct (without_total rs (Panic x) Hp) as (os & Ho).
      rewrite (serve_locked w od mt file x Hst Hx N _ _ _ Ho Hp _ L). exact Ho.
    + intros (n & [c' Hc' _|x' Hx' H]); [ congruence | ]. rewrite Hx in Hx'. injection Hx' as <-. exists 1. split.
      * exact (serve_locked w od mt file x Hst Hx 0 _ _ _ H Hp _ L).
      * apply (without_ends (Panic x) rs os H). discriminate.
Qed.
Print Assumptions C85_sessions.

(** With an explainer it is the same. *)
Theorem C85_explained : forall w on_disk matching file rs os sc options only,
  still w on_disk matching file -> dependable w -> Forall wellformed rs ->
  ((exists N, fst (serve w N true rs (init_st sc (Some (new_explainer options only)))) = os /\ Forall (fun o => o <> NoFuel) os) <->
   exists n, session_is w on_disk matching file n rs os).
Proof.
  intros w od mt file rs os sc options only Hst Hw Hp. rewrite <- (C85_sessions w od mt file rs os sc Hst Hw Hp).
  split; intros (N & E & Hf); exists N; (split; [ | exact Hf ]); rewrite <- E.
  - symmetry. exact (proj1 (sim_serve w N rs (init_st sc (Some (new_explainer options only))) (init_st sc None) eq_refl eq_refl)).
  - exact (proj1 (sim_serve w N rs (init_st sc (Some (new_explainer options only))) (init_st sc None) eq_refl eq_refl)).
Qed.
Print Assumptions C85_explained.

(** The description says one thing at most. *)
Theorem C85_one_outcome : forall w on_disk matching file n n' rs os os',
  still w on_disk matching file -> dependable w -> Forall wellformed rs ->
  session_is w on_disk matching file n rs os -> session_is w on_disk matching file n' rs os' -> os = os'.
Proof.
  intros w od mt file n n' rs os os' Hst Hw Hp H H'.
  destruct (proj2 (C85_sessions w od mt file rs os (ScMap []) Hst Hw Hp) (ex_intro _ n H)) as (N & E & F).
  destruct (proj2 (C85_sessions w od mt file rs os' (ScMap []) Hst Hw Hp) (ex_intro _ n' H')) as (N' & E' & F').
  rewrite <- E in F. rewrite <- E' in F'. rewrite <- E, <- E'.
  rewrite <- (serve_more w N (Nat.max N N') (Nat.le_max_l _ _) rs _ F). rewrite <- (serve_more w N' (Nat.max N N') (Nat.le_max_r _ _) rs _ F'). reflexivity.
Qed.
Print Assumptions C85_one_outcome.

(** A lookup goes on for ever exactly if the description says nothing about it. *)
Theorem C85_endless : forall w on_disk matching file q sc,
  still w on_disk matching file -> dependable w -> wellformed q ->
  ((forall N, fst (serve w N false [q] (init_st sc None)) = [NoFuel]) <->
   ~ exists n o, session_is w on_disk matching file n [q] [o]).
Proof.
  intros w od mt file q sc Hst Hw Hp. pose proof (Forall_cons q Hp (Forall_nil _)) as Hps. split.
  - intros H (n & o & Ho). destruct (proj2 (C85_sessions w od mt file [q] [o] sc Hst Hw Hps) (ex_intro _ n Ho)) as (N & E & F).
    rewrite H in E. injection E as <-. inversion F; congruence.
  - intros H N.
    assert (K : forall a, fst (serve w N false [q] (init_st sc None)) = [a] -> a = NoFuel).
    { intros a E. destruct a as [v|x| |]; [ | | | reflexivity ]; exfalso; apply H;
        (destruct (proj1 (C85_sessions w od mt file [q] (fst (serve w N false [q] (init_st sc None))) sc Hst Hw Hps)) as (n & L);
          [ exists N; split; [ reflexivity | rewrite E; constructor; [ discriminate | constructor ] ] | ];
         rewrite E in L; eauto). }
    cbn [serve] in *. destruct (run_lookup w N (q_key q) (q_opts q) (invocation (q_scope q) false (init_st sc None))) as [a s1].
    cbn [fst] in *. f_equal. apply K. reflexivity.
Qed.
Print Assumptions C85_endless.

(** A configuration that cannot be read: the first lookup fails with the reason
    and no other ever ends, whatever the keys. *)
Theorem C85_unreadable : forall w on_disk matching file x N q rs sc,
  still w on_disk matching file -> config_new (w_env w) (w_cfgpath w) file = Panic x ->
  Forall wellformed (q :: rs) -> Forall (fun q => ~ for_options q) (q :: rs) ->
  fst (serve w (S N) false (q :: rs) (init_st sc None)) = Panic x :: map (fun _ => Hang) rs.
Proof.
  intros w od mt file x N q rs sc Hst Hx Hp Ho.
  assert (G : forall l first, Forall (fun q => ~ for_options q) l -> without_config first l (match l with [] => [] | _ :: r => first :: map (fun _ => Hang) r end)).
  { induction l as [|a l IH]; intros first H; [ constructor | ]. inversion H as [|? ? Ha Hl]; subst. apply wc_other; [ exact Ha | ].
    specialize (IH Hang Hl). destruct l; exact IH. }
  apply (serve_locked w od mt file x Hst Hx N (Panic x)); [ exact (G (q :: rs) (Panic x) Ho) | exact Hp | left; auto ].
Qed.
Print Assumptions C85_unreadable.

(** Where no variable has expressions the resolution described here is the one
    that the other descriptions use. *)
Theorem C85_settled : forall w on_disk matching file c sc es,
  still w on_disk matching file -> config_new (w_env w) (w_cfgpath w) file = Ok c ->
  (forall x v, scope_get sc x = Some v -> wf v = true) ->
  hierarchy_is w on_disk matching sc c es -> hierarchy_in w on_disk matching 2 sc c es.
Proof.
  intros w od mt file c sc es [H1 H2 H3 H4 H5] Hc Hv H.
  destruct (proj2 (hierarchy_created w od mt sc c es 0 H1 H2 H) (base sc) eq_refl eq_refl) as (ps & s1 & ds & qs & s2 & E1 & N1 & E2 & N2).
  destruct (hierarchy_settles w 2 od mt sc c H1 H2 Hv) as [(es' & Hh)|[(x & Hx)|Hx]].
  - intros e o He Eo. exact (orderly_config _ _ _ _ H5 Hc e He o Eo).
  - destruct (proj2 (hierarchy_made w 2 od mt sc c H1 H2 es' Hh) (base sc) eq_refl eq_refl) as (ps' & s1' & ds' & qs' & s2' & E1' & N1' & _ & _).
    rewrite E1 in E1'. injection E1' as <- <-. rewrite <- (n_entries _ _ _ _ N1). rewrite (n_entries _ _ _ _ N1'). exact Hh.
  - exfalso. destruct (hierarchy_refused w 2 od mt sc c H1 H2 x Hx (base sc) eq_refl eq_refl) as (s' & E & _).
    unfold bind in E. rewrite E1, E2 in E. discriminate E.
  - exfalso. specialize (Hx (base sc) eq_refl eq_refl). unfold bind in Hx. rewrite E1, E2 in Hx. discriminate Hx.
Qed.
Print Assumptions C85_settled.

(** Variables that lead back to themselves. *)
Definition mentions (t x : string) : Prop := exists cut last u e ps,
  well_cut cut last /\ t = assembled cut last /\ In (u, e) cut /\
  ~ In (trim_space e) [""; "::"; """"""; "''"; """::"""; "'::'"] /\ (forall name arg, ~ calls (trim_space e) name arg) /\
  written_key (trim_space e) (PStr x :: ps).
Definition circular (sc : scope) (looping : string -> Prop) : Prop :=
  forall x, looping x -> exists t y, scope_get sc x = Some (VStr t) /\ mentions t y /\ looping y.
Definition located_by (l : location) (t : string) : Prop :=
  (exists r e, l = LPath t r e) \/ l = LGlob t \/ exists r, l = LUri t r.

Lemma circular_expands w sc looping : circular sc looping -> forall n t t' x, mentions t x -> looping x -> ~ expands_in w sc n t t'.
Proof.
  intro Hc. induction n as [|n IH]; intros t t' x Hm Hx H; [ exact H | ].
  destruct H as (cut & rs & last & W & E & _ & F). destruct Hm as (cut' & last' & u & e & ps & W' & E' & Hin & Hn & Hcall & Hk).
  rewrite E' in E. destruct (cut_unique _ _ _ _ W' W E) as [-> _].
  destruct (in_split _ _ Hin) as (a & b & ->). apply Forall2_app_inv_l in F as (ra & rb & _ & F & _).
  inversion F as [|? r ? ? Hi _]; subst. cbn [snd] in Hi. destruct Hi as [Hi|o Hi Hi' Hv]; [ contradiction | ].
  destruct (Hc x Hx) as (t2 & y & Hg & Hm2 & Hy).
  destruct Hv as [x' ps' Hk' Hg'|x' ps' v r' o' Hk' Hg' Hv Hd]; pose proof (written_det _ _ _ Hk Hk') as Ep; injection Ep as <- <-.
  - congruence.
  - rewrite Hg in Hg'. injection Hg' as <-. inversion Hv as [t3 r3 (t4 & Ht & _) | | | v Hs]; subst.
    + exact (IH _ _ _ Hm2 Hy Ht).
    + exact (Hs t2 eq_refl).
Qed.

(** With a location that mentions one of them no lookup ever gives a value or
    says that there is none. *)
Theorem C85_circular : forall w on_disk matching file c looping e l t x q sc N,
  still w on_disk matching file -> config_new (w_env w) (w_cfgpath w) file = Ok c -> dependable w ->
  wellformed q -> ~ for_options q -> circular (q_scope q) looping ->
  In e (c_hierarchy c ++ c_default_hierarchy c) -> (exists ls, e_locations e = Some ls /\ In l ls) -> located_by l t ->
  mentions t x -> looping x ->
  exists o, fst (serve w N false [q] (init_st sc None)) = [o] /\ (o = NoFuel \/ exists err, o = Panic err).
Proof.
  intros w od mt file c looping e l t x q sc N Hst Hc Hw Hq Ho Hcirc He (ls & El & Hl) Hlt Hm Hx.
  assert (Q : forall n es, ~ hierarchy_in w od mt n (q_scope q) c es).
  { intros n es (d & ds & _ & F & G).
    assert (Z : forall L R, Forall2 (entry_in w od mt n (q_scope q) (w_env w) (c_root c) (Some d)) L R -> ~ In e L).
    { clear - El Hl Hlt Hm Hx Hcirc. intros L R F. induction F as [|a b L R H _ IH]; [ intros [] | ]. intros [->|C]; [ | exact (IH C) ].
      destruct H as [f dd pd o ls' _ _ _ _ H]. rewrite El in H. destruct H as (lss & H & _).
      assert (Y : ~ In l ls); [ | contradiction ]. clear Hl El.
      induction H as [|a' b' L' R' H _ IH']; [ intros [] | ]. intros [->|C]; [ | exact (IH' C) ].
      destruct Hlt as [(r & ex & ->)|[->|(r & ->)]]; inversion H as [? ? ? t' Ht| ? t' Ht | ? ? t' Ht |]; subst;
        exact (circular_expands w _ looping Hcirc n t t' x Hm Hx Ht). }
    apply in_app_or in He as [He|He]; [ exact (Z _ _ F He) | exact (Z _ _ G He) ]. }
  cbn [serve]. destruct (run_lookup w N (q_key q) (q_opts q) (invocation (q_scope q) false (init_st sc None))) as [o s1] eqn:E.
  exists o. split; [ reflexivity | ]. assert (D : o = NoFuel \/ o <> NoFuel) by (destruct o; [ right | right | right | left ]; congruence).
  destruct D as [D|D]; [ left; exact D | right ].
  destruct (proj1 (C85_sessions w od mt file [q] [o] sc Hst Hw (Forall_cons q Hq (Forall_nil _)))) as (n & [c' Hc' H|? Hc' _]).
  - exists N. cbn [serve]. rewrite E. split; [ reflexivity | constructor; [ exact D | constructor ] ].
  - rewrite Hc in Hc'. injection Hc' as <-. inversion H as [|? ? ? ? Hco _]; subst.
    destruct o as [v|err| |]; cbn [comes_to] in Hco; try contradiction; [ | eauto ].
    destruct Hco as [[C _]|(es & C & _)]; [ contradiction | exact (False_ind _ (Q _ _ C)) ].
  - congruence.
Qed.
Print Assumptions C85_circular.

(** ** Examples *)

(** The variable of the path has a variable in its value, and so has that one. *)
Definition deep_sc : scope :=
  ScMap [(VStr "env", VStr "%{site}-x"); (VStr "site", VStr "%{country.code}"); (VStr "country", vmap [("code", VStr "s%{last}")]);
         (VStr "last", VStr "e")].
Definition deep_files : list (string * value) :=
  [("/h/data/se-x.yaml", vmap [("a", VStr "one")]); ("/h/data/common.yaml", vmap [("a", VStr "two"); ("b", VStr "%{env}")])].
Definition deep_cfg : value := levels ["%{env}"; "common"].
Definition deep_w : world := file_world [("/h/hiera.yaml", deep_cfg)] deep_files.
Definition deep_disk : string -> bool := fun p => match aget p deep_files with Some _ => true | None => false end.

Lemma file_world_still cfg data : wf cfg = true ->
  still (file_world [("/h/hiera.yaml", cfg)] data) (fun p => match aget p data with Some _ => true | None => false end)
    (fun _ => []) (CfYaml cfg).
Proof. intro H. constructor; try reflexivity. intros v E. injection E as <-. exact H. Qed.

(** The same session with other scopes: one where the variable is not set, and
    one where its value calls a method, which fails every lookup but that of the
    options. *)
Definition deep_ask (sc : scope) (k : string) : request := mk_request sc (mk_key k [PStr k]) None.
Definition method_sc : scope := ScMap [(VStr "env", VStr "%{lookup('a')}")].
Definition deep_rs : list request :=
  [deep_ask deep_sc "a"; deep_ask deep_sc "b"; deep_ask (ScMap []) "a"; deep_ask method_sc "a"; deep_ask method_sc "lookup_options";
   deep_ask deep_sc "a"].
Definition deep_os : list (outcome (option value)) :=
  [Ok (Some (VStr "one")); Ok (Some (VStr "se-x")); Ok (Some (VStr "two"));
   Panic (EErr "interpolation using method syntax is not allowed in this context"); Ok None; Ok (Some (VStr "one"))].

Lemma deep_wellformed : Forall wellformed deep_rs.
Proof.
  assert (D : forall x v, scope_get deep_sc x = Some v -> wf v = true).
  { intros x v E. cbn in E. repeat match type of E with (if ?b then _ else _) = _ => destruct b end; try discriminate E; injection E as <-; reflexivity. }
  assert (M : forall x v, scope_get method_sc x = Some v -> wf v = true).
  { intros x v E. cbn in E. repeat match type of E with (if ?b then _ else _) = _ => destruct b end; try discriminate E; injection E as <-; reflexivity. }
  assert (Z : forall x v, scope_get (ScMap []) x = Some v -> wf v = true) by (intros x v E; discriminate E).
  unfold deep_rs. repeat constructor; cbn [deep_ask q_scope q_key k_parts]; eauto.
Qed.

Example C85_sessions_ex : exists n, session_is deep_w deep_disk (fun _ => []) (CfYaml deep_cfg) n deep_rs deep_os.
Proof.
  apply (C85_sessions deep_w deep_disk (fun _ => []) (CfYaml deep_cfg) deep_rs deep_os (ScMap [])).
  - apply file_world_still. reflexivity.
  - apply file_world_dependable. reflexivity.
  - exact deep_wellformed.
  - exists 12. split; [ vm_compute; reflexivity | ]. unfold deep_os. repeat (constructor; [ discriminate | ]). constructor.
Qed.

Example C85_explained_ex : exists N, fst (serve deep_w N true deep_rs (init_st (ScMap []) (Some (new_explainer true false)))) = deep_os.
Proof.
  destruct (proj2 (C85_explained deep_w deep_disk (fun _ => []) (CfYaml deep_cfg) deep_rs deep_os (ScMap []) true false
                     (file_world_still deep_cfg deep_files eq_refl) (file_world_dependable [("/h/hiera.yaml", deep_cfg)] deep_files eq_refl)
                     deep_wellformed) C85_sessions_ex) as (N & E & _).
  exists N. exact E.
Qed.

Example C85_one_outcome_ex : forall n os, session_is deep_w deep_disk (fun _ => []) (CfYaml deep_cfg) n deep_rs os -> os = deep_os.
Proof.
  intros n os H. destruct C85_sessions_ex as (n' & H').
  exact (C85_one_outcome deep_w deep_disk (fun _ => []) (CfYaml deep_cfg) n n' deep_rs os deep_os
           (file_world_still deep_cfg deep_files eq_refl) (file_world_dependable [("/h/hiera.yaml", deep_cfg)] deep_files eq_refl)
           deep_wellformed H H').
Qed.

(** A variable that has itself in its value. *)
Definition ring_sc : scope := ScMap [(VStr "env", VStr "%{env}")].
Definition ring_q : request := deep_ask ring_sc "a".

Lemma ring_wellformed : wellformed ring_q.
Proof.
  split; [ exists "a", []; reflexivity | ]. intros x v E. cbn in E.
  repeat match type of E with (if ?b then _ else _) = _ => destruct b end; try discriminate E; injection E as <-; reflexivity.
Qed.

Lemma ring_cut : well_cut [("", "env")] "" /\ well_cut [("", "env")] ".yaml".
Proof. split; apply cut_by_tokens; vm_compute; reflexivity. Qed.

Lemma env_written : written_key "env" [PStr "env"].
Proof. apply plain_key_by; reflexivity. Qed.

Lemma env_calls name arg : ~ calls (trim_space "env") name arg.
Proof. revert name arg. apply method_match_none. reflexivity. Qed.

Lemma env_something : ~ In (trim_space "env") [""; "::"; """"""; "''"; """::"""; "'::'"].
Proof. cbn. intros H. repeat (destruct H as [H|H]; [ discriminate H | ]). exact H. Qed.

Definition in_ring (sc : scope) : Prop := scope_get sc "env" = Some (VStr "%{env}").
Lemma ring_circular sc : in_ring sc -> circular sc (fun x => x = "env").
Proof.
  intros Hsc x ->. exists "%{env}", "env". split; [ exact Hsc | ]. split; [ | reflexivity ].
  exists [("", "env")], "", "", "env", []. split; [ exact (proj1 ring_cut) | ]. split; [ reflexivity | ]. split; [ left; reflexivity | ].
  split; [ exact env_something | ]. split; [ exact env_calls | exact env_written ].
Qed.

Lemma ring_mentions : mentions "%{env}.yaml" "env".
Proof.
  exists [("", "env")], ".yaml", "", "env", []. split; [ exact (proj2 ring_cut) | ]. split; [ reflexivity | ]. split; [ left; reflexivity | ].
  split; [ exact env_something | ]. split; [ exact env_calls | exact env_written ].
Qed.

(** It gives no lookup a value, ... *)
Example C85_circular_ex : forall N, exists o,
  fst (serve deep_w N false [ring_q] (init_st (ScMap []) None)) = [o] /\ (o = NoFuel \/ exists err, o = Panic err).
Proof.
  intro N. apply (C85_circular deep_w deep_disk (fun _ => []) (CfYaml deep_cfg) (levels_in ["%{env}"; "common"]) (fun x => x = "env")
    (level_in "%{env}") (LPath "%{env}.yaml" "" false) "%{env}.yaml" "env" ring_q (ScMap []) N).
  - apply file_world_still. reflexivity.
  - vm_compute. reflexivity.
  - apply file_world_dependable. reflexivity.
  - exact ring_wellformed.
  - intros (ps & E). discriminate E.
  - exact (ring_circular ring_sc eq_refl).
  - left. reflexivity.
  - exists [LPath "%{env}.yaml" "" false]. split; [ reflexivity | left; reflexivity ].
  - left. exists "", false. reflexivity.
  - exact ring_mentions.
  - reflexivity.
Qed.

Lemma plain_unexpandable w sc n t x : ~ has "%{" t -> ~ unexpandable w sc n t x.
Proof.
  intros H U. destruct n as [|n]; [ exact U | ]. destruct U as (pre & u & e & post & last & rs & E & W & _).
  assert (W0 : well_cut [] t) by (split; [ constructor | intros (a & b & c & Q); apply H; exists a, (b ++ "}" ++ c)%string; exact Q ]).
  destruct (cut_unique _ _ _ _ W0 W E) as [C _]. destruct pre; discriminate C.
Qed.

Lemma ring_unexpandable w sc x : in_ring sc -> forall n last, last = "" \/ last = ".yaml" -> ~ unexpandable w sc n ("%{env}" ++ last) x.
Proof.
  intro Hsc. induction n as [|n IH]; intros last Hl U; [ exact U | ]. destruct U as (pre & u & e & post & last' & rs & E & W & _ & F).
  assert (W0 : well_cut [("", "env")] last) by (destruct Hl as [-> | ->]; apply ring_cut).
  assert (E0 : assembled [("", "env")] last = assembled (pre ++ (u, e) :: post) last') by (rewrite <- E; reflexivity).
  destruct (cut_unique _ _ _ _ W0 W E0) as [C _]. destruct pre as [|p pre]; [ | destruct pre; discriminate C ].
  injection C as <- <- _. destruct F as [name arg C _|_ _ [M|y ps v Hk Hg V]].
  - exact (env_calls _ _ C).
  - apply misspelt_refused in M. change (trim_space "env") with "env" in M. rewrite (written_new _ _ env_written) in M. discriminate M.
  - change (trim_space "env") with "env" in Hk. pose proof (written_det _ _ _ env_written Hk) as Q. injection Q as <- _.
    unfold in_ring in Hsc. rewrite Hsc in Hg. injection Hg as <-. inversion V as [t x' H| | |]; subst. exact (IH "" (or_introl eq_refl) H).
Qed.

Lemma plain_expands w sc n t t' : ~ has "%{" t -> expands_in w sc n t t' -> t' = t.
Proof.
  intros H U. destruct n as [|n]; [ contradiction U | ]. destruct U as (cut & rs & last & W & E & -> & F).
  assert (W0 : well_cut [] t) by (split; [ constructor | intros (a & b & c & Q); apply H; exists a, (b ++ "}" ++ c)%string; exact Q ]).
  destruct (cut_unique _ _ _ _ W0 W E) as [<- <-]. inversion F. reflexivity.
Qed.

Section Ring.
  Variables (w : world) (od : string -> bool) (mt : string -> list string) (n : nat) (sc : scope).
  Hypothesis Hsc : in_ring sc.

  Lemma ring_expands t' : ~ expands_in w sc n "%{env}.yaml" t'.
  Proof. exact (circular_expands w sc _ (ring_circular sc Hsc) n _ _ _ ring_mentions eq_refl). Qed.

  Lemma ring_no_hierarchy es : ~ hierarchy_in w od mt n sc (levels_in ["%{env}"; "common"]) es.
  Proof.
    intros (d & ds & _ & F & _). inversion F as [|? ? ? ? L _]; subst. destruct L as [f dd pd o' ls _ _ _ _ (lss & L & _)].
    inversion L as [|? ? ? ? L1 _]; subst. inversion L1 as [? ? ? t' T| | |]; subst. exact (ring_expands t' T).
  Qed.

  Lemma ring_no_error x : ~ hierarchy_not w od mt n sc (levels_in ["%{env}"; "common"]) x.
  Proof.
    assert (P : ~ has "%{" "yaml_data" /\ ~ has "%{" "data" /\ ~ has "%{" "plugin") by (repeat split; apply contains_not; reflexivity).
    destruct P as (P1 & P2 & P3). intros [Hd|d pre e post es Hd E F Hx].
    - destruct Hd as [F|f _ [_ U]|f dd _ _ [_ U]|f dd pd _ _ _ (o & E & _)|f dd pd o pre l post lss _ _ _ _ E _ _]; try discriminate E.
      + destruct F as [f E U|f t E T U|d0 f E _ _ _]; try discriminate E; injection E as <-; cbn [f_name] in *.
        * exact (plain_unexpandable _ _ _ _ _ P1 U).
        * rewrite (plain_expands _ _ _ _ _ P1 T) in U. exact (plain_unexpandable _ _ _ _ _ P1 U).
      + exact (plain_unexpandable _ _ _ _ _ P2 U).
      + exact (plain_unexpandable _ _ _ _ _ P3 U).
    - assert (D : forall f, e_function d = Some f -> f_name f = "yaml_data").
      { intros f Ef. destruct Hd as [f' dd pd o ls Ff _ _ _ _]. injection Ef as <-.
        destruct Ff as [f t t' E' T T'|d0 f t E' _ _ _|E' _ _]; try discriminate E'. injection E' as <-. cbn [f_name] in *.
        rewrite (plain_expands _ _ _ _ _ P1 T) in T'. exact (plain_expands _ _ _ _ _ P1 T'). }
      assert (Y : e = level_in "%{env}" \/ pre <> []).
      { destruct pre as [|p pre]; [ left | right; discriminate ]. injection E as <- _. reflexivity. }
      destruct Y as [->|Y].
      + destruct Hx as [Ff|f _ [Z _]|f dd _ _ [Z _]|f dd pd _ _ _ (o & Eo & _)|f dd pd o pre' l post' lss _ _ _ _ El Fl Ul];
          [ | exact (Z eq_refl) | exact (Z eq_refl) | discriminate Eo | ].
        * destruct Ff as [f Ef U|f t Ef T U|d0 f _ Ed Ef U]; try discriminate Ef. injection Ed as <-. rewrite (D f Ef) in U.
          exact (plain_unexpandable _ _ _ _ _ P1 U).
        * destruct pre' as [|p' pre']; [ | destruct pre'; discriminate El ]. injection El as <- _. inversion Ul as [? ? ? U| | | |]; subst.
          exact (ring_unexpandable w sc x Hsc n ".yaml" (or_intror eq_refl) U).
      + destruct pre as [|p pre]; [ congruence | ]. injection E as <- _. inversion F as [|? ? ? ? L _]; subst.
        destruct L as [f dd pd o' ls _ _ _ _ (lss & L & _)]. inversion L as [|? ? ? ? L1 _]; subst.
        inversion L1 as [? ? ? t' T| | |]; subst. exact (ring_expands t' T).
  Qed.
End Ring.

(** ... and no error either. *)
Example C85_endless_ex : forall N, fst (serve deep_w N false [ring_q] (init_st (ScMap []) None)) = [NoFuel].
Proof.
  apply (C85_endless deep_w deep_disk (fun _ => []) (CfYaml deep_cfg) ring_q (ScMap []) (file_world_still deep_cfg deep_files eq_refl)
           (file_world_dependable [("/h/hiera.yaml", deep_cfg)] deep_files eq_refl) ring_wellformed).
  assert (Ec : config_new (w_env deep_w) (w_cfgpath deep_w) (CfYaml deep_cfg) = Ok (levels_in ["%{env}"; "common"])) by (vm_compute; reflexivity).
  intros (n & o & [c Hc H|x Hx _]); [ | congruence ]. rewrite Ec in Hc. injection Hc as <-.
  inversion H as [|? ? ? ? Hco _]; subst. clear H.
  destruct o as [v|x| |]; cbn [comes_to] in Hco; try contradiction; destruct Hco as [Hco|(es & Hh & _)];
    try exact (ring_no_hierarchy _ _ _ _ ring_sc eq_refl es Hh).
  - destruct Hco as [(ps & E) _]. discriminate E.
  - destruct Hco as [_ Hn]. exact (ring_no_error _ _ _ _ ring_sc eq_refl x Hn).
Qed.

(** A configuration of a version that is not supported: the first lookup says so,
    a lookup of the options before and after it gives nothing, and the others
    wait for ever. *)
Definition old_cfg : value := vmap [("version", VInt 4)].
Definition old_w : world := file_world [("/h/hiera.yaml", old_cfg)] deep_files.
Definition old_err : err := match config_new [] "/h/hiera.yaml" (CfYaml old_cfg) with Panic x => x | _ => EErr "" end.

Lemma old_wellformed k : wellformed (deep_ask (ScMap []) k).
Proof. split; [ exists k, []; reflexivity | intros x v E; discriminate E ]. Qed.

Example C85_unreadable_ex : forall N, fst (serve old_w (S N) false [deep_ask (ScMap []) "a"; deep_ask (ScMap []) "b"; deep_ask (ScMap []) "a"]
  (init_st (ScMap []) None)) = [Panic old_err; Hang; Hang].
Proof.
  intro N. apply (C85_unreadable old_w deep_disk (fun _ => []) (CfYaml old_cfg) old_err N).
  - apply file_world_still. reflexivity.
  - vm_compute. reflexivity.
  - repeat (constructor; [ apply old_wellformed | ]). constructor.
  - repeat (constructor; [ intros (ps & E); discriminate E | ]). constructor.
Qed.

Example C85_unreadable_session : session_is old_w deep_disk (fun _ => []) (CfYaml old_cfg) 0
  [deep_ask (ScMap []) "lookup_options"; deep_ask (ScMap []) "a"; deep_ask (ScMap []) "lookup_options"; deep_ask (ScMap []) "b"]
  [Ok None; Panic old_err; Ok None; Hang].
Proof.
  apply si_no_config with (x := old_err); [ vm_compute; reflexivity | ].
  apply wc_options; [ exists []; reflexivity | ]. apply wc_other; [ intros (ps & E); discriminate E | ].
  apply wc_options; [ exists []; reflexivity | ]. apply wc_other; [ intros (ps & E); discriminate E | ]. constructor.
Qed.

Example C85_settled_ex : hierarchy_in (file_world [("/h/hiera.yaml", levels ["node"; "common"])] deep_files) deep_disk (fun _ => []) 2 deep_sc (levels_in ["node"; "common"])
  (map (level_out deep_disk) ["node"; "common"]).
Proof.
  apply (C85_settled (file_world [("/h/hiera.yaml", levels ["node"; "common"])] deep_files) deep_disk (fun _ => [])
           (CfYaml (levels ["node"; "common"]))).
  - apply file_world_still. reflexivity.
  - vm_compute. reflexivity.
  - intros x v E. cbn in E. repeat match type of E with (if ?b then _ else _) = _ => destruct b end; try discriminate E; injection E as <-; reflexivity.
  - apply levels_resolved. reflexivity.
Qed.
