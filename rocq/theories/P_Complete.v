(** C83: the description of lookups leaves nothing out. *)

From Coq Require Import String Ascii List ZArith Bool Arith Lia.
From Verif Require Import Str Value Outcome Key Merge Fpath Config Ipl Explain State Engine Session Worlds
  SpecKey SpecKeyErr SpecIpl SpecInterp SpecConfig SpecMerge SpecPath SpecLookup SpecExplain SpecFail SpecWorld Transparent
  KeyFacts KeyErrFacts ValueFacts MergeLookup StrFacts IplFacts InterpFacts IplExact Fuel ResolveFacts LookupTop SettledLookup ExLevels
  FailTop P_Lookup P_Nested P_Fail RootFacts Cycles Decided DecidedTop OptionsAsk.
Import ListNotations.
Open Scope nat_scope.
Open Scope string_scope.
Open Scope list_scope.

(** A request of the kind meant here: a key that starts with a text, as all keys
    that are read do, a scope of values without double keys, and a hierarchy
    that can be resolved in that scope. *)
Definition proper (w : world) (on_disk : string -> bool) (matching : string -> list string) (c : config) (q : request) : Prop :=
  (exists r ps, k_parts (q_key q) = PStr r :: ps) /\
  (forall x v, scope_get (q_scope q) x = Some v -> wf v = true) /\
  exists es, hierarchy_is w on_disk matching (q_scope q) c es.

(** The session has loaded the configuration, or not yet. *)
Definition fresh (w : world) (c : config) (s : st) : Prop :=
  aget (w_cfgpath w) (s_shared s) = None \/ aget (w_cfgpath w) (s_shared s) = Some (ShLoaded c).

Lemma one_decided w od mt c N q s : steady w od mt c -> dependable w -> proper w od mt c q -> fresh w c s ->
  fst (run_lookup w (S (S (S N))) (q_key q) (q_opts q) (invocation (q_scope q) false s)) = NoFuel \/
  exists o, leads_to w od mt c (S (S N)) q o.
Proof.
  intros [H1 H2 H3 (file & H4 & H5)] Hw ((r & ps & Hk) & Hv & es & Hh) Hs.
  destruct (string_dec r "lookup_options") as [->|Hr].
  { right. exists (Ok None). right. exists ps. auto. }
  destruct (lookup_decided w N (q_scope q) c file es H4 H5 H3 (hierarchy_created w od mt _ c es N H1 H2 Hh) Hw Hv (q_key q) (q_opts q) r ps
              (invocation (q_scope q) false s) Hk Hr eq_refl eq_refl Hs) as [(o & H)|[(x & H)|H]].
  - right. exists (Ok o). left. exists es. auto.
  - right. exists (Panic x). exists es. auto.
  - left. change (run_lookup w (S (S (S N))) (q_key q) (q_opts q))
      with (bind (bind (lookup w (run w (S (S N))) (q_key q) (q_opts q)) (fun v => ret (v, true))) (fun r => ret (fst r))).
    apply fst_bind. apply fst_bind. exact H.
Qed.

Lemma one_served w od mt c n N q o s : steady w od mt c -> n <= S (S N) -> leads_to w od mt c n q o -> fresh w c s ->
  exists s', run_lookup w (S (S (S N))) (q_key q) (q_opts q) (invocation (q_scope q) false s) = (o, s') /\ fresh w c s'.
Proof.
  intros [H1 H2 H3 (file & H4 & H5)] HN Hl Hs.
  change (run_lookup w (S (S (S N))) (q_key q) (q_opts q))
    with (bind (bind (lookup w (run w (S (S N))) (q_key q) (q_opts q)) (fun v => ret (v, true))) (fun r => ret (fst r))).
  unfold bind. destruct o as [v|x| |]; cbn [leads_to] in Hl; try contradiction;
    [ destruct Hl as [(es & Hh & Hl)|(ps & Ek & ->)] | destruct Hl as (es & Hh & Hl) ].
  - destruct (lookup_run w n N HN (q_scope q) c file H4 H5 H3 es (q_key q) (q_opts q) v
                (invocation (q_scope q) false s) eq_refl eq_refl Hs (hierarchy_created w od mt _ c es N H1 H2 Hh) Hl) as (s' & E & Hs').
    exists s'. rewrite E. split; [ reflexivity | exact Hs' ].
  - eexists. unfold lookup, bind, lift, root. rewrite Ek. cbn [String.eqb Ascii.eqb Bool.eqb].
    rewrite node_off by reflexivity. rewrite report_off by reflexivity. split; [ reflexivity | exact Hs ].
  - destruct (lookup_failing w n N HN (q_scope q) c file H4 H5 H3 es (q_key q) (q_opts q) x
                (invocation (q_scope q) false s) eq_refl eq_refl Hs (hierarchy_created w od mt _ c es N H1 H2 Hh) Hl) as (s' & E & Hs').
    exists s'. rewrite E. split; [ reflexivity | exact Hs' ].
Qed.

Lemma one_complete w od mt c N q s : steady w od mt c -> dependable w -> proper w od mt c q -> fresh w c s ->
  fst (run_lookup w (S (S (S N))) (q_key q) (q_opts q) (invocation (q_scope q) false s)) <> NoFuel ->
  leads_to w od mt c (S (S N)) q (fst (run_lookup w (S (S (S N))) (q_key q) (q_opts q) (invocation (q_scope q) false s))) /\
  fresh w c (snd (run_lookup w (S (S (S N))) (q_key q) (q_opts q) (invocation (q_scope q) false s))).
Proof.
  intros Hst Hw Hp Hs H. destruct (one_decided w od mt c N q s Hst Hw Hp Hs) as [E|(o & Ho)]; [ congruence | ].
  destruct (one_served w od mt c (S (S N)) N q o s Hst (le_n _) Ho Hs) as (s' & E & Hs'). rewrite E. auto.
Qed.

Lemma serve_complete w od mt c N : steady w od mt c -> dependable w ->
  forall rs s, Forall (proper w od mt c) rs -> fresh w c s ->
  Forall (fun o => o <> NoFuel) (fst (serve w (S (S (S N))) false rs s)) ->
  Forall2 (leads_to w od mt c (S (S N))) rs (fst (serve w (S (S (S N))) false rs s)).
Proof.
  intros Hst Hw rs. induction rs as [|q rs IH]; intros s Hp Hs Hf; [ constructor | ].
  inversion Hp as [|? ? Hq Hrs]; subst. pose proof (one_complete w od mt c N q s Hst Hw Hq Hs) as One.
  cbn [serve] in *.
  destruct (run_lookup w (S (S (S N))) (q_key q) (q_opts q) (invocation (q_scope q) false s)) as [o s1].
  cbn [fst snd] in One. specialize (IH s1 Hrs).
  destruct (serve w (S (S (S N))) false rs s1) as [os s2]. cbn [fst] in *.
  inversion Hf as [|? ? Ho Hos]; subst. destruct (One Ho) as [Hl Hs1]. constructor; [ exact Hl | exact (IH Hs1 Hos) ].
Qed.

Lemma serve_more w n n' : n <= n' -> forall rs s, Forall (fun o => o <> NoFuel) (fst (serve w n false rs s)) ->
  serve w n' false rs s = serve w n false rs s.
Proof.
  intro H. induction rs as [|q rs IH]; intros s Hf; [ reflexivity | ]. cbn [serve] in *.
  assert (E : fst (run_lookup w n (q_key q) (q_opts q) (invocation (q_scope q) false s)) <> NoFuel).
  { destruct (run_lookup w n (q_key q) (q_opts q) (invocation (q_scope q) false s)) as [o s1].
    destruct (serve w n false rs s1) as [os s2]. inversion Hf; subst. assumption. }
  rewrite (run_lookup_mono w n n' _ _ _ H E).
  destruct (run_lookup w n (q_key q) (q_opts q) (invocation (q_scope q) false s)) as [o s1].
  rewrite IH; [ reflexivity | ]. destruct (serve w n false rs s1) as [os s2]. inversion Hf; subst. assumption.
Qed.

(** ** C83 *)

(** The outcomes of a session in which every lookup ends are exactly those of the
    stateless description: what it says happens, and nothing else does. *)
Theorem C83_sessions : forall w on_disk matching c rs os sc,
  steady w on_disk matching c -> dependable w -> Forall (proper w on_disk matching c) rs ->
  ((exists N, fst (serve w N false rs (init_st sc None)) = os /\ Forall (fun o => o <> NoFuel) os) <->
   exists n, Forall2 (leads_to w on_disk matching c n) rs os).
Proof.
  intros w od mt c rs os sc Hst Hw Hp. split.
  - intros (N & <- & Hf). exists (S (S N)).
    assert (HN : N <= S (S (S N))) by lia. rewrite <- (serve_more w N (S (S (S N))) HN rs (init_st sc None) Hf) in Hf |- *.
    apply (serve_complete w od mt c N Hst Hw rs (init_st sc None) Hp); [ left; reflexivity | exact Hf ].
  - intros (n & H). exists (2 + (n + 1)). split.
    + apply (C82_sessions w od mt c n (n + 1) rs os Hst (le_n _) H).
    + clear - H. induction H as [|q o rs os Ho _ IH]; constructor; [ | exact IH ].
      intros ->. exact Ho.
Qed.
Print Assumptions C83_sessions.

(** With an explainer it is the same. *)
Theorem C83_explained : forall w on_disk matching c rs os sc options only,
  steady w on_disk matching c -> dependable w -> Forall (proper w on_disk matching c) rs ->
  ((exists N, fst (serve w N true rs (init_st sc (Some (new_explainer options only)))) = os /\ Forall (fun o => o <> NoFuel) os) <->
   exists n, Forall2 (leads_to w on_disk matching c n) rs os).
Proof.
  intros w od mt c rs os sc options only Hst Hw Hp. rewrite <- (C83_sessions w od mt c rs os sc Hst Hw Hp).
  split; intros (N & E & Hf); exists N; (split; [ | exact Hf ]); rewrite <- E.
  - symmetry. exact (proj1 (sim_serve w N rs (init_st sc (Some (new_explainer options only))) (init_st sc None) eq_refl eq_refl)).
  - exact (proj1 (sim_serve w N rs (init_st sc (Some (new_explainer options only))) (init_st sc None) eq_refl eq_refl)).
Qed.
Print Assumptions C83_explained.

(** The description says one thing at most. *)
Theorem C83_one_answer : forall w on_disk matching c n n' q o o',
  steady w on_disk matching c -> leads_to w on_disk matching c n q o -> leads_to w on_disk matching c n' q o' -> o = o'.
Proof.
  intros w od mt c n n' q o o' Hst H H'.
  destruct (one_served w od mt c n (n + n') q o (init_st (ScMap []) None) Hst) as (s & E & _); [ lia | exact H | left; reflexivity | ].
  destruct (one_served w od mt c n' (n + n') q o' (init_st (ScMap []) None) Hst) as (s' & E' & _); [ lia | exact H' | left; reflexivity | ].
  congruence.
Qed.
Print Assumptions C83_one_answer.

(** A lookup goes on for ever exactly if the description says nothing about it. *)
Theorem C83_endless : forall w on_disk matching c q sc,
  steady w on_disk matching c -> dependable w -> proper w on_disk matching c q ->
  ((forall N, fst (serve w N false [q] (init_st sc None)) = [NoFuel]) <->
   ~ exists n o, leads_to w on_disk matching c n q o).
Proof.
  intros w od mt c q sc Hst Hw Hp. split.
  - intros H (n & o & Ho).
    destruct (C82_sessions w od mt c n (n + 1) [q] [o] Hst (le_n _)) as [E _]; [ constructor; [ exact Ho | constructor ] | ].
    specialize (E sc). rewrite H in E. injection E as <-. exact Ho.
  - intros H N.
    assert (K : forall a, fst (serve w N false [q] (init_st sc None)) = [a] -> a = NoFuel).
    { intros a E. destruct a as [v|x| |]; [ | | | reflexivity ]; exfalso; apply H;
        (destruct (proj1 (C83_sessions w od mt c [q] (fst (serve w N false [q] (init_st sc None))) sc Hst Hw (Forall_cons q Hp (Forall_nil _)))) as (n & L);
          [ exists N; split; [ reflexivity | rewrite E; constructor; [ discriminate | constructor ] ] | ];
         rewrite E in L; inversion L; subst; eauto). }
    cbn [serve] in *. destruct (run_lookup w N (q_key q) (q_opts q) (invocation (q_scope q) false (init_st sc None))) as [a s1].
    cbn [fst] in *. f_equal. apply K. reflexivity.
Qed.
Print Assumptions C83_endless.

(** ** Examples *)

Lemma file_world_dependable cfgs data : forallb (fun e => wf (snd e)) data = true -> dependable (file_world cfgs data).
Proof.
  intro H.
  assert (F : forall p, exists f, (forall t : list event, match aget p data with Some v => DfValue v | None => DfMissing end = f) /\
     forall v, f = DfValue v -> wf v = true).
  { intro p. eexists. split; [ reflexivity | ]. intros v E. destruct (aget p data) as [v'|] eqn:A; [ | discriminate ].
    injection E as ->. clear - H A. induction data as [|[k v'] l IH]; [ discriminate | ]. cbn in H, A. apply andb_true_iff in H as [H1 H2].
    destruct (String.eqb p k); [ congruence | exact (IH H2 A) ]. }
  constructor; cbn.
  - exact F.
  - exact F.
  - intro n. exists false. reflexivity.
  - intros path n. left. exists false. reflexivity.
  - intros f a. left. exists None. split; [ reflexivity | exact tidy_none ].
  - intros f ps. left. exists None. split; [ reflexivity | exact tidy_none ].
  - intro t. left. destruct (String.eqb t "sensitive"); eexists; reflexivity.
  - intros ty v l W. left. exists v. auto.
  - exists "work". reflexivity.
Qed.

(** A session with values, errors of five kinds and the key of the options. *)
Definition dec_files : list (string * value) :=
  [("/h/data/node.yaml",
    vmap [("a", VStr "%{lookup('b')} and %{hiera('c.0')}"); ("bad", VArr [VStr "%{ nope('x') }"]);
          ("n", VInt 5); ("deep", VStr "%{lookup('bad.0')}");
          ("lookup_options", vmap [("n", vmap [("convert_to", VInt 3)]); ("b", vmap [("merge", VStr "bogus")])])]);
   ("/h/data/common.yaml", vmap [("c", VArr [VStr "%{x}"])])].
Definition dec_w : world := file_world [("/h/hiera.yaml", levels ["node"; "common"])] dec_files.
Definition dec_disk : string -> bool := fun p => match aget p dec_files with Some _ => true | None => false end.
Definition dec_ask (t : string) (ps : list part) : request := mk_request (ScMap [(VStr "x", VStr "X")]) (mk_key t ps) None.
Definition dec_rs : list request :=
  [dec_ask "c.0" [PStr "c"; PInt 0]; dec_ask "a" [PStr "a"]; dec_ask "bad" [PStr "bad"]; dec_ask "n" [PStr "n"];
   dec_ask "b" [PStr "b"]; dec_ask "deep" [PStr "deep"]; dec_ask "lookup_options.n" [PStr "lookup_options"; PStr "n"]; dec_ask "z" [PStr "z"]].
Definition dec_os : list (outcome (option value)) :=
  [Ok (Some (VStr "X")); Ok (Some (VStr " and X")); Panic (EErr "unknown interpolation method 'nope'"); Panic (EErr "interface conversion");
   Panic (EErr "unknown merge strategy 'bogus'"); Panic (EErr "unknown interpolation method 'nope'"); Ok None; Ok None].

Lemma dec_proper : Forall (proper dec_w dec_disk (fun _ => []) (levels_in ["node"; "common"])) dec_rs.
Proof.
  assert (G : forall t r ps, proper dec_w dec_disk (fun _ => []) (levels_in ["node"; "common"]) (dec_ask t (PStr r :: ps))).
  { intros t r ps. split; [ exists r, ps; reflexivity | ]. split.
    - intros x v E. unfold scope_get, mgets in E. cbn [dec_ask q_scope mget] in E.
      destruct (veq (VStr x) (VStr "x")); [ injection E as <-; reflexivity | discriminate ].
    - exists (map (level_out dec_disk) ["node"; "common"]). apply levels_resolved. reflexivity. }
  unfold dec_rs. do 8 (constructor; [ apply G | ]). constructor.
Qed.

Example C83_sessions_ex : exists n, Forall2 (leads_to dec_w dec_disk (fun _ => []) (levels_in ["node"; "common"]) n) dec_rs dec_os.
Proof.
  apply (C83_sessions dec_w dec_disk (fun _ => []) (levels_in ["node"; "common"]) dec_rs dec_os (ScMap [])).
  - apply file_world_steady. reflexivity.
  - apply file_world_dependable. reflexivity.
  - exact dec_proper.
  - exists 12. split; [ vm_compute; reflexivity | ]. unfold dec_os. do 8 (constructor; [ discriminate | ]). constructor.
Qed.

Example C83_explained_ex : exists N, fst (serve dec_w N true dec_rs (init_st (ScMap []) (Some (new_explainer true false)))) = dec_os.
Proof.
  destruct (proj2 (C83_explained dec_w dec_disk (fun _ => []) (levels_in ["node"; "common"]) dec_rs dec_os (ScMap []) true false
                     (file_world_steady ["node"; "common"] dec_files eq_refl) (file_world_dependable [("/h/hiera.yaml", levels ["node"; "common"])] dec_files eq_refl) dec_proper) C83_sessions_ex) as (N & E & _).
  exists N. exact E.
Qed.

Example C83_one_answer_ex : forall n o,
  leads_to dec_w dec_disk (fun _ => []) (levels_in ["node"; "common"]) n (dec_ask "n" [PStr "n"]) o -> o = Panic (EErr "interface conversion").
Proof.
  intros n o H. destruct C83_sessions_ex as (n' & L).
  inversion L as [|? ? ? ? _ L1]; subst. inversion L1 as [|? ? ? ? _ L2]; subst. inversion L2 as [|? ? ? ? _ L3]; subst.
  inversion L3 as [|? ? ? ? H' _]; subst.
  exact (C83_one_answer dec_w dec_disk (fun _ => []) (levels_in ["node"; "common"]) n n' _ _ _ (file_world_steady ["node"; "common"] dec_files eq_refl) H H').
Qed.

(** The description says nothing of the keys of a cycle. *)
Example C83_endless_ex : ~ exists n o,
  leads_to cyc_w cyc_disk (fun _ => []) (levels_in ["node"; "common"]) n (mk_request (ScMap []) (mk_key "a" [PStr "a"]) None) o.
Proof.
  apply (C83_endless cyc_w cyc_disk (fun _ => []) (levels_in ["node"; "common"]) (mk_request (ScMap []) (mk_key "a" [PStr "a"]) None) (ScMap [])).
  - apply file_world_steady. reflexivity.
  - apply file_world_dependable. reflexivity.
  - split; [ exists "a", []; reflexivity | ]. split; [ intros x v E; discriminate E | ].
    exists (map (level_out cyc_disk) ["node"; "common"]). apply levels_resolved. reflexivity.
  - intro N. cbn [serve q_key q_opts q_scope].
    assert (E : fst (run_lookup cyc_w N (mk_key "a" [PStr "a"]) None (invocation (ScMap []) false (init_st (ScMap []) None))) = NoFuel).
    { apply (C19_cycles_never_end cyc_w cyc_disk (fun _ => []) (levels_in ["node"; "common"]) (ScMap [])
             (map (level_out cyc_disk) ["node"; "common"]) cyc_files (fun r => In r ["a"; "b"])
             (mk_key "a" [PStr "a"]) "a" [] None None SFirst); try discriminate; try reflexivity.
      - apply file_world_steady. reflexivity.
      - apply levels_resolved; reflexivity.
      - exact cyc_levels.
      - repeat constructor.
      - exact C19_endless_ex.
      - left. reflexivity.
      - apply mo_none; discriminate.
      - apply si_none. }
    destruct (run_lookup cyc_w N (mk_key "a" [PStr "a"]) None (invocation (ScMap []) false (init_st (ScMap []) None))) as [o s].
    cbn [fst] in *. rewrite E. reflexivity.
Qed.

(** Lookup options in which a lookup is written: the options of the hierarchy
    are wanted before anything is looked up, so that no lookup ever ends, of
    whatever key and in whichever level the options are. *)
Theorem C83_options_that_look_up : forall w on_disk matching c q pre ls e m post v t r r' ps,
  steady w on_disk matching c ->
  hierarchy_is w on_disk matching (q_scope q) c (pre ++ e :: post) ->
  Forall2 (level_is w) pre ls ->
  Forall (fun l => forall v, under "lookup_options" l = Some v -> wf v = true /\ settled v) ls ->
  level_is w e (Some m) -> mgets "lookup_options" m = Some v ->
  first_text t v -> asks_for t r -> r <> "lookup_options" ->
  k_parts (q_key q) = PStr r' :: ps -> r' <> "lookup_options" ->
  forall N sc, fst (serve w N false [q] (init_st sc None)) = [NoFuel].
Proof.
  intros w od mt c q pre ls e m post v t r r' ps [H1 H2 H3 (file & H4 & H5)] Hh Hp Hl He Hm Hv Ht Hr Hk Hr' N sc.
  assert (E : fst (run_lookup w N (q_key q) (q_opts q) (invocation (q_scope q) false (init_st sc None))) = NoFuel).
  { apply (asking_lookup w od mt H1 H2 (q_scope q) c file (pre ++ e :: post) H4 H5 H3 Hh pre e post ls m v t r eq_refl Hp Hl He Hm Hv Ht Hr
             N (q_key q) (q_opts q) r' ps _ Hk Hr'); [ reflexivity | reflexivity | reflexivity | left; reflexivity ]. }
  cbn [serve]. destruct (run_lookup w N (q_key q) (q_opts q) (invocation (q_scope q) false (init_st sc None))) as [o s].
  cbn [fst] in *. rewrite E. reflexivity.
Qed.
Print Assumptions C83_options_that_look_up.

(** The options of common.yaml name the type of a number by a lookup; after that
    not even a key of node.yaml that needs no options can be looked up. *)
Definition ask_options : value :=
  vmap [("m", vmap [("merge", VStr "deep")]); ("n", vmap [("convert_to", VStr "%{lookup('type')}")])].
Definition ask_common : entries := [(VStr "type", VStr "integer"); (VStr "lookup_options", ask_options)].
Definition ask_files : list (string * value) :=
  [("/h/data/node.yaml", vmap [("a", VInt 1)]); ("/h/data/common.yaml", VMap ask_common)].
Definition ask_w : world := file_world [("/h/hiera.yaml", levels ["node"; "common"])] ask_files.
Definition ask_disk : string -> bool := fun p => match aget p ask_files with Some _ => true | None => false end.
Definition ask_q : request := mk_request (ScMap []) (mk_key "a" [PStr "a"]) None.

Example C83_options_that_look_up_ex :
  (forall N, fst (serve ask_w N false [ask_q] (init_st (ScMap []) None)) = [NoFuel]) /\
  ~ exists n o, leads_to ask_w ask_disk (fun _ => []) (levels_in ["node"; "common"]) n ask_q o.
Proof.
  assert (R : hierarchy_is ask_w ask_disk (fun _ => []) (ScMap []) (levels_in ["node"; "common"])
                ([level_out ask_disk "node"] ++ level_out ask_disk "common" :: [])) by (apply levels_resolved with (ns := ["node"; "common"]); reflexivity).
  assert (E : forall N, fst (serve ask_w N false [ask_q] (init_st (ScMap []) None)) = [NoFuel]).
  { intro N. eapply (C83_options_that_look_up ask_w ask_disk (fun _ => []) (levels_in ["node"; "common"]) ask_q
             [level_out ask_disk "node"] [Some [(VStr "a", VInt 1)]] (level_out ask_disk "common") ask_common [] ask_options
             "%{lookup('type')}" "type" "a" []).
    - apply file_world_steady. reflexivity.
    - exact R.
    - constructor; [ eapply li_present; reflexivity | constructor ].
    - constructor; [ intros v V; discriminate V | constructor ].
    - eapply li_present; reflexivity.
    - reflexivity.
    - apply (ft_value _ [(VStr "m", vmap [("merge", VStr "deep")])] (VStr "n") (vmap [("convert_to", VStr "%{lookup('type')}")]) []).
      + constructor; [ | constructor ]. split; (split; [ reflexivity | apply settled_by; reflexivity ]).
      + reflexivity.
      + apply settled_by. reflexivity.
      + apply (ft_value _ [] (VStr "convert_to") (VStr "%{lookup('type')}") []); [ constructor | reflexivity | apply settled_by; reflexivity | constructor ].
    - exists "", "lookup('type')", "", "lookup", "type", [].
      split; [ reflexivity | ]. split; [ apply contains_not; reflexivity | ]. split; [ apply contains_not; reflexivity | ].
      split; [ apply ex_calls; reflexivity | ]. split; [ left; reflexivity | apply written_by; reflexivity ].
    - discriminate.
    - reflexivity.
    - discriminate. }
  split; [ exact E | ].
  apply (C83_endless ask_w ask_disk (fun _ => []) (levels_in ["node"; "common"]) ask_q (ScMap [])).
  - apply file_world_steady. reflexivity.
  - apply file_world_dependable. reflexivity.
  - split; [ exists "a", []; reflexivity | ]. split; [ intros x v V; discriminate V | ].
    exists ([level_out ask_disk "node"] ++ level_out ask_disk "common" :: []). exact R.
  - exact E.
Qed.
