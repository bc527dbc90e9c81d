(** Property C92: what happens in a session with modules when one of its
    functions fails, or when the configuration file of the session or of a module
    cannot be read. *)

From Coq Require Import String Ascii List ZArith Bool Arith Lia.
From Verif Require Import Str Value Outcome Key Merge Fpath Config Ipl Explain State Engine Session Worlds
  SpecKey SpecIpl SpecInterp SpecConfig SpecMerge SpecPath SpecLookup SpecFail SpecMux SpecTop SpecExplain SpecModules Transparent
  KeyFacts ValueFacts MergeLookup StrFacts IplFacts InterpFacts IplExact Fuel ResolveFacts LookupTop SettledLookup ExLevels
  AnswerFacts RootFacts P_Modules P_Lookup P_MuxLookup ModulesExact ModulesStop P_ModuleSessions.
Import ListNotations.
Open Scope nat_scope.
Open Scope string_scope.
Open Scope list_scope.

(** A request that comes to nothing, in its own scope. *)
Definition module_stopped (w : world) (on_disk : string -> bool) (matching : string -> list string)
           (rd : string -> dir_list) (ls : string -> lstat) (fs : list lkfn) (n : nat) (r : request)
           (file : option string) (x : err) : Prop :=
  exists sites, sites_are w on_disk matching (q_scope r) n sites /\
                stopped w rd ls (q_scope r) sites fs (q_key r) (q_opts r) file x.

(** A session when the configuration files [bad] were found to be broken before.
    A broken file fails the request that comes to it first; all others that come
    to it wait for ever.  Any other request is as if nothing had happened. *)
Section Session.
  Variables (w : world) (on_disk : string -> bool) (matching : string -> list string)
            (rd : string -> dir_list) (ls : string -> lstat) (fs : list lkfn) (n : nat).

  Inductive module_session : list string -> list request -> list (outcome (option value)) -> Prop :=
  | me_end : forall bad, module_session bad [] []
  | me_answer : forall bad q o rs os, module_answer w on_disk matching rd ls fs n q o ->
      module_session bad rs os -> module_session bad (q :: rs) (Ok o :: os)
  | me_error : forall bad q x rs os, module_stopped w on_disk matching rd ls fs n q None x ->
      module_session bad rs os -> module_session bad (q :: rs) (Panic x :: os)
  | me_broken : forall bad q file x rs os, module_stopped w on_disk matching rd ls fs n q (Some file) x -> ~ In file bad ->
      module_session (file :: bad) rs os -> module_session bad (q :: rs) (Panic x :: os)
  | me_waits : forall bad q file x rs os, module_stopped w on_disk matching rd ls fs n q (Some file) x -> In file bad ->
      module_session bad rs os -> module_session bad (q :: rs) (Hang :: os).
End Session.

Lemma stopped_broken w rd ls sc sites fs k opts file x : stopped w rd ls sc sites fs k opts (Some file) x -> broken w file x.
Proof.
  intros (r & ps & pre & f & post & outs & _ & _ & _ & _ & _ & H). inversion H; subst; assumption.
Qed.

Lemma kept_iff w rd ls (p q : string -> Prop) s : (forall f, p f <-> q f) -> kept_over w rd ls p s -> kept_over w rd ls q s.
Proof.
  intros E [H1 H2 H3]. constructor; [ | exact H2 | exact H3 ]. intro path. specialize (H1 path).
  destruct (aget path (s_shared s)) as [[c|]|]; [ exact H1 | now apply E | intro Q; apply H1; now apply E ].
Qed.

Lemma stopped_request w od mt rd ls fs n N (locked : string -> Prop) r file x s : steady_modules w od mt rd ls fs -> n <= N ->
  (forall path, locked path -> exists x, broken w path x) ->
  module_stopped w od mt rd ls fs n r file x -> kept_over w rd ls locked s ->
  exists o s', run_lookup w (S (S (S (S N)))) (q_key r) (q_opts r) (invocation (q_scope r) false s) = (o, s') /\
    stop_end w rd ls locked file x o s'.
Proof.
  intros [H1 H2 H3 H4 H5] HN Hb (sites & Hs & Hl) Hk.
  destruct (lookup_stops w rd ls od mt H3 H1 H2 (q_scope r) n sites Hs locked Hb fs H5 H4 N (q_key r) (q_opts r) file x
              (invocation (q_scope r) false s)) as (o & s' & E & Hk'); [ lia | now apply starts_steady | exact Hl | ].
  change (run_lookup w (S (S (S (S N)))) (q_key r) (q_opts r))
    with (bind (bind (lookup w (run w (S (S (S N)))) (q_key r) (q_opts r)) (fun v => ret (v, true))) (fun r => ret (fst r))).
  destruct (stop_end_bind w rd ls locked file x _ (fun v => ret (v, true)) o _ s' E Hk') as (o2 & s2 & E2 & K2).
  exact (stop_end_bind w rd ls locked file x _ (fun r => ret (fst r)) o2 _ s2 E2 K2).
Qed.

Lemma failing_serve w od mt rd ls fs n N : steady_modules w od mt rd ls fs -> 3 * n <= N ->
  forall bad rs os, module_session w od mt rd ls fs n bad rs os ->
  (forall f, In f bad -> exists x, broken w f x) ->
  forall s, kept_over w rd ls (fun f => In f bad) s -> fst (serve w (S (S (S (S N)))) false rs s) = os.
Proof.
  intros Hw HN bad rs os H.
  assert (Step : forall q rs o os s s', run_lookup w (S (S (S (S N)))) (q_key q) (q_opts q) (invocation (q_scope q) false s) = (o, s') ->
            fst (serve w (S (S (S (S N)))) false rs s') = os -> fst (serve w (S (S (S (S N)))) false (q :: rs) s) = o :: os).
  { intros q rs' o os' s s' E F. cbn [serve]. rewrite E. destruct (serve w (S (S (S (S N)))) false rs' s') as [a b]. simpl in *. congruence. }
  induction H as [bad|bad q o rs os Hq _ IH|bad q x rs os Hq _ IH|bad q file x rs os Hq Hn _ IH|bad q file x rs os Hq Hn _ IH];
    intros Hb s Hk; [ reflexivity | .. ].
  - destruct (module_request w od mt rd ls fs n N _ q o s Hw HN Hb Hq Hk) as (s' & E & K).
    exact (Step q rs (Ok o) os s s' E (IH Hb s' K)).
  - destruct (stopped_request w od mt rd ls fs n N _ q None x s Hw ltac:(lia) Hb Hq Hk) as (o & s' & E & -> & K).
    exact (Step q rs (Panic x) os s s' E (IH Hb s' K)).
  - destruct (stopped_request w od mt rd ls fs n N _ q (Some file) x s Hw ltac:(lia) Hb Hq Hk) as (o & s' & E & [(F & _)|(_ & -> & K)]);
      [ contradiction | ].
    refine (Step q rs (Panic x) os s s' E (IH _ s' _)).
    + intros f [<-|F]; [ | exact (Hb f F) ]. destruct Hq as (sites & _ & Hq). exists x. exact (stopped_broken _ _ _ _ _ _ _ _ _ _ Hq).
    + refine (kept_iff w rd ls (fun p => p = file \/ In p bad) _ s' _ K).
      intro f. split; (intros [F|F]; [ left; congruence | right; exact F ]).
  - destruct (stopped_request w od mt rd ls fs n N _ q (Some file) x s Hw ltac:(lia) Hb Hq Hk) as (o & s' & E & [(_ & -> & K)|(F & _)]);
      [ | contradiction ].
    exact (Step q rs Hang os s s' E (IH Hb s' K)).
Qed.

(** ** Sessions with failures *)

Theorem C92_sessions : forall w on_disk matching rd ls fs n N rs os,
  steady_modules w on_disk matching rd ls fs -> 3 * n <= N ->
  module_session w on_disk matching rd ls fs n [] rs os ->
  (forall sc, fst (serve w (4 + N) false rs (init_st sc None)) = os) /\
  (forall sc options only,
     fst (serve w (4 + N) true rs (init_st sc (Some (new_explainer options only)))) = os).
Proof.
  intros w od mt rd ls fs n N rs os Hw HN H.
  assert (E : forall sc, fst (serve w (4 + N) false rs (init_st sc None)) = os).
  { intro sc. apply (failing_serve w od mt rd ls fs n N Hw HN [] rs os H); [ intros f [] | ]. apply starts_kept. }
  split; [ exact E | ]. intros sc options only. rewrite <- (E sc).
  exact (proj1 (sim_serve w (4 + N) rs (init_st sc (Some (new_explainer options only))) (init_st sc None) eq_refl eq_refl)).
Qed.
Print Assumptions C92_sessions.

(** The description says at most one thing about a session. *)
Theorem C92_one_outcome : forall w on_disk matching rd ls fs n m rs os os',
  steady_modules w on_disk matching rd ls fs ->
  module_session w on_disk matching rd ls fs n [] rs os -> module_session w on_disk matching rd ls fs m [] rs os' -> os = os'.
Proof.
  intros w od mt rd ls fs n m rs os os' Hw Ha Hb.
  destruct (C92_sessions w od mt rd ls fs n (3 * n + 3 * m) rs os Hw) as [A _]; [ lia | auto | ].
  destruct (C92_sessions w od mt rd ls fs m (3 * n + 3 * m) rs os' Hw) as [B _]; [ lia | auto | ].
  rewrite <- (A (ScMap [])), <- (B (ScMap [])). reflexivity.
Qed.
Print Assumptions C92_one_outcome.

(** A key that belongs to the module whose configuration file is [file], when the
    functions that are asked before have options for it or none. *)
Definition key_of_module (w : world) (on_disk : string -> bool) (matching : string -> list string)
           (rd : string -> dir_list) (ls : string -> lstat) (fs : list lkfn) (n : nat) (file : string) (q : request) : Prop :=
  exists sites r ps name before after outs,
    sites_are w on_disk matching (q_scope q) n sites /\ k_parts (q_key q) = PStr r :: ps /\ correct_key r /\
    namespace r name /\ in_path rd ls name (module_dirs w) (Some file) /\ fs = before ++ LkModule :: after /\
    Forall2 (option_of w rd ls (q_scope q) sites (match q_opts q with Some o => o | None => [] end) r) before outs.

Lemma key_stopped w od mt rd ls fs n file x q : broken w file x -> key_of_module w od mt rd ls fs n file q ->
  module_stopped w od mt rd ls fs n q (Some file) x.
Proof.
  intros Hb (sites & r & ps & name & before & after & outs & Hs & Hk & Hc & Hn & Hp & Hf & Ho). exists sites. split; [ exact Hs | ].
  exists r, ps, before, LkModule, after, outs. split; [ exact Hk | ].
  split. { intros ->. destruct (proj1 (namespace_split _ _) Hn) as [_ (rest & E)]. discriminate E. }
  split; [ exact Hc | ]. split; [ exact Hf | ]. split; [ exact Ho | ]. eapply sp_module; eassumption.
Qed.

(** A module with a broken configuration file does no harm until one of its keys
    is looked up.  That lookup fails with what is wrong with the file.  All later
    lookups of its keys never end; all others go on as if the module was fine. *)
Theorem C92_broken_module : forall w on_disk matching rd ls fs n N file x before vs q after os,
  steady_modules w on_disk matching rd ls fs -> 3 * n <= N -> broken w file x ->
  Forall2 (module_answer w on_disk matching rd ls fs n) before vs ->
  key_of_module w on_disk matching rd ls fs n file q ->
  Forall2 (fun q o => key_of_module w on_disk matching rd ls fs n file q /\ o = Hang \/
                      exists v, module_answer w on_disk matching rd ls fs n q v /\ o = Ok v) after os ->
  forall sc, fst (serve w (4 + N) false (before ++ q :: after) (init_st sc None)) = map Ok vs ++ Panic x :: os.
Proof.
  intros w od mt rd ls fs n N file x before vs q after os Hw HN Hx Hb Hq Ha sc.
  refine (proj1 (C92_sessions w od mt rd ls fs n N _ _ Hw HN _) sc).
  induction Hb as [|p v l vs Hp _ IH]; cbn [app map]; [ | now apply me_answer ].
  apply (me_broken _ _ _ _ _ _ _ [] q file x); [ now apply key_stopped | intros [] | ].
  induction Ha as [|p o l os [[Hp ->]|(v & Hp & ->)] _ IH]; [ constructor | | now apply me_answer ].
  apply (me_waits _ _ _ _ _ _ _ _ p file x); [ now apply key_stopped | now left | exact IH ].
Qed.
Print Assumptions C92_broken_module.

(** A module path that cannot be read fails every lookup of a key in a module,
    again and again, and no other. *)
Theorem C92_module_path : forall w on_disk matching rd ls fs n N rs os,
  steady_modules w on_disk matching rd ls fs -> 3 * n <= N ->
  Forall2 (fun q o =>
    (exists v, module_answer w on_disk matching rd ls fs n q v /\ o = Ok v) \/
    (exists sites r ps name before after outs x,
       sites_are w on_disk matching (q_scope q) n sites /\ k_parts (q_key q) = PStr r :: ps /\ correct_key r /\
       namespace r name /\ path_fails rd ls name (module_dirs w) x /\ fs = before ++ LkModule :: after /\
       Forall2 (option_of w rd ls (q_scope q) sites (match q_opts q with Some o => o | None => [] end) r) before outs /\
       o = Panic x)) rs os ->
  forall sc, fst (serve w (4 + N) false rs (init_st sc None)) = os.
Proof.
  intros w od mt rd ls fs n N rs os Hw HN H sc.
  refine (proj1 (C92_sessions w od mt rd ls fs n N _ _ Hw HN _) sc).
  induction H as [|q o rs os [(v & Hq & ->)|(sites & r & ps & name & before & after & outs & x & Hs & Hk & Hc & Hn & Hp & Hf & Ho & ->)] _ IH];
    [ constructor | now apply me_answer | ].
  apply me_error; [ | exact IH ]. exists sites. split; [ exact Hs | ].
  exists r, ps, before, LkModule, after, outs. split; [ exact Hk | ].
  split. { intros ->. destruct (proj1 (namespace_split _ _) Hn) as [_ (rest & E)]. discriminate E. }
  split; [ exact Hc | ]. split; [ exact Hf | ]. split; [ exact Ho | ]. eapply sp_path; eassumption.
Qed.
Print Assumptions C92_module_path.

(** ** Examples *)

(** A session with a module whose configuration file holds a text; what is found
    in the directory of modules is left open. *)
Definition mf_common : entries := [(VStr "port", VStr "443"); (VStr "bad::x", VStr "never")].
Definition mf_data : list (string * value) := [("/h/data/common.yaml", VMap mf_common)].
Definition mf_fs : list lkfn := [LkConfig; LkEnv; LkModule].
Definition mf_config : list (string * value) := [("/h/hiera.yaml", levels ["common"]); ("/mods/Bad/hiera.yaml", VStr "oops")].
Definition mf_rd (d : dir_list) (p : string) : dir_list := if String.eqb p "/mods" then d else DirMissing.
Definition mf_w (d : dir_list) : world :=
  let w := with_top LkMux (Some mf_fs) (with_modules ["Bad"] (file_world mf_config mf_data)) in
  mk_world (w_stat w) (w_glob w) (w_config w) (w_yaml w) (w_json w) (fun _ => mf_rd d) (w_lstat w)
           (w_fun w) (w_plugin w) (w_call w) (w_dig w) (w_env w) (w_cwd w) (w_show w) (w_parse_type w) (w_new w)
           (w_top w) (w_cfgpath w) (w_mux w) (w_modpath w) (w_yamlpath w).
Definition mf_disk : string -> bool := fun p => match aget p mf_data with Some _ => true | None => false end.
Definition mf_ls (p : string) : lstat :=
  if String.eqb p "/h/hiera.yaml" || String.eqb p "/mods/Bad/hiera.yaml" then LsFound false else LsMissing.
Definition mf_here : dir_list := DirEntries [("Bad", true)].
Definition mf_gone : dir_list := DirError (EErr "/mods: permission denied").

Example C92_ex_world : forall d, steady_modules (mf_w d) mf_disk (fun _ => []) (mf_rd d) mf_ls mf_fs.
Proof.
  intro d. constructor; try reflexivity. split; intros t p; [ reflexivity | ].
  unfold mf_ls. cbn [mf_w mf_config w_lstat with_top with_modules file_world w_config aget].
  destruct (String.eqb p "/h/hiera.yaml"); [ reflexivity | ]. destruct (String.eqb p "/mods/Bad/hiera.yaml"); reflexivity.
Qed.

Definition mf_session : site :=
  mk_site "" (map (level_out mf_disk) ["common"]) (pure_lookup (SDeep []) (map (under "lookup_options") [Some mf_common])).
Definition mf_sites (p : string) : option site := if String.eqb p "/h/hiera.yaml" then Some mf_session else None.

Lemma mf_level d : level_is (mf_w d) (level_out mf_disk "common") (Some mf_common).
Proof. eapply li_present; reflexivity. Qed.

Example C92_ex_sites : forall d sc n, sites_are (mf_w d) mf_disk (fun _ => []) sc (S n) mf_sites.
Proof.
  intros d sc n path si. unfold mf_sites.
  destruct (String.eqb_spec path "/h/hiera.yaml") as [->|_]; intro E; try discriminate E; injection E as <-.
  exists (CfYaml (levels ["common"])), (levels_in ["common"]). split; [ reflexivity | ]. split; [ reflexivity | ].
  split; [ apply levels_resolved; reflexivity | ]. apply (all_options_more (mf_w d) sc _ 1); [ lia | ].
  apply settled_options; [ constructor; [ exact (mf_level d) | constructor ] | ].
  repeat (apply Forall_cons; [ intros v E; vm_compute in E; first [ discriminate E
              | injection E as <-; split; [ reflexivity | apply settled_by; reflexivity ] ] | ]). apply Forall_nil.
Qed.

Definition mf_port : request := mk_request (ScMap []) (mk_key "port" [PStr "port"]) None.
Definition mf_bad (r : string) : request := mk_request (ScMap []) (mk_key r [PStr r]) None.

Lemma mf_answer d n : module_answer (mf_w d) mf_disk (fun _ => []) (mf_rd d) mf_ls mf_fs (S n) mf_port (Some (VStr "443")).
Proof.
  exists mf_sites. split; [ apply C92_ex_sites | ].
  assert (P : plain_key "port") by (apply plain_key_by; reflexivity).
  apply (settled_among (mf_w d) (mf_rd d) mf_ls mf_fs (ScMap []) mf_sites
           [(None, fun s => pure_lookup s (map (under "port") [Some mf_common])); (None, fun _ => None); (None, fun _ => None)]
           (mk_key "port" [PStr "port"]) "port" [] None None None SFirst None (Some (VStr "443"))).
  - reflexivity.
  - discriminate.
  - exact P.
  - constructor; [ | constructor; [ | constructor; [ | constructor ] ] ]; cbn [fst snd].
    + apply (fh_site (mf_w d) (mf_rd d) mf_ls (ScMap []) mf_sites [] "port" LkConfig mf_session None [Some mf_common]).
      * apply rs_config; reflexivity.
      * apply (so_own "port" mf_session "port"); [ now apply plain_root | now left | apply of_none; discriminate ].
      * constructor; [ exact (mf_level d) | constructor ].
      * constructor; [ | constructor ]. intros v E. injection E as <-. apply ex_quiet_text. reflexivity.
    + exact (fh_other _ _ _ _ _ _ _ _ _ (hv_environment (mf_w d) (mf_rd d) mf_ls (ScMap []) [] "port")).
    + apply fh_other. apply hv_no_module. apply nm_no_namespace. apply ms_no_namespace. reflexivity.
  - vm_compute. constructor. discriminate.
  - apply mo_none; discriminate.
  - apply si_none.
  - apply ci_none; discriminate.
  - apply cv_no_conversion.
  - intros v E. injection E as <-. apply ex_quiet_text. reflexivity.
  - exact (digs_by [] (Some (VStr "443"))).
Qed.

(** The functions before the one for modules have no options for such a key. *)
Lemma mf_before d r : plain_key r -> environment [] r = None -> Forall2 (option_of (mf_w d) (mf_rd d) mf_ls (ScMap []) mf_sites [] r) [LkConfig; LkEnv] [None; None].
Proof.
  intros P He. constructor; [ | constructor; [ | constructor ] ].
  - apply (oo_site (mf_w d) (mf_rd d) mf_ls (ScMap []) mf_sites [] r LkConfig mf_session None); [ apply rs_config; reflexivity | ].
    apply (so_own r mf_session r); [ now apply plain_root | now left | apply of_none; discriminate ].
  - pose proof (hv_environment (mf_w d) (mf_rd d) mf_ls (ScMap []) [] r) as E. change (w_env (mf_w d)) with (@nil (string * string)) in E.
    rewrite He in E. eapply oo_other. exact E.
Qed.

Example C92_ex_broken : broken (mf_w mf_here) "/mods/Bad/hiera.yaml" bad_assert.
Proof. exists (CfYaml (VStr "oops")). split; reflexivity. Qed.

Lemma mf_key rest n : plain_key ("bad::" ++ rest) -> namespace ("bad::" ++ rest) "bad" ->
  key_of_module (mf_w mf_here) mf_disk (fun _ => []) (mf_rd mf_here) mf_ls mf_fs (S n) "/mods/Bad/hiera.yaml" (mf_bad ("bad::" ++ rest)).
Proof.
  intros P Hn. exists mf_sites, ("bad::" ++ rest)%string, [], "bad", [LkConfig; LkEnv], [], [None; None].
  split; [ apply C92_ex_sites | ]. split; [ reflexivity | ]. split; [ now apply plain_correct | ]. split; [ exact Hn | ].
  split; [ | split; [ reflexivity | exact (mf_before mf_here _ P eq_refl) ] ].
  apply ip_here. apply (id_here (mf_rd mf_here) mf_ls "bad" "/mods" [("Bad", true)] "Bad"); [ reflexivity | | reflexivity ].
  apply find_module_first. reflexivity.
Qed.

(** The module does no harm at first, then fails once, although the session has a
    value for the key, and then waits. *)
Example C92_ex_broken_module : forall N,
  fst (serve (mf_w mf_here) (7 + N) false [mf_port; mf_bad "bad::x"; mf_port; mf_bad "bad::x"; mf_bad "bad::y"; mf_port] (init_st (ScMap []) None))
  = [Ok (Some (VStr "443")); Panic bad_assert; Ok (Some (VStr "443")); Hang; Hang; Ok (Some (VStr "443"))].
Proof.
  intro N.
  assert (X : forall rest, split_at "::" ("bad::" ++ rest) = Some ("bad", rest) -> plain_key ("bad::" ++ rest) ->
            key_of_module (mf_w mf_here) mf_disk (fun _ => []) (mf_rd mf_here) mf_ls mf_fs 1 "/mods/Bad/hiera.yaml" (mf_bad ("bad::" ++ rest))).
  { intros rest E P. apply mf_key; [ exact P | ]. apply (ms_namespace "bad" rest); [ discriminate | exact E ]. }
  refine (C92_broken_module (mf_w mf_here) mf_disk (fun _ => []) (mf_rd mf_here) mf_ls mf_fs 1 (3 + N) "/mods/Bad/hiera.yaml" bad_assert
            [mf_port] [Some (VStr "443")] (mf_bad "bad::x") [mf_port; mf_bad "bad::x"; mf_bad "bad::y"; mf_port] _
            (C92_ex_world _) ltac:(lia) C92_ex_broken _ _ _ _).
  - constructor; [ apply mf_answer | constructor ].
  - apply (X "x"); [ reflexivity | apply plain_key_by; reflexivity ].
  - constructor; [ | constructor; [ | constructor; [ | constructor; [ | constructor ] ] ] ].
    + right. eexists. split; [ apply mf_answer | reflexivity ].
    + left. split; [ apply (X "x"); [ reflexivity | apply plain_key_by; reflexivity ] | reflexivity ].
    + left. split; [ apply (X "y"); [ reflexivity | apply plain_key_by; reflexivity ] | reflexivity ].
    + right. eexists. split; [ apply mf_answer | reflexivity ].
Qed.

(** A directory of modules that cannot be read. *)
Example C92_ex_module_path : forall N,
  fst (serve (mf_w mf_gone) (7 + N) false [mf_bad "bad::x"; mf_port; mf_bad "bad::x"] (init_st (ScMap []) None))
  = [Panic (EErr "/mods: permission denied"); Ok (Some (VStr "443")); Panic (EErr "/mods: permission denied")].
Proof.
  intro N.
  refine (C92_module_path (mf_w mf_gone) mf_disk (fun _ => []) (mf_rd mf_gone) mf_ls mf_fs 1 (3 + N) _ _ (C92_ex_world _) ltac:(lia) _ _).
  assert (P : plain_key "bad::x") by (apply plain_key_by; reflexivity).
  assert (F : path_fails (mf_rd mf_gone) mf_ls "bad" (module_dirs (mf_w mf_gone)) (EErr "/mods: permission denied")).
  { apply px_here. apply dx_directory. reflexivity. }
  assert (B : exists sites r ps name before after outs x,
       sites_are (mf_w mf_gone) mf_disk (fun _ => []) (ScMap []) 1 sites /\ [PStr "bad::x"] = PStr r :: ps /\ correct_key r /\
       namespace r name /\ path_fails (mf_rd mf_gone) mf_ls name (module_dirs (mf_w mf_gone)) x /\ mf_fs = before ++ LkModule :: after /\
       Forall2 (option_of (mf_w mf_gone) (mf_rd mf_gone) mf_ls (ScMap []) sites [] r) before outs /\
       Panic (EErr "/mods: permission denied") = @Panic (option value) x).
  { exists mf_sites, "bad::x", [], "bad", [LkConfig; LkEnv], [], [None; None]. eexists.
    split; [ apply C92_ex_sites | ]. split; [ reflexivity | ]. split; [ now apply plain_correct | ].
    split; [ apply (ms_namespace "bad" "x"); [ discriminate | reflexivity ] | ]. split; [ exact F | ].
    split; [ reflexivity | ]. split; [ exact (mf_before mf_gone _ P eq_refl) | reflexivity ]. }
  constructor; [ right; exact B | constructor; [ | constructor; [ right; exact B | constructor ] ] ].
  left. eexists. split; [ apply mf_answer | reflexivity ].
Qed.

(** The same, explained, with the description in two numbers of steps. *)
Lemma mf_session_is n : module_session (mf_w mf_here) mf_disk (fun _ => []) (mf_rd mf_here) mf_ls mf_fs (S n) []
  [mf_bad "bad::x"; mf_port; mf_bad "bad::y"] [Panic bad_assert; Ok (Some (VStr "443")); Hang].
Proof.
  assert (X : forall rest, split_at "::" ("bad::" ++ rest) = Some ("bad", rest) -> plain_key ("bad::" ++ rest) ->
            module_stopped (mf_w mf_here) mf_disk (fun _ => []) (mf_rd mf_here) mf_ls mf_fs (S n) (mf_bad ("bad::" ++ rest))
              (Some "/mods/Bad/hiera.yaml") bad_assert).
  { intros rest E P. apply key_stopped; [ exact C92_ex_broken | ]. apply mf_key; [ exact P | ].
    apply (ms_namespace "bad" rest); [ discriminate | exact E ]. }
  apply (me_broken _ _ _ _ _ _ _ [] _ "/mods/Bad/hiera.yaml");
    [ apply (X "x"); [ reflexivity | apply plain_key_by; reflexivity ] | intros [] | ].
  apply me_answer; [ apply mf_answer | ].
  apply (me_waits _ _ _ _ _ _ _ _ _ "/mods/Bad/hiera.yaml" bad_assert);
    [ apply (X "y"); [ reflexivity | apply plain_key_by; reflexivity ] | now left | constructor ].
Qed.

Example C92_ex_sessions : forall N,
  fst (serve (mf_w mf_here) (7 + N) true [mf_bad "bad::x"; mf_port; mf_bad "bad::y"]
         (init_st (ScMap []) (Some (new_explainer true false))))
  = [Panic bad_assert; Ok (Some (VStr "443")); Hang].
Proof.
  intro N.
  exact (proj2 (C92_sessions (mf_w mf_here) mf_disk (fun _ => []) (mf_rd mf_here) mf_ls mf_fs 1 (3 + N) _ _ (C92_ex_world _)
                  ltac:(lia) (mf_session_is 0)) (ScMap []) true false).
Qed.

Example C92_ex_one_outcome :
  module_session (mf_w mf_here) mf_disk (fun _ => []) (mf_rd mf_here) mf_ls mf_fs 1 []
    [mf_bad "bad::x"; mf_port; mf_bad "bad::y"] [Panic bad_assert; Ok (Some (VStr "443")); Hang] /\
  module_session (mf_w mf_here) mf_disk (fun _ => []) (mf_rd mf_here) mf_ls mf_fs 3 []
    [mf_bad "bad::x"; mf_port; mf_bad "bad::y"] [Panic bad_assert; Ok (Some (VStr "443")); Hang].
Proof. split; apply mf_session_is. Qed.
