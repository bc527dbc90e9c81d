(** C79: the programs as a whole, from their arguments and the files to what they
    write and answer. *)

From Coq Require Import String Ascii List ZArith Bool Arith Lia.
From Verif Require Import Str Value Outcome Key Merge Fpath Config Ipl Explain State Engine Session Worlds Api Rest Cmd New Args Flags RestArgs Program
  SpecKey SpecIpl SpecInterp SpecConfig SpecMerge SpecLookup SpecMux SpecApi SpecArgs
  Meta SpecExplain Transparent KeyFacts ValueFacts MergeLookup StrFacts IplExact LookupTop SettledLookup ExLevels
  InterpFacts AnswerFacts MuxExact P_Api P_Command P_Rest P_Lookup P_Cmd P_MuxLookup P_FromFiles P_New.
From Verif Require SpecFlags P_Flags SpecRestArgs P_RestArgs.
Import ListNotations.
Open Scope nat_scope.
Open Scope string_scope.
Open Scope list_scope.

(** The configuration that a program uses: the one of the option, or else the file
    in the working directory that the environment names, or hiera.yaml. *)
Inductive used_config (env : environ) (cwd : string) (config : string) : string -> Prop :=
| uc_option : config <> "" -> used_config env cwd config config
| uc_env f : config = "" -> lookup_env env "HIERA_CONFIGFILE" = Some f -> is_abs f = false -> used_config env cwd config (join2 cwd f)
| uc_default : config = "" -> lookup_env env "HIERA_CONFIGFILE" = None -> used_config env cwd config (join2 cwd "hiera.yaml").

(** The dialects and their names. *)
Definition dialect_named (t : string) (d : dialect) : Prop := t = "dgo" /\ d = DDgo \/ t = "pcore" /\ d = DPcore.

Section Programs.
  Context {T : Type}.
  Variable inst : T -> option value -> bool.
  Variable conv : T -> option value -> outcome (option value).
  Variable any : T.
  Variable parse_type : dialect -> string -> outcome T.
  Variable struct_of : T -> option (list (string * T)).
  Variable parse : dialect -> string -> outcome value.
  Variable file : string -> var_file.
  Variable stdin : var_file.
  Variable render : string -> value -> outcome string.
  Variable render_explainer : string -> M st string.
  Variable outside : dialect -> world.
  Variable show : value -> string.
  Hypothesis show_text : forall t, show (VStr t) = t.
  Variable env : environ.
  Variable cwd : string.
  Variable kill : M process unit.
  Variable usage version : string.

  Notation prog fuel := (program inst conv any parse_type struct_of parse file stdin render render_explainer outside show env (Ok cwd) kill fuel usage version).

  Lemma session_made dialect config cfg d path p : dialect_named dialect d -> used_config env cwd config path ->
    session_options dialect config cfg ->
    make_session outside show env (Ok cwd) cfg LkMux [LkConfig; LkEnv] p =
    (Ok (d, session_world (outside d) LkMux path [LkConfig; LkEnv], ScMap []), mk_process_state (pr_out p) (init_st (ScMap []) None)).
  Proof.
    intros Hd Hu Hc. unfold make_session, new_session.
    assert (Sh : forall t, show (VStr t) = t) by exact show_text.
    destruct Hc as [Ec|Nc].
    - subst config. unfold mputall. cbn [fold_left fst snd mput].
      change (mgets "Hiera::Config" [(VStr "Hiera::Dialect", VStr dialect)]) with (@None value). cbv iota.
      unfold add_hiera_config.
      change (mgets "Hiera::Root" [(VStr "Hiera::Dialect", VStr dialect)]) with (@None value).
      change (mgets "Hiera::ConfigFileName" [(VStr "Hiera::Dialect", VStr dialect)]) with (@None value).
      cbv iota. cbn [obind]. inversion Hu as [N|f _ Ef _|_ Ef]; subst; [contradiction| |]; rewrite Ef.
      all: cbn -[join2 lookup_env]; unfold new_dialect, config_path; cbn -[join2];
           destruct Hd as [[-> ->]|[-> ->]]; cbn -[join2]; rewrite Sh; reflexivity.
    - assert (path = config) by (inversion Hu; congruence). subst path.
      unfold mputall. cbn [fold_left fst snd]. cbn -[join2]. unfold new_dialect, config_path. cbn -[join2].
      destruct Hd as [[-> ->]|[-> ->]]; cbn; rewrite Sh; reflexivity.
  Qed.

  (** ** C79, the command

      A command whose arguments are settings and names, as C77 reads them, that
      uses a configuration and a dialect: it writes what the files say about the
      names, as its options ask for, and nothing else, and its exit status is
      0. *)
  Theorem C79_command : forall args ss names o dialect config d path on_disk matching c fs t dv vars mo es all n N found b out p,
    SpecFlags.reads args ss names -> SpecFlags.sensible ss -> ~ switched "help" ss -> ~ switched "version" ss -> names <> [] ->
    P_Flags.options_from ss o dialect config ->
    dialect_named dialect d -> used_config env cwd config path ->
    steady_mux (session_world (outside d) LkMux path [LkConfig; LkEnv]) on_disk matching c fs ->
    asked_type any (parse_type d) o t -> asked_default (parse d) o dv ->
    create_scope (parse d) file (co_variables o) (co_var_paths o) (co_fact_paths o) stdin = Ok vars ->
    ~ switched "explain" ss -> ~ switched "explain-options" ss -> asked_merge o mo ->
    hierarchy_is (session_world (outside d) LkMux path [LkConfig; LkEnv]) on_disk matching (ScNest (ScMap []) vars) c es ->
    all_options (session_world (outside d) LkMux path [LkConfig; LkEnv]) (ScNest (ScMap []) vars) es n all -> 2 * n <= N ->
    found_for inst conv struct_of (mux_name_is (session_world (outside d) LkMux path [LkConfig; LkEnv]) (ScNest (ScMap []) vars) es all fs n mo) o names t dv found ->
    shows render (if String.eqb (co_render_as o) "" then "yaml" else co_render_as o) found (b, out) ->
    (forall q, exists q', kill q = (Ok tt, q') /\ pr_out q' = pr_out q) ->
    exists q, prog (4 + N) args p = (Ok 0, q) /\ pr_out q = (pr_out p ++ out)%string.
  Proof.
    intros args ss names o dialect config d path od mt c fs t dv vars mo es all n N found b out p
      Hr Hs Hh Hv Hn Ho Hd Hu Hw Ht Hdv Hvars He Heo Hm Hhi Ha HN Hf Hsh Hk.
    assert (E : snd (execute first_flags args) = AcLookup o dialect config names).
    { rewrite (P_Flags.C77_program first_flags args). apply (proj2 (P_Flags.C77_lookup first_flags args o dialect config names)).
      exists ss. auto 10. }
    unfold program. rewrite E.
    assert (Xd : co_explain_data o = false).
    { destruct (co_explain_data o) eqn:X; [|reflexivity]. elim He. apply (P_Flags.of_explain _ _ _ _ Ho). exact X. }
    assert (Xo : co_explain_options o = false).
    { destruct (co_explain_options o) eqn:X; [|reflexivity]. elim Heo. apply (P_Flags.of_options _ _ _ _ Ho). exact X. }
    destruct (C73_command inst conv any (parse_type d) struct_of (parse d) file stdin render render_explainer
                (session_world (outside d) LkMux path [LkConfig; LkEnv]) od mt c fs (ScMap []) o names t dv vars mo es all n N found b out
                Hw Ht Hdv Hvars Xd Xo Hm Hhi Ha HN Hf Hsh (init_st (ScMap []) None)) as (s' & L & _); [ left; reflexivity | ].
    assert (Hc : exists cfg, session_options dialect config cfg).
    { destruct (String.eqb_spec config "") as [Y|Y]; eexists; [apply so_default|apply so_config]; exact Y. }
    destruct Hc as (cfg & Hc).
    destruct (Hk (mk_process_state (pr_out p ++ out) s')) as (q & K & Kq).
    exists q. split; [|exact Kq].
    apply (proj2 (C68_success _ _ _ _ o dialect config names p _)). split; [exact Hn|].
    exists cfg. eexists. eexists. exists b, out. exists (mk_process_state (pr_out p) s'), (mk_process_state (pr_out p ++ out) s').
    split; [exact Hc|]. split; [exact (session_made dialect config cfg d path p Hd Hu Hc)|].
    split; [|split; [reflexivity|exact K]].
    unfold render_in, in_session. cbn [pr_session pr_out]. unfold look_and_render in L. rewrite L. reflexivity.
  Qed.

  (** Arguments that are refused: nothing is looked up or written, and the exit
      status is 1. *)
  Theorem C79_refused : forall args fuel p, (forall a, In a args -> ~ short a) ->
    (forall ss names, SpecFlags.reads args ss names -> SpecFlags.sensible ss ->
       names = [] /\ ~ switched "help" ss /\ ~ switched "version" ss) ->
    prog fuel args p = (Ok 1, p).
  Proof.
    intros args fuel p Hs H. unfold program. rewrite (P_Flags.C77_program first_flags args).
    rewrite (proj2 (P_Flags.C77_refused first_flags args Hs) H). reflexivity.
  Qed.

  (** A dialect that there is not: nothing is looked up or written, and the exit
      status is 1. *)
  Theorem C79_unknown_dialect : forall args ss names o dialect config fuel p,
    SpecFlags.reads args ss names -> SpecFlags.sensible ss -> ~ switched "help" ss -> ~ switched "version" ss -> names <> [] ->
    P_Flags.options_from ss o dialect config -> dialect <> "dgo" -> dialect <> "pcore" ->
    prog fuel args p = (Ok 1, p).
  Proof.
    intros args ss names o dialect config fuel p Hr Hs Hh Hv Hn Ho Nd Np.
    assert (E : snd (execute first_flags args) = AcLookup o dialect config names).
    { rewrite (P_Flags.C77_program first_flags args). apply (proj2 (P_Flags.C77_lookup first_flags args o dialect config names)).
      exists ss. auto 10. }
    unfold program. rewrite E. unfold main, cmd_lookup. destruct names as [|x names]; [contradiction|].
    assert (M : forall top mux, make_session outside show env (Ok cwd)
       ((VStr "Hiera::Dialect", VStr dialect) :: (if String.eqb config "" then [] else [(VStr "Hiera::Config", VStr config)])) top mux p =
       (Panic (EErr ("unknown dialect '" ++ dialect ++ "'")), p)).
    { intros top mux. unfold make_session.
      match goal with |- context [new_session show env (Ok cwd) ?c] =>
        assert (W : wfm (options_given c)) by (destruct (String.eqb config ""); reflexivity);
        rewrite (proj2 (C40_refused show env (Ok cwd) c (EErr ("unknown dialect '" ++ dialect ++ "'")) W))
      end; [reflexivity|].
      right. split; [intros (_ & _ & K); exact (K cwd eq_refl)|].
      exists dialect. split; [reflexivity|]. auto. }
    unfold bind at 1, try_with_parent, catch. unfold bind at 1. rewrite M. reflexivity.
  Qed.

  (** Help and the version: the text, and the exit status is 0. *)
  Theorem C79_help : forall args ss names fuel p,
    SpecFlags.reads args ss names -> SpecFlags.sensible ss -> switched "help" ss ->
    exists q, prog fuel args p = (Ok 0, q) /\ pr_out q = (pr_out p ++ usage)%string /\ pr_session q = pr_session p.
  Proof.
    intros args ss names fuel p Hr Hs Hh. unfold program. rewrite (P_Flags.C77_program first_flags args).
    rewrite (proj2 (P_Flags.C77_help first_flags args)) by eauto 6.
    eexists. split; [reflexivity|]. split; reflexivity.
  Qed.

  (** The same command with an explanation: it is the explanation that is written,
      in the state in which the lookups of the same names have left it; whether
      something was found makes no difference to the exit status. *)
  Theorem C79_command_explained : forall args ss names o dialect config d path on_disk matching c fs t dv vars mo es all n N found p,
    SpecFlags.reads args ss names -> SpecFlags.sensible ss -> ~ switched "help" ss -> ~ switched "version" ss -> names <> [] ->
    P_Flags.options_from ss o dialect config ->
    dialect_named dialect d -> used_config env cwd config path ->
    steady_mux (session_world (outside d) LkMux path [LkConfig; LkEnv]) on_disk matching c fs ->
    asked_type any (parse_type d) o t -> asked_default (parse d) o dv ->
    create_scope (parse d) file (co_variables o) (co_var_paths o) (co_fact_paths o) stdin = Ok vars ->
    switched "explain" ss \/ switched "explain-options" ss -> asked_merge o mo ->
    hierarchy_is (session_world (outside d) LkMux path [LkConfig; LkEnv]) on_disk matching (ScNest (ScMap []) vars) c es ->
    all_options (session_world (outside d) LkMux path [LkConfig; LkEnv]) (ScNest (ScMap []) vars) es n all -> 2 * n <= N ->
    found_for inst conv struct_of (mux_name_is (session_world (outside d) LkMux path [LkConfig; LkEnv]) (ScNest (ScMap []) vars) es all fs n mo) o names t dv found ->
    (forall q, exists q', kill q = (Ok tt, q') /\ pr_out q' = pr_out q) ->
    exists s2, shared_ok (session_world (outside d) LkMux path [LkConfig; LkEnv]) c s2 /\ x_open (s_ex s2) = [] /\
      forall out s3, render_explainer (if String.eqb (co_render_as o) "" then "s" else co_render_as o) s2 = (Ok out, s3) ->
      exists q, prog (4 + N) args p = (Ok 0, q) /\ pr_out q = (pr_out p ++ out)%string.
  Proof.
    intros args ss names o dialect config d path od mt c fs t dv vars mo es all n N found p
      Hr Hs Hh Hv Hn Ho Hd Hu Hw Ht Hdv Hvars He Hm Hhi Ha HN Hf Hk.
    assert (E : snd (execute first_flags args) = AcLookup o dialect config names).
    { rewrite (P_Flags.C77_program first_flags args). apply (proj2 (P_Flags.C77_lookup first_flags args o dialect config names)).
      exists ss. auto 10. }
    assert (X : co_explain_data o = true \/ co_explain_options o = true).
    { destruct He as [He|He]; [left; apply (P_Flags.of_explain _ _ _ _ Ho)|right; apply (P_Flags.of_options _ _ _ _ Ho)]; exact He. }
    destruct (C73_command_explained inst conv any (parse_type d) struct_of (parse d) file stdin render render_explainer
                (session_world (outside d) LkMux path [LkConfig; LkEnv]) od mt c fs (ScMap []) o names t dv vars mo es all n N found
                Hw Ht Hdv Hvars X Hm Hhi Ha HN Hf (init_st (ScMap []) None)) as (s2 & A & B & L); [ left; reflexivity | ].
    exists s2. split; [exact A|]. split; [exact B|]. intros out s3 R. specialize (L out s3 R).
    unfold program. rewrite E.
    assert (Hc : exists cfg, session_options dialect config cfg).
    { destruct (String.eqb_spec config "") as [Y|Y]; eexists; [apply so_default|apply so_config]; exact Y. }
    destruct Hc as (cfg & Hc).
    destruct (Hk (mk_process_state (pr_out p ++ out) s3)) as (q & K & Kq).
    exists q. split; [|exact Kq].
    apply (proj2 (C68_success _ _ _ _ o dialect config names p _)). split; [exact Hn|].
    exists cfg. eexists. eexists. eexists. exists out. exists (mk_process_state (pr_out p) s3), (mk_process_state (pr_out p ++ out) s3).
    split; [exact Hc|]. split; [exact (session_made dialect config cfg d path p Hd Hu Hc)|].
    split; [|split; [reflexivity|exact K]].
    unfold render_in, in_session. cbn [pr_session pr_out]. unfold look_and_render in L. rewrite L. reflexivity.
  Qed.

  Variable clean : string -> string.

  (** ** C80, the same answer, in part

      A lookup with the command and a request to the service for the same name:
      the same type, default, variables and files of variables, and the same way
      to merge. *)
  Definition same_request (o so : command_options) (p : params) : Prop :=
    co_type o = first_or_empty (pa_type p) /\
    (co_merge o = first_or_empty (pa_merge p) \/ In (co_merge o) [""; "first"] /\ In (first_or_empty (pa_merge p)) [""; "first"]) /\
    co_default o = hd_error (pa_default p) /\
    co_variables o = co_variables so ++ pa_var p /\ co_var_paths o = co_var_paths so /\ co_fact_paths o = [] /\
    co_render_as o = "json" /\ co_lookup_all o = false.

  (** With --dialect dgo and the same configuration: what the service answers with
      the status 200, the command writes, and when the service answers that there
      is no value, the command writes nothing; its exit status is 0 both times.
      Full statement: so does a command without --dialect; see
      C80_one_language_refuted. *)
  Theorem C80_same_answer_partial : forall args ss so o config on_disk matching c fs n N path key q r p,
    SpecFlags.reads args ss [key] -> SpecFlags.sensible ss -> ~ switched "help" ss -> ~ switched "version" ss ->
    ~ switched "explain" ss -> ~ switched "explain-options" ss ->
    P_Flags.options_from ss o "dgo" config -> config <> "" -> same_request o so q ->
    steady_mux (session_world (outside DDgo) LkMux config [LkConfig; LkEnv]) on_disk matching c fs -> 2 * n <= N ->
    lookup_path path key ->
    response_is inst conv any (parse_type DDgo) (parse DDgo) file stdin render clean (co_variables so) (co_var_paths so)
      (session_world (outside DDgo) LkMux config [LkConfig; LkEnv]) on_disk matching c fs (ScMap []) n (path, q) r ->
    (forall x, exists x', kill x = (Ok tt, x') /\ pr_out x' = pr_out x) ->
    (forall body, r = Respond 200 body -> exists p', prog (4 + N) args p = (Ok 0, p') /\ pr_out p' = (pr_out p ++ body)%string) /\
    (forall body, r = Respond 404 body -> exists p', prog (4 + N) args p = (Ok 0, p') /\ pr_out p' = pr_out p).
  Proof.
    intros args ss so o config od mt c fs n N path key q r p Hr Hs Hh Hv He Heo Ho Hc (Qt & Qm & Qd & Qv & Qp & Qf & Qr & Qa) Hw HN Hk0 Hre Hk.
    inversion Hre as [path' key' q' tp mo dv vars es all v found r' H1 H2 H3 H4 H5 H6 H7 H8 H9 H10 H11 H12 E1 E2
                     |path' key' q' m e H1 H2 H3 H4 H5 E1 E2]; subst; [|split; discriminate].
    assert (key' = key) by (destruct Hk0 as [K0 _], H1 as [K1 _]; rewrite K0 in K1; injection K1 as K1; symmetry; exact K1). subst key'.
    assert (G : forall b out, shows render "json" found (b, out) -> exists p', prog (4 + N) args p = (Ok 0, p') /\ pr_out p' = (pr_out p ++ out)%string).
    { intros b out Hsh.
      apply (C79_command args ss [key] o "dgo" config DDgo config od mt c fs tp dv vars mo es all n N found b out p); auto.
      - discriminate.
      - left. split; reflexivity.
      - apply uc_option. exact Hc.
      - unfold asked_type. rewrite Qt. inversion H4 as [E E0|t E Nt E0]; [left; split; [exact E|congruence]|right].
        rewrite E. split; [exact Nt|]. first [assumption|symmetry; assumption|congruence].
      - unfold asked_default. rewrite Qd. inversion H6 as [E E0|rest E E0|d rest v0 E Nd Cv E0]; rewrite E; cbn [hd_error].
        + reflexivity.
        + reflexivity.
        + apply String.eqb_neq in Nd. rewrite Nd. eauto.
      - rewrite Qv, Qp, Qf. exact H7.
      - assert (Z : In (co_merge o) [""; "first"] <-> In (first_or_empty (pa_merge q)) [""; "first"]) by (destruct Qm as [->|[A B]]; tauto).
        inversion H5 as [E E0|m E N1 N2 E0].
        + apply am_none. apply Z. cbn. intuition congruence.
        + destruct Qm as [Qm|[_ [B|[B|[]]]]]; [|congruence|congruence].
          rewrite <- E, <- Qm. apply am_some. rewrite Qm, E. intros [B|[B|[]]]; congruence.
      - eapply ff_first; [exact Qa| |exact H11]. destruct v as [v|].
        + apply (pk_first _ [] key []); [constructor|exact H10].
        + apply pk_none. constructor; [exact H10|constructor].
      - rewrite Qr. exact Hsh. }
    split; intros body ->; destruct found as [v'|].
    - destruct H12 as (body' & Hb & E). injection E as <-. apply (G true). apply sh_value. exact Hb.
    - discriminate H12.
    - destruct H12 as (body' & _ & E). discriminate E.
    - destruct (G false "") as (p' & A & B); [constructor|]. exists p'. split; [exact A|]. rewrite B. apply KeyFacts.app_nil_s.
  Qed.

  (** ** C79, the service

      A service whose arguments are settings, as C78 reads them, and that can load
      its certificates: it listens as C78 says, and any number of requests, in
      any order, get the responses that the files and their parameters determine,
      read in the dialect dgo. *)
  Variable parse_int : string -> option Z.
  Variable load_pair : string -> string -> bool.
  Variable load_pool : string -> bool.

  Notation serves fuel := (service inst conv any parse_type struct_of parse file stdin render render_explainer outside show env (Ok cwd) fuel
                             clean parse_int load_pair load_pool).

  Lemma started_same ss c o a l c' o' a' l' :
    P_RestArgs.started_from parse_int load_pair load_pool ss c o a (Ok l) -> P_RestArgs.started_from parse_int load_pair load_pool ss c' o' a' l' ->
    c' = c /\ o' = o /\ l' = Ok l.
  Proof.
    intros [C1 (v1 & u1 & V1 & U1 & O1) _ (ct1 & k1 & ca1 & b1 & T1 & K1 & A1 & B1 & L1)]
           [C2 (v2 & u2 & V2 & U2 & O2) _ (ct2 & k2 & ca2 & b2 & T2 & K2 & A2 & B2 & L2)].
    apply ArgsFacts.option_is_final in C1, C2, T1, T2, K1, K2, A1, A2.
    apply ArgsFacts.all_set_det in V1, V2, U1, U2. subst.
    split; [reflexivity|]. split; [reflexivity|].
    assert (b2 = b1) by (destruct b1, b2; try reflexivity; [apply B2, B1; reflexivity|symmetry; apply B1, B2; reflexivity]). subst b2.
    inversion L1; subst; inversion L2; subst; try reflexivity; try congruence; intuition congruence.
  Qed.

  Theorem C79_service : forall args ss config opts l on_disk matching c fs n N rs os,
    SpecRestArgs.reads args ss [] -> SpecRestArgs.acceptable parse_int ss -> ~ switched "help" ss ->
    (exists address, P_RestArgs.started_from parse_int load_pair load_pool ss config opts address (Ok l)) ->
    steady_mux (session_world (outside DDgo) LkMux config [LkConfig; LkEnv]) on_disk matching c fs -> 2 * n <= N ->
    Forall2 (response_is inst conv any (parse_type DDgo) (parse DDgo) file stdin render clean (co_variables opts) (co_var_paths opts)
               (session_world (outside DDgo) LkMux config [LkConfig; LkEnv]) on_disk matching c fs (ScMap []) n) rs os ->
    exists address, P_RestArgs.started_from parse_int load_pair load_pool ss config opts address (Ok l) /\
      serves (4 + N) args rs = Some (address, l, map Ok os).
  Proof.
    intros args ss config opts l od mt c fs n N rs os Hr Ha Hh (address0 & Hst) Hw HN Hrs.
    destruct (proj2 (P_RestArgs.C78_started parse_int load_pair load_pool args) ss Hr Ha Hh) as (c' & o' & address & l' & E & S).
    destruct (started_same _ _ _ _ _ _ _ _ _ Hst S) as (-> & -> & ->). exists address. split; [exact S|].
    unfold service. rewrite E.
    assert (M : fst (make_session outside show env (Ok cwd) [(VStr "Hiera::Config", VStr config)] LkMux [LkConfig; LkEnv]
                       (mk_process_state "" (init_st (ScMap []) None))) =
                Ok (DDgo, session_world (outside DDgo) LkMux config [LkConfig; LkEnv], ScMap [])).
    { unfold make_session, new_session, config_path. cbn. rewrite show_text. reflexivity. }
    rewrite M. f_equal. f_equal.
    destruct (P_RestArgs.st_options _ _ _ _ _ _ _ _ Hst) as (vars & var & _ & _ & Eo).
    pose proof (C73_server inst conv any (parse_type DDgo) struct_of (parse DDgo) file stdin render render_explainer clean
                  (co_variables opts) (co_var_paths opts) _ od mt c fs (ScMap []) n N rs os Hw HN Hrs) as G.
    rewrite <- G. clear -Eo. subst opts. cbn [co_variables co_var_paths].
    generalize (init_st (ScMap []) None). induction rs as [|[path p] rs IH]; intro s; [reflexivity|].
    cbn [respond handle_all]. unfold handled at 1, serve_request, server.
    match goal with |- (let (_, _) := ?m in _) = _ => destruct m as [x s1] end. f_equal. apply IH.
  Qed.

End Programs.
Print Assumptions C79_command.
Print Assumptions C79_refused.
Print Assumptions C79_unknown_dialect.
Print Assumptions C79_help.
Print Assumptions C79_command_explained.
Print Assumptions C79_service.
Print Assumptions C80_same_answer_partial.

(** ** Examples *)

(** The files of C55, in the working directory; the first name has no value. *)
Definition here (d : dialect) : world := cmd_mux.
Definition shown (v : value) : string := match v with VStr t => t | _ => "" end.
Definition cmd_args : list string := ["none.x"; "--var"; "x=1"; "a"; "--render-as=json"].
Definition cmd_sets : list (string * string) := [("var", "x=1"); ("render-as", "json")].
Lemma not_switched n ss : ~ In n (map fst ss) -> ~ switched n ss.
Proof.
  intros N (v & (b & a & E & _) & _). apply N. rewrite E, map_app. apply in_or_app. right. left. reflexivity.
Qed.
Lemma no_switches ss : (forall n v, In (n, v) ss -> ~ SpecFlags.switch n) -> SpecFlags.sensible ss.
Proof. intros H n v Hi Hn. elim (H n v Hi Hn). Qed.
Ltac absent := let K := fresh in intro K; cbn in K; repeat (destruct K as [K|K]; [discriminate|]); exact K.

Lemma cmd_reads : SpecFlags.reads cmd_args cmd_sets ["none.x"; "a"] /\ SpecFlags.sensible cmd_sets.
Proof.
  split.
  - unfold cmd_args, cmd_sets.
    apply rd_name; [right; intros t H; discriminate|].
    apply (rd_value "var"); [cbn; tauto|].
    apply rd_name; [right; intros t H; discriminate|].
    apply (rd_equals "render-as" "json"); [left; cbn; tauto|].
    constructor.
  - apply no_switches. intros n v H. unfold cmd_sets in H. destruct H as [H|[H|[]]]; injection H as <- <-; absent.
Qed.

Ltac from_sets :=
  constructor;
  [ apply ArgsFacts.option_is_final; reflexivity | apply ArgsFacts.option_is_final; reflexivity
  | match goal with |- last_set ?n ?ss _ => exact (ArgsFacts.final_last n ss) end
  | match goal with |- all_set ?n ?ss _ => exact (ArgsFacts.collect_all n ss) end
  | match goal with |- all_set ?n ?ss _ => exact (ArgsFacts.collect_all n ss) end
  | match goal with |- all_set ?n ?ss _ => exact (ArgsFacts.collect_all n ss) end
  | apply ArgsFacts.option_is_final; reflexivity
  | | | | apply ArgsFacts.option_is_final; reflexivity | apply ArgsFacts.option_is_final; reflexivity ].
Ltac off := cbn; split; [discriminate|let H := fresh in intro H; elim (fun K => not_switched _ _ K H); absent].

Lemma cmd_from : P_Flags.options_from cmd_sets (plain_command "first" "json" ["x=1"]) "pcore" "".
Proof. from_sets; off. Qed.

Example C79_command_ex : forall N p,
  exists q, program (T := unit) (fun _ _ => true) (fun _ v => Ok v) tt (fun _ _ => Ok tt) (fun _ => None) (fun _ => ex_parse) ex_file VfEmpty
              ex_render (fun _ => ret "") here shown [] (Ok "/h") (ret tt) (6 + N) "usage" "version" cmd_args p = (Ok 0, q) /\
            pr_out q = (pr_out p ++ "json of 1 2 3")%string.
Proof.
  intros N p.
  apply (C79_command (T := unit) (fun _ _ => true) (fun _ v => Ok v) tt (fun _ _ => Ok tt) (fun _ => None) (fun _ => ex_parse) ex_file VfEmpty
           ex_render (fun _ => ret "") here shown (fun t => eq_refl) [] "/h" (ret tt) "usage" "version"
           cmd_args cmd_sets ["none.x"; "a"] (plain_command "first" "json" ["x=1"]) "pcore" "" DPcore "/h/hiera.yaml"
           cmd_disk (fun _ => []) (levels_in ["node"; "common"]) ([] ++ LkConfig :: [LkEnv]) tt None [(VStr "x", VStr "1")] None cmd_es cmd_all 1 (2 + N)
           (Some (VArr [VInt 1; VInt 2; VInt 3])) true).
  - exact (proj1 cmd_reads).
  - exact (proj2 cmd_reads).
  - apply not_switched. absent.
  - apply not_switched. absent.
  - discriminate.
  - exact cmd_from.
  - right. split; reflexivity.
  - apply (uc_default [] "/h" ""); reflexivity.
  - exact cmd_mux_steady.
  - left. auto.
  - reflexivity.
  - reflexivity.
  - apply not_switched. absent.
  - apply not_switched. absent.
  - apply am_none. right. left. reflexivity.
  - apply cmd_mux_hierarchy.
  - apply cmd_mux_options.
  - lia.
  - eapply ff_first; [ reflexivity | | ].
    + apply (pk_first _ ["none.x"] "a" []); [ constructor; [ apply cmd_mux_none | constructor ] | apply cmd_mux_a ].
    + apply dl_value. apply ot_instance. reflexivity.
  - apply sh_value. reflexivity.
  - intro q. exists q. split; reflexivity.
Qed.

(** No name, a switch that is neither yes nor no, and a dialect that there is not. *)
Example C79_refused_ex : forall args, In args [["--all"]; ["a"; "--all=maybe"]; ["--dialect"; "ruby"; "a"]] ->
  forall p, program (T := unit) (fun _ _ => true) (fun _ v => Ok v) tt (fun _ _ => Ok tt) (fun _ => None) (fun _ => ex_parse) ex_file VfEmpty
    ex_render (fun _ => ret "") here shown [] (Ok "/h") (ret tt) 6 "usage" "version" args p = (Ok 1, p).
Proof. intros args H p. destruct H as [<-|[<-|[<-|[]]]]; reflexivity. Qed.
Example C79_refused_args_ex : (forall a, In a ["--all"] -> ~ short a) /\
  (forall ss names, SpecFlags.reads ["--all"] ss names -> SpecFlags.sensible ss -> names = [] /\ ~ switched "help" ss /\ ~ switched "version" ss).
Proof.
  assert (H : forall a, In a ["--all"] -> ~ short a).
  { intros a [<-|[]] (c & t & Hc & E). cbn in E. injection E as <- _. apply Hc. reflexivity. }
  split; [exact H|]. apply (P_Flags.C77_refused first_flags ["--all"] H). reflexivity.
Qed.
Example C79_unknown_dialect_ex :
  SpecFlags.reads ["--dialect"; "ruby"; "a"] [("dialect", "ruby")] ["a"] /\ SpecFlags.sensible [("dialect", "ruby")] /\
  P_Flags.options_from [("dialect", "ruby")] (plain_command "first" "" []) "ruby" "".
Proof.
  split; [apply (rd_value "dialect"); [cbn; tauto|]; apply rd_name; [right; intros t H; discriminate|constructor]|].
  split; [apply no_switches; intros n v H; destruct H as [H|[]]; injection H as <- <-; absent|]. from_sets; off.
Qed.
Example C79_help_ex :
  program (T := unit) (fun _ _ => true) (fun _ v => Ok v) tt (fun _ _ => Ok tt) (fun _ => None) (fun _ => ex_parse) ex_file VfEmpty
    ex_render (fun _ => ret "") here shown [] (Ok "/h") (ret tt) 6 "usage" "version" ["--help"; "a"] (mk_process_state "" (init_st (ScMap []) None)) =
  (Ok 0, mk_process_state "usage" (init_st (ScMap []) None)).
Proof. reflexivity. Qed.

(** All names, explained. *)
Definition all_args : list string := ["--explain"; "none.x"; "a"; "a"; "--var=x=1"; "--all"].
Definition all_sets : list (string * string) := [("explain", "true"); ("var", "x=1"); ("all", "true")].
Example C79_command_explained_ex : forall N p,
  exists q, program (T := unit) (fun _ _ => true) (fun _ v => Ok v) tt (fun _ _ => Ok tt) (fun _ => None) (fun _ => ex_parse) ex_file VfEmpty
              ex_render (fun f => ret ("explanation as " ++ f)%string) here shown [] (Ok "/h") (ret tt) (6 + N) "usage" "version" all_args p = (Ok 0, q) /\
            pr_out q = (pr_out p ++ "explanation as s")%string.
Proof.
  intros N p.
  destruct (C79_command_explained (T := unit) (fun _ _ => true) (fun _ v => Ok v) tt (fun _ _ => Ok tt) (fun _ => None) (fun _ => ex_parse) ex_file VfEmpty
           ex_render (fun f => ret ("explanation as " ++ f)%string) here shown (fun t => eq_refl) [] "/h" (ret tt) "usage" "version"
           all_args all_sets ["none.x"; "a"; "a"] (mk_command "" "first" None [] [] ["x=1"] "" true false true) "pcore" "" DPcore "/h/hiera.yaml"
           cmd_disk (fun _ => []) (levels_in ["node"; "common"]) ([] ++ LkConfig :: [LkEnv]) tt None [(VStr "x", VStr "1")] None cmd_es cmd_all 1 (2 + N)
           (Some (VMap [(VStr "a", VArr [VInt 1; VInt 2; VInt 3])])) p) as (s2 & _ & _ & E).
  - unfold all_args, all_sets.
    apply (rd_switch "explain"); [cbn; tauto|].
    apply rd_name; [right; intros t H; discriminate|].
    apply rd_name; [right; intros t H; discriminate|].
    apply rd_name; [right; intros t H; discriminate|].
    apply (rd_equals "var" "x=1"); [left; cbn; tauto|].
    apply (rd_switch "all"); [cbn; tauto|]. constructor.
  - intros n v H Hn. destruct H as [H|[H|[H|[]]]]; injection H as <- <-; [left; cbn; tauto| |left; cbn; tauto].
    exfalso. revert Hn. absent.
  - apply not_switched. absent.
  - apply not_switched. absent.
  - discriminate.
  - from_sets.
    + split; [intros _|reflexivity]. exists "true". split; [exists [], [("var", "x=1"); ("all", "true")]; split; [reflexivity|absent]|cbn; tauto].
    + off.
    + split; [intros _|reflexivity]. exists "true". split; [exists [("explain", "true"); ("var", "x=1")], []; split; [reflexivity|absent]|cbn; tauto].
  - right. split; reflexivity.
  - apply (uc_default [] "/h" ""); reflexivity.
  - exact cmd_mux_steady.
  - left. auto.
  - reflexivity.
  - reflexivity.
  - left. exists "true". split; [exists [], [("var", "x=1"); ("all", "true")]; split; [reflexivity|absent]|cbn; tauto].
  - apply am_none. right. left. reflexivity.
  - apply cmd_mux_hierarchy.
  - apply cmd_mux_options.
  - lia.
  - apply ff_all; [ reflexivity | left; reflexivity | ].
    apply cmd_collected; [ apply cmd_mux_none | apply cmd_mux_a | ]. exists None. split; [ apply et_untyped; reflexivity | constructor ].
  - intro q. exists q. split; reflexivity.
  - exact (E "explanation as s" s2 eq_refl).
Qed.

(** The same files in the service, at a port: a key, one that has no value, and
    the first one again with a type that only the other dialect has. *)
Definition in_pcore : params := mk_params [] [] ["Array[Integer]"] [].
Definition two_types (d : dialect) (t : string) : outcome unit :=
  match d with DPcore => if String.eqb t "Array[Integer]" then Ok tt else Panic (EErr "not a type") | DDgo => Panic (EErr "not a type") end.
Definition svc_args : list string := ["--config"; "/h/hiera.yaml"; "--port"; "9000"].
Definition svc_sets : list (string * string) := [("config", "/h/hiera.yaml"); ("port", "9000")].

Lemma svc_reads : SpecRestArgs.reads svc_args svc_sets [] /\ SpecRestArgs.acceptable P_RestArgs.ex_port svc_sets.
Proof.
  split.
  - apply (rd_value "config"); [cbn; tauto|]. apply (rd_value "port"); [cbn; tauto|]. constructor.
  - split.
    + intros n v H Hn. exfalso. destruct H as [H|[H|[]]]; injection H as <- <-; revert Hn; absent.
    + intros v H. destruct H as [H|[H|[]]]; [discriminate H|]. injection H as <-. discriminate.
Qed.
Lemma svc_from : P_RestArgs.started_from P_RestArgs.ex_port (fun _ _ => true) (fun _ => true) svc_sets "/h/hiera.yaml"
  (mk_command "" "" None [] [] [] "" false false false) ":9000" (Ok Rest.Plain).
Proof.
  constructor.
  - apply ArgsFacts.option_is_final. reflexivity.
  - exists [], []. split; [exact (ArgsFacts.collect_all "vars" svc_sets)|]. split; [exact (ArgsFacts.collect_all "var" svc_sets)|reflexivity].
  - exists "", 9000%Z, "9000". split; [apply ArgsFacts.option_is_final; reflexivity|].
    split; [exists (Some "9000"); split; [exact (ArgsFacts.final_last "port" svc_sets)|reflexivity]|].
    split; [exact (P_RestArgs.decimal_shown 9000)|reflexivity].
  - exists "", "", "", false. split; [apply ArgsFacts.option_is_final; reflexivity|].
    split; [apply ArgsFacts.option_is_final; reflexivity|]. split; [apply ArgsFacts.option_is_final; reflexivity|].
    split; [off|]. apply P_RestArgs.li_plain. left. reflexivity.
Qed.

Lemma svc_responses : forall n, n = 1 ->
  Forall2 (response_is (T := unit) (fun _ _ => true) (fun _ v => Ok v) tt (two_types DDgo) ex_parse ex_file VfEmpty ex_render (fun p => p) [] []
             cmd_mux cmd_disk (fun _ => []) (levels_in ["node"; "common"]) ([] ++ LkConfig :: [LkEnv]) (ScMap []) n)
    [("/lookup/a", no_params); ("/lookup/none.x", no_params); ("/lookup/a", in_pcore)]
    [Respond 200 "json of 1 2 3"; Respond 404 ("404 value not found" ++ str1 c_nl); Respond 500 ("not a type" ++ str1 c_nl)].
Proof.
  intros n ->.
  constructor; [ | constructor; [ | constructor; [ | constructor ] ] ].
  - eapply (re_lookup _ _ _ _ _ _ _ _ _ _ _ _ _ _ _ _ _ _ "/lookup/a" "a" no_params tt None None [] cmd_es cmd_all
              (Some (VArr [VInt 1; VInt 2; VInt 3])) (Some (VArr [VInt 1; VInt 2; VInt 3]))); try reflexivity; try discriminate.
    + split; [ reflexivity | ]. apply one_line_spec. reflexivity.
    + apply ty_any. reflexivity.
    + apply me_none. left. reflexivity.
    + apply de_none. reflexivity.
    + apply cmd_mux_hierarchy.
    + apply cmd_mux_options.
    + apply cmd_mux_a.
    + apply dl_value. apply ot_instance. reflexivity.
    + exists "json of 1 2 3". split; reflexivity.
  - eapply (re_lookup _ _ _ _ _ _ _ _ _ _ _ _ _ _ _ _ _ _ "/lookup/none.x" "none.x" no_params tt None None [] cmd_es cmd_all
              None None); try reflexivity; try discriminate.
    + split; [ reflexivity | ]. apply one_line_spec. reflexivity.
    + apply ty_any. reflexivity.
    + apply me_none. left. reflexivity.
    + apply de_none. reflexivity.
    + apply cmd_mux_hierarchy.
    + apply cmd_mux_options.
    + apply cmd_mux_none.
    + apply dl_nothing.
  - apply (re_refused _ _ _ _ _ _ _ _ _ _ _ _ _ _ _ _ _ _ "/lookup/a" "a" in_pcore "not a type" (EErr "not a type")); try reflexivity; try discriminate.
    + split; [ reflexivity | ]. apply one_line_spec. reflexivity.
    + left. reflexivity.
    + left. apply (ty_given tt (two_types DDgo) in_pcore "Array[Integer]"); [ reflexivity | discriminate ].
Qed.

Example C79_service_ex : forall N,
  service (T := unit) (fun _ _ => true) (fun _ v => Ok v) tt two_types (fun _ => None) (fun _ => ex_parse) ex_file VfEmpty
    ex_render (fun _ => ret "") here shown [] (Ok "/h") (6 + N) (fun p => p) P_RestArgs.ex_port (fun _ _ => true) (fun _ => true)
    svc_args [("/lookup/a", no_params); ("/lookup/none.x", no_params); ("/lookup/a", in_pcore)]
  = Some (":9000", Rest.Plain,
      [Ok (Respond 200 "json of 1 2 3"); Ok (Respond 404 ("404 value not found" ++ str1 c_nl)); Ok (Respond 500 ("not a type" ++ str1 c_nl))]).
Proof.
  intro N.
  destruct (C79_service (T := unit) (fun _ _ => true) (fun _ v => Ok v) tt two_types (fun _ => None) (fun _ => ex_parse) ex_file VfEmpty
              ex_render (fun _ => ret "") here shown (fun t => eq_refl) [] "/h" (fun p => p) P_RestArgs.ex_port (fun _ _ => true) (fun _ => true)
              svc_args svc_sets "/h/hiera.yaml" (mk_command "" "" None [] [] [] "" false false false) Rest.Plain
              cmd_disk (fun _ => []) (levels_in ["node"; "common"]) ([] ++ LkConfig :: [LkEnv]) 1 (2 + N)
              [("/lookup/a", no_params); ("/lookup/none.x", no_params); ("/lookup/a", in_pcore)]
              [Respond 200 "json of 1 2 3"; Respond 404 ("404 value not found" ++ str1 c_nl); Respond 500 ("not a type" ++ str1 c_nl)])
    as (address & _ & E).
  - exact (proj1 svc_reads).
  - exact (proj2 svc_reads).
  - apply not_switched. absent.
  - exists ":9000". exact svc_from.
  - exact cmd_mux_steady.
  - lia.
  - exact (svc_responses 1 eq_refl).
  - assert (A : address = ":9000"); [|rewrite A in E; exact E].
    unfold service in E.
    match type of E with context [execute_server ?a ?b ?c ?d] =>
      assert (X : execute_server a b c d = SaServe "/h/hiera.yaml" (mk_command "" "" None [] [] [] "" false false false) ":9000" (Ok Rest.Plain)) by reflexivity;
      rewrite X in E end.
    match type of E with context [fst ?m] => destruct (fst m) as [[[d w] sc]|e| |] end; congruence.
Qed.

(** ** C80, one language, refuted

    Is a text that the command accepts as a type, for a lookup of some name, also
    accepted by the service, with the same files?  The help of the service says
    that its texts are "expressed in Puppet DSL" (/repo/hieraserver/rest/rest.go:63),
    as those of the command are (/repo/cli/hiera.go:100).  It is not: for any type
    that pcore has and dgo has not, the command writes the value and the service
    answers with an error. *)
Theorem C80_one_language_refuted : exists t, forall parse_type m N,
  parse_type DPcore t = Ok tt -> parse_type DDgo t = Panic (EErr m) ->
  (forall p, exists q,
     program (T := unit) (fun _ _ => true) (fun _ v => Ok v) tt parse_type (fun _ => None) (fun _ => ex_parse) ex_file VfEmpty
       ex_render (fun _ => ret "") here shown [] (Ok "/h") (ret tt) (6 + N) "usage" "version" ["a"; "--type"; t; "--render-as"; "json"] p = (Ok 0, q) /\
     pr_out q = (pr_out p ++ "json of 1 2 3")%string) /\
  (exists address,
     service (T := unit) (fun _ _ => true) (fun _ v => Ok v) tt parse_type (fun _ => None) (fun _ => ex_parse) ex_file VfEmpty
       ex_render (fun _ => ret "") here shown [] (Ok "/h") (6 + N) (fun p => p) P_RestArgs.ex_port (fun _ _ => true) (fun _ => true)
       svc_args [("/lookup/a", mk_params [] [] [t] [])]
     = Some (address, Rest.Plain, [Ok (Respond 500 (m ++ str1 c_nl))])).
Proof.
  exists "Array[Integer]". intros parse_type m N Hp Hd. split.
  - intro p.
    apply (C79_command (T := unit) (fun _ _ => true) (fun _ v => Ok v) tt parse_type (fun _ => None) (fun _ => ex_parse) ex_file VfEmpty
           ex_render (fun _ => ret "") here shown (fun t => eq_refl) [] "/h" (ret tt) "usage" "version"
           ["a"; "--type"; "Array[Integer]"; "--render-as"; "json"] [("type", "Array[Integer]"); ("render-as", "json")] ["a"]
           (mk_command "Array[Integer]" "first" None [] [] [] "json" false false false) "pcore" "" DPcore "/h/hiera.yaml"
           cmd_disk (fun _ => []) (levels_in ["node"; "common"]) ([] ++ LkConfig :: [LkEnv]) tt None [] None cmd_es cmd_all 1 (2 + N)
           (Some (VArr [VInt 1; VInt 2; VInt 3])) true).
    + apply rd_name; [right; intros t H; discriminate|].
      apply (rd_value "type"); [cbn; tauto|]. apply (rd_value "render-as"); [cbn; tauto|]. constructor.
    + apply no_switches. intros n v H. destruct H as [H|[H|[]]]; injection H as <- <-; absent.
    + apply not_switched. absent.
    + apply not_switched. absent.
    + discriminate.
    + from_sets; off.
    + right. split; reflexivity.
    + apply (uc_default [] "/h" ""); reflexivity.
    + exact cmd_mux_steady.
    + right. split; [discriminate|exact Hp].
    + reflexivity.
    + reflexivity.
    + apply not_switched. absent.
    + apply not_switched. absent.
    + apply am_none. right. left. reflexivity.
    + apply cmd_mux_hierarchy.
    + apply cmd_mux_options.
    + lia.
    + eapply ff_first; [ reflexivity | | ].
      * apply (pk_first _ [] "a" []); [ constructor | apply cmd_mux_a ].
      * apply dl_value. apply ot_instance. reflexivity.
    + apply sh_value. reflexivity.
    + intro q. exists q. split; reflexivity.
  - destruct (C79_service (T := unit) (fun _ _ => true) (fun _ v => Ok v) tt parse_type (fun _ => None) (fun _ => ex_parse) ex_file VfEmpty
              ex_render (fun _ => ret "") here shown (fun t => eq_refl) [] "/h" (fun p => p) P_RestArgs.ex_port (fun _ _ => true) (fun _ => true)
              svc_args svc_sets "/h/hiera.yaml" (mk_command "" "" None [] [] [] "" false false false) Rest.Plain
              cmd_disk (fun _ => []) (levels_in ["node"; "common"]) ([] ++ LkConfig :: [LkEnv]) 1 (2 + N)
              [("/lookup/a", mk_params [] [] ["Array[Integer]"] [])] [Respond 500 (m ++ str1 c_nl)])
      as (address & _ & E).
    + exact (proj1 svc_reads).
    + exact (proj2 svc_reads).
    + apply not_switched. absent.
    + exists ":9000". exact svc_from.
    + exact cmd_mux_steady.
    + lia.
    + constructor; [|constructor].
      apply (re_refused _ _ _ _ _ _ _ _ _ _ _ _ _ _ _ _ _ _ "/lookup/a" "a" (mk_params [] [] ["Array[Integer]"] []) m (EErr m)); try reflexivity; try discriminate.
      * split; [ reflexivity | ]. apply one_line_spec. reflexivity.
      * left. reflexivity.
      * left. rewrite <- Hd. apply (ty_given tt (parse_type DDgo) (mk_params [] [] ["Array[Integer]"] []) "Array[Integer]"); [ reflexivity | discriminate ].
    + exists address. exact E.
Qed.
Print Assumptions C80_one_language_refuted.
Example C80_one_language_ex : two_types DPcore "Array[Integer]" = Ok tt /\ two_types DDgo "Array[Integer]" = Panic (EErr "not a type").
Proof. split; reflexivity. Qed.

Definition dgo_args : list string := ["--dialect"; "dgo"; "--config=/h/hiera.yaml"; "a"; "--render-as"; "json"].
Definition dgo_sets : list (string * string) := [("dialect", "dgo"); ("config", "/h/hiera.yaml"); ("render-as", "json")].
Example C80_same_answer_ex : forall N p,
  exists q, program (T := unit) (fun _ _ => true) (fun _ v => Ok v) tt two_types (fun _ => None) (fun _ => ex_parse) ex_file VfEmpty
              ex_render (fun _ => ret "") here shown [] (Ok "/h") (ret tt) (6 + N) "usage" "version" dgo_args p = (Ok 0, q) /\
            pr_out q = (pr_out p ++ "json of 1 2 3")%string.
Proof.
  intros N p. pose proof (svc_responses 1 eq_refl) as R. inversion R as [|x y xs ys R1 _]. clear R. subst.
  apply (proj1 (C80_same_answer_partial (T := unit) (fun _ _ => true) (fun _ v => Ok v) tt two_types (fun _ => None) (fun _ => ex_parse) ex_file VfEmpty
           ex_render (fun _ => ret "") here shown (fun t => eq_refl) [] "/h" (ret tt) "usage" "version" (fun p => p)
           dgo_args dgo_sets (mk_command "" "" None [] [] [] "" false false false)
           (mk_command "" "first" None [] [] [] "json" false false false) "/h/hiera.yaml"
           cmd_disk (fun _ => []) (levels_in ["node"; "common"]) ([] ++ LkConfig :: [LkEnv]) 1 (2 + N) "/lookup/a" "a" no_params
           (Respond 200 "json of 1 2 3") p
           ltac:(apply (rd_value "dialect"); [cbn; tauto|]; apply (rd_equals "config" "/h/hiera.yaml"); [left; cbn; tauto|];
                 apply rd_name; [right; intros t H; discriminate|]; apply (rd_value "render-as"); [cbn; tauto|]; constructor)
           ltac:(apply no_switches; intros n v H; destruct H as [H|[H|[H|[]]]]; injection H as <- <-; absent)
           ltac:(apply not_switched; absent) ltac:(apply not_switched; absent) ltac:(apply not_switched; absent) ltac:(apply not_switched; absent)
           ltac:(from_sets; off) ltac:(discriminate)
           ltac:(split; [reflexivity|]; split; [right; split; [right; left; reflexivity|left; reflexivity]|]; auto 10)
           cmd_mux_steady ltac:(lia) ltac:(split; [reflexivity|apply one_line_spec; reflexivity]) R1
           ltac:(intro q; exists q; split; reflexivity)) _ eq_refl).
Qed.
