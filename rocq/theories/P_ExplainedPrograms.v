(** C87 for the lookup command that is asked for an explanation: it ends as the
    description of the same command without one says, and writes the explanation
    if the lookups are in order. *)

From Coq Require Import String Ascii List ZArith Bool Arith Lia.
From Verif Require Import Str Value Outcome Key Merge Fpath Config Ipl Explain State Engine Meta Session Text Worlds Api Rest Cmd New Args Flags Program
  SpecKey SpecIpl SpecConfig SpecMerge SpecLookup SpecExplain SpecFail SpecMux SpecMany SpecWorld SpecDeep SpecApi SpecArgs SpecPrograms
  KeyFacts StrFacts Transparent P_Api P_Command P_Cmd P_FromFiles P_New P_Program P_Complete P_Deep P_Many ProgramsExact P_Programs P_Text.
From Verif Require SpecFlags P_Flags P_Written.
Import ListNotations.
Open Scope nat_scope.
Open Scope string_scope.
Open Scope list_scope.

(** ** The lookups of a command *)

(** What holds of what cannot go further than asking, one thing after the other. *)
Section Closed.
  Variable Q : forall A, M st A -> Prop.
  Hypothesis Qlift : forall A (o : outcome A), Q A (lift o).
  Hypothesis Qbind : forall A B (m : M st A) (f : A -> M st B), Q A m -> (forall a, Q B (f a)) -> Q B (bind m f).
  Context {T : Type}.
  Variable inst : T -> option value -> bool.
  Variable conv : T -> option value -> outcome (option value).
  Variable struct_of : T -> option (list (string * T)).
  Variable ask_with : option entries -> string -> M st (option value).
  Hypothesis Qask : forall mo name, Q _ (ask_with mo name).

  Lemma closed_each mo names : Q _ (ask_each (ask_with mo) names).
  Proof. induction names as [|n r IH]; [ exact (Qlift _ (Ok None)) | ]. cbn [ask_each]. apply Qbind; [ apply Qask | ]. intros [v|]; [ exact (Qlift _ (Ok (Some v))) | exact IH ]. Qed.
  Lemma closed_all mo types names : forall resp, Q _ (all_of inst conv (ask_with mo) names types None None resp).
  Proof.
    induction names as [|n r IH]; intro resp; [ exact (Qlift _ (Ok resp)) | ]. cbn [all_of lookup_in_map]. apply Qbind; [ apply Qask | ].
    intros [v|]; [ | apply IH ]. apply Qbind; [ apply Qlift | ]. intro x. apply IH.
  Qed.
  Lemma closed_find mo opts args t dv : Q _ (find_step inst conv struct_of ask_with mo opts args t dv).
  Proof.
    assert (K : forall types, Q _ (bind (lookup_all inst conv (ask_with mo) args types None None) (fun v => ret (Some v)))).
    { intro types. apply Qbind; [ | intro v; exact (Qlift _ (Ok (Some v))) ]. unfold lookup_all. apply Qbind; [ apply closed_all | intro m; exact (Qlift _ (Ok (VMap m))) ]. }
    unfold find_step. destruct (co_lookup_all opts).
    - destruct (struct_of t) as [l|]; [ apply K | ]. destruct (String.eqb (co_type opts) ""); [ apply K | exact (Qlift _ (Panic (EErr "type must be a map"))) ].
    - unfold lookup2. cbn [lookup_in_map]. apply Qbind; [ apply closed_each | ]. intros [v|]; [ apply Qlift | ].
      destruct dv as [v|]; [ apply Qlift | exact (Qlift _ (Ok None)) ].
  Qed.
End Closed.

(** ** With and without an explainer *)

(** The same options without an explanation. *)
Definition quietly (o : command_options) : command_options :=
  mk_command (co_type o) (co_merge o) (co_default o) (co_fact_paths o) (co_var_paths o) (co_variables o) (co_render_as o) false false (co_lookup_all o).
Definition explaining (o : command_options) : Prop := co_explain_data o = true \/ co_explain_options o = true.
(** The format of an explanation. *)
Definition explained_as (o : command_options) : string := if String.eqb (co_render_as o) "" then "s" else co_render_as o.
(** Nothing is written of the values. *)
Definition unwritten (_ : string) (_ : value) : outcome string := Ok "".

Definition told (s : st) : Prop := x_open (s_ex s) = [] /\ x_nil (s_ex s) = false /\ P_Written.x_fine (s_ex s).

Section Look.
  Context {T : Type}.
  Variable inst : T -> option value -> bool.
  Variable conv : T -> option value -> outcome (option value).
  Variable any : T.
  Variable parse_type : string -> outcome T.
  Variable struct_of : T -> option (list (string * T)).
  Variable parse : string -> outcome value.
  Variable file : string -> var_file.
  Variable stdin : var_file.
  Variable render : string -> value -> outcome string.
  Variable render_explainer : string -> M st string.
  Variable w : world.
  Notation look F := (lookup_and_render inst conv any parse_type struct_of parse file stdin (engine_invoke (ScMap [])) (engine_ask w F) render render_explainer).
  Notation look0 F := (lookup_and_render inst conv any parse_type struct_of parse file stdin (engine_invoke (ScMap [])) (engine_ask w F) unwritten (fun _ => ret "")).

  Lemma look_explained F opts args : explaining opts ->
    exists s2, (match fst (look0 F (quietly opts) args (init_st (ScMap []) None)) with Ok _ => told s2 | _ => True end) /\
      fst (look F opts args (init_st (ScMap []) None)) =
      match fst (look0 F (quietly opts) args (init_st (ScMap []) None)) with
      | Ok (b, _) => omap (fun out => (b, out)) (fst (render_explainer (explained_as opts) s2))
      | o => o
      end.
  Proof.
    intro He. set (s0 := init_st (ScMap []) None).
    unfold lookup_and_render, quietly. cbn [co_type co_merge co_default co_fact_paths co_var_paths co_variables co_render_as co_explain_data co_explain_options co_lookup_all orb].
    assert (Ee : (co_explain_data opts || co_explain_options opts)%bool = true) by (destruct He as [-> | ->]; [ reflexivity | apply orb_true_r ]).
    rewrite Ee.
    assert (BL : forall A B (o : outcome A) (f : A -> M st B) s, bind (lift o) f s =
      match o with Ok a => f a s | Panic e => (Panic e, s) | Hang => (Hang, s) | NoFuel => (NoFuel, s) end) by (intros A B [a|e| |] f s; reflexivity).
    cbv beta zeta. rewrite !BL. destruct (if String.eqb (co_type opts) "" then Ok any else parse_type (co_type opts)) as [t|x| |]; try (exists s0; split; [ exact I | reflexivity ]).
    cbv beta zeta. rewrite !BL.
    destruct (match co_default opts with None => Ok None | Some s => if String.eqb s "" then Ok (Some (VStr "")) else omap Some (parse_command_line_value parse s) end)
      as [dv|x| |]; try (exists s0; split; [ exact I | reflexivity ]).
    cbv beta zeta. rewrite !BL.
    destruct (create_scope parse file (co_variables opts) (co_var_paths opts) (co_fact_paths opts) stdin) as [vars|x| |]; try (exists s0; split; [ exact I | reflexivity ]).
    cbv zeta.
    set (mo := if (String.eqb (co_merge opts) "" || String.eqb (co_merge opts) "first")%bool then @None entries else Some [(VStr "merge", VStr (co_merge opts))]).
    set (options := co_explain_options opts). set (only := (options && negb (co_explain_data opts))%bool).
    set (s1 := with_ex (new_explainer options only) (invocation (ScNest (ScMap []) vars) true s0)).
    set (s1' := invocation (ScNest (ScMap []) vars) false s0).
    pose proof (closed_find (fun A m => sim_run A m m) (fun A o => f_lift _ sim_run_full A o) (fun A B m f H K => sim_bind A B m m f f H K)
                  inst conv struct_of (engine_ask w F) (fun mo name => sim_ask w F mo name) mo opts args t dv s1 s1' (conj eq_refl eq_refl) eq_refl) as (S1 & S2 & S3 & S4).
    pose proof (closed_find (fun A m => P_Written.ok (fun _ => True) m) (fun A o => P_Written.ok_lift o) (fun A B m f H K => P_Written.ok_then (fun _ => True) m f H K)
                  inst conv struct_of (engine_ask w F) (fun mo name => P_Written.ok_then _ _ _ (P_Written.ok_lift _) (fun k => P_Written.run_lookup_fine w F k mo)) mo opts args t dv s1) as [[_ X] _].
    { split; [ intros path rc H; discriminate H | split; constructor ]. }
    unfold bind at 1 4, engine_invoke at 1 2. fold s1 s1'.
    change (exists s2, match fst (bind (find_step inst conv struct_of (engine_ask w F) mo opts args t dv) (write_step unwritten (format_of opts)) s1') with Ok _ => told s2 | _ => True end /\
      fst (bind (find_step inst conv struct_of (engine_ask w F) mo opts args t dv)
             (fun found => bind (render_explainer (explained_as opts)) (fun out => ret (match found with Some _ => true | None => false end, out))) s1) =
      match fst (bind (find_step inst conv struct_of (engine_ask w F) mo opts args t dv) (write_step unwritten (format_of opts)) s1') with
      | Ok (b, _) => omap (fun out => (b, out)) (fst (render_explainer (explained_as opts) s2))
      | o => o
      end).
    unfold bind at 1 2 4.
    destruct (find_step inst conv struct_of (engine_ask w F) mo opts args t dv s1) as [o s2]. destruct (find_step inst conv struct_of (engine_ask w F) mo opts args t dv s1') as [o' s2'].
    cbn [fst snd] in *. subst o'. exists s2.
    destruct o as [found|e| |]; try (split; [ exact I | reflexivity ]).
    split.
    - destruct S4 as (_ & _ & S6 & S7). destruct found; (split; [ exact (proj1 S7) | split; [ exact S6 | exact X ] ]).
    - unfold bind. destruct found as [v|]; cbn; destruct (render_explainer (explained_as opts) s2) as [[out|e| |] s3]; reflexivity.
  Qed.
End Look.

Lemma quietly_comes {T : Type} inst conv any parse_type struct_of parse file stdin session w od mt cfg fs n o names r :
  look_comes (T := T) inst conv any parse_type struct_of parse file stdin unwritten session w od mt cfg fs n o names r <->
  look_comes (T := T) inst conv any parse_type struct_of parse file stdin unwritten session w od mt cfg fs n (quietly o) names r.
Proof.
  assert (G : forall co_type co_merge co_default co_fact_paths co_var_paths co_variables co_render_as co_lookup_all keys d1 e1 d2 e2,
    looked_up inst conv any parse_type struct_of parse file stdin unwritten keys session
      (mk_command co_type co_merge co_default co_fact_paths co_var_paths co_variables co_render_as d1 e1 co_lookup_all) names r ->
    looked_up inst conv any parse_type struct_of parse file stdin unwritten keys session
      (mk_command co_type co_merge co_default co_fact_paths co_var_paths co_variables co_render_as d2 e2 co_lookup_all) names r).
  { intros co_type co_merge co_default co_fact_paths co_var_paths co_variables co_render_as co_lookup_all keys d1 e1 d2 e2 [x N E|t x Ht Hx|t dv x Ht Hd Hx|t dv vars mo other oo r' Ht Hd Hv Hm Hk Hf Hw].
    - eapply lu_type; eassumption.
    - eapply lu_default; eassumption.
    - eapply lu_scope; eassumption.
    - assert (Hm' : asked_merge (mk_command co_type co_merge co_default co_fact_paths co_var_paths co_variables co_render_as d2 e2 co_lookup_all) mo)
        by (destruct Hm as [I0|N0]; [ exact (am_none (mk_command co_type co_merge co_default co_fact_paths co_var_paths co_variables co_render_as d2 e2 co_lookup_all) I0) | exact (am_some (mk_command co_type co_merge co_default co_fact_paths co_var_paths co_variables co_render_as d2 e2 co_lookup_all) N0) ]).
      eapply lu_found; [ exact Ht | exact Hd | exact Hv | exact Hm' | exact Hk | | exact Hw ].
      destruct Hf as [v q L Hf Hq|v q L Hf Hd' Hq|L Hf Hd'|o1 o' L Hf Hsf|o1 L Hc Ha|L N E];
        [ eapply fo_value | eapply fo_default | eapply fo_nothing | eapply fo_fails | eapply fo_all | eapply fo_no_map ]; eassumption. }
  destruct o. unfold quietly. cbn. split; intros [c Hc H|x Hx H];
    first [ eapply lc_config; [ exact Hc | exact (G _ _ _ _ _ _ _ _ _ _ _ _ _ H) ] | eapply lc_no_config; [ exact Hx | exact (G _ _ _ _ _ _ _ _ _ _ _ _ _ H) ] ].
Qed.

Section Programs.
  Context {T : Type}.
  Variable inst : T -> option value -> bool.
  Variable conv : T -> option value -> outcome (option value).
  Variable any : T.
  Variable parse_type : dialect -> string -> outcome T.
  Variable struct_of : T -> option (list (string * T)).
  Variable parse : dialect -> string -> outcome value.
  Variable file : string -> var_file.
  Variable stdin : var_file.
  Variable render : string -> value -> outcome string.
  Variable render_explainer : string -> M st string.
  Variable outside : dialect -> world.
  Variable show : value -> string.
  Hypothesis show_text : forall t, show (VStr t) = t.
  Variable env : environ.
  Variable cwd : string.
  Variable kill : M process unit.
  Hypothesis kill_quiet : forall q, exists q', kill q = (Ok tt, q') /\ pr_out q' = pr_out q.
  Variable usage version : string.

  Notation prog fuel := (program inst conv any parse_type struct_of parse file stdin render render_explainer outside show env (Ok cwd) kill fuel usage version).
  Notation world_for d path := (session_world (outside d) LkMux path [LkConfig; LkEnv]).
  Notation look d path F := (lookup_and_render inst conv any (parse_type d) struct_of (parse d) file stdin (engine_invoke (ScMap []))
                               (engine_ask (world_for d path) F) render render_explainer).
  Notation look0 d path F := (lookup_and_render inst conv any (parse_type d) struct_of (parse d) file stdin (engine_invoke (ScMap []))
                               (engine_ask (world_for d path) F) unwritten (fun _ => ret "")).
  Notation comes d path od mt cfg := (look_comes inst conv any (parse_type d) struct_of (parse d) file stdin unwritten (ScMap []) (world_for d path) od mt cfg
                                        ([] ++ LkConfig :: [LkEnv])).

  (** A command line whose settings and names are these, that asks for no help and
      no version, but for an explanation. *)
  Record explains_for (args : list string) (o : command_options) (d : dialect) (path : string) (names : list string) : Prop := mk_explains_for {
    ef_read : exists ss dialect config, SpecFlags.reads args ss names /\ SpecFlags.sensible ss /\ ~ switched "help" ss /\ ~ switched "version" ss /\
      (switched "explain" ss \/ switched "explain-options" ss) /\ P_Flags.options_from ss o dialect config /\
      dialect_named dialect d /\ used_config env cwd config path;
    ef_names : names <> []
  }.

  Lemma asked_explaining args o d path names : explains_for args o d path names -> explaining o.
  Proof.
    intros [(ss & dialect & config & _ & _ & _ & _ & [He|He] & Ho & _) _].
    - left. apply (P_Flags.of_explain _ _ _ _ Ho). exact He.
    - right. apply (P_Flags.of_options _ _ _ _ Ho). exact He.
  Qed.

  Lemma explained_run args o d path names F p : explains_for args o d path names ->
    exists q, prog F args p =
      (match fst (look d path F o names (init_st (ScMap []) None)) with
       | Ok _ => Ok 0
       | Panic EOther => Panic EOther
       | Panic _ => Ok 1
       | Hang => Hang
       | NoFuel => NoFuel
       end, q) /\
      pr_out q = (pr_out p ++ match fst (look d path F o names (init_st (ScMap []) None)) with Ok (_, out) => out | _ => "" end)%string.
  Proof.
    intros [(ss & dialect & config & Hr & Hs & Hh & Hv & _ & Ho & Hd & Hu) Hn].
    assert (E : snd (execute first_flags args) = AcLookup o dialect config names).
    { rewrite (P_Flags.C77_program first_flags args). apply (proj2 (P_Flags.C77_lookup first_flags args o dialect config names)).
      exists ss. auto 10. }
    unfold program. rewrite E. unfold main, cmd_lookup. destruct names as [|x names]; [ contradiction | ].
    set (cfg := (VStr "Hiera::Dialect", VStr dialect) :: (if String.eqb config "" then [] else [(VStr "Hiera::Config", VStr config)])).
    assert (Hc : session_options dialect config cfg).
    { unfold cfg. destruct (String.eqb_spec config "") as [Y|Y]; [ rewrite Y; apply so_default; reflexivity | apply so_config; exact Y ]. }
    unfold bind at 1, try_with_parent, catch. unfold bind at 1. rewrite (session_made outside show show_text env cwd dialect config cfg d path p Hd Hu Hc).
    unfold deferred, render_in. unfold bind at 1. unfold bind at 1. unfold in_session at 1. cbn [pr_session pr_out].
    destruct (look d path F o (x :: names) (init_st (ScMap []) None)) as [[[b out]|[m|m|]| |] s']; cbn [fst snd].
    - unfold bind, to_output. cbn [pr_out pr_session ret]. destruct (kill_quiet (mk_process_state (pr_out p ++ out) s')) as (q & K & Kq).
      unfold ret. cbn. rewrite K. exists q. split; [ reflexivity | exact Kq ].
    - destruct (kill_quiet (mk_process_state (pr_out p) s')) as (q & K & Kq). rewrite K. exists q. split; [ reflexivity | ]. rewrite Kq. symmetry. apply KeyFacts.app_nil_s.
    - destruct (kill_quiet (mk_process_state (pr_out p) s')) as (q & K & Kq). rewrite K. exists q. split; [ reflexivity | ]. rewrite Kq. symmetry. apply KeyFacts.app_nil_s.
    - destruct (kill_quiet (mk_process_state (pr_out p) s')) as (q & K & Kq). rewrite K. exists q. split; [ reflexivity | ]. rewrite Kq. symmetry. apply KeyFacts.app_nil_s.
    - eexists. split; [ reflexivity | ]. cbn. symmetry. apply KeyFacts.app_nil_s.
    - eexists. split; [ reflexivity | ]. cbn. symmetry. apply KeyFacts.app_nil_s.
  Qed.

  Lemma usable_unwritten d : usable conv (parse_type d) (parse d) file stdin render -> usable conv (parse_type d) (parse d) file stdin unwritten.
  Proof. intros [U1 U2 U3 U4 U5 U6 U7]. constructor; try assumption. intros f v. left. eexists. reflexivity. Qed.

  Definition ended {A} (r : outcome A) : outcome nat :=
    match r with Ok _ => Ok 0 | Panic EOther => Panic EOther | Panic _ => Ok 1 | Hang => Hang | NoFuel => NoFuel end.

  (** What is done with an explanation, if that is always the same. *)
  Lemma explained_either args o d path names od mt cfg status p (E : outcome unit) :
    explains_for args o d path names -> asks (world_for d path) od mt cfg [] [LkEnv] -> dependable (world_for d path) ->
    usable conv (parse_type d) (parse d) file stdin render ->
    (forall s, told s -> omap (fun _ => tt) (fst (render_explainer (explained_as o) s)) = E) -> E <> NoFuel ->
    ((exists N q, prog N args p = (status, q) /\ status <> NoFuel) <->
     exists n r, comes d path od mt cfg n o names r /\ ended (match r with Ok _ => E | Panic x => Panic x | Hang => Hang | NoFuel => NoFuel end) = status).
  Proof.
    intros Ha Hst Hw Hu HE NE. pose proof (asked_explaining _ _ _ _ _ Ha) as He. pose proof (usable_unwritten d Hu) as Hu0.
    assert (Hq : silent (quietly o)) by (split; reflexivity).
    assert (K : forall N, exists q, prog N args p =
      (ended (match fst (look0 d path N (quietly o) names (init_st (ScMap []) None)) with Ok _ => E | Panic x => Panic x | Hang => Hang | NoFuel => NoFuel end), q)).
    { intro N. destruct (explained_run args o d path names N p Ha) as (q & Eq & _). exists q. rewrite Eq. f_equal.
      destruct (look_explained inst conv any (parse_type d) struct_of (parse d) file stdin render render_explainer (world_for d path) N o names He) as (s2 & H2 & ->).
      destruct (fst (look0 d path N (quietly o) names (init_st (ScMap []) None))) as [[b out]|[m|m|]| |]; try reflexivity.
      rewrite <- (HE s2 H2). destruct (fst (render_explainer (explained_as o) s2)) as [out2|[m|m|]| |]; reflexivity. }
    split.
    - intros (N & q & Eq & Ne). destruct (K N) as (q' & Eq'). rewrite Eq' in Eq. injection Eq as Est <-.
      destruct (coming_total inst conv any (parse_type d) struct_of (parse d) file stdin unwritten (fun _ => ret "") (world_for d path) od mt cfg [] [LkEnv] Hst Hw Hu0 N (quietly o) names Hq) as [C|C].
      + rewrite C in Est. cbn in Est. congruence.
      + eexists _, _. split; [ apply quietly_comes; exact C | exact Est ].
    - intros (n & r & C & X). apply quietly_comes in C.
      pose proof (coming_run inst conv any (parse_type d) struct_of (parse d) file stdin unwritten (fun _ => ret "") (world_for d path) od mt cfg [] [LkEnv] Hst Hw Hu0 n n (quietly o) names r ltac:(lia) Hq C) as R.
      destruct (K (S (S (S (S n))))) as (q & Eq). rewrite R, X in Eq. exists (S (S (S (S n)))), q. split; [ exact Eq | ]. subst status.
      pose proof (coming_ends inst conv any (parse_type d) struct_of (parse d) file stdin unwritten (world_for d path) od mt cfg [] [LkEnv] Hu0 _ _ _ _ C) as Ne.
      destruct r as [a|[m|m|]| |]; cbn; try discriminate; [ | congruence ]. destruct E as [u|[m|m|]| |]; cbn; congruence.
  Qed.

  Lemma exits_ended (r : outcome (bool * string)) status : r <> Hang -> r <> NoFuel -> (ended r = status <-> exists out, exits r status out).
  Proof.
    intros N1 N2. split.
    - intros <-. eexists. apply exits_as; [ exact N1 | exact N2 | ]. split; reflexivity.
    - intros (out & X). apply exits_as in X; [ | exact N1 | exact N2 ]. exact (proj1 X).
  Qed.

  (** ** C87, the command with an explanation

      The explanation is asked for as text, on the writer of the command, followed
      by a newline. *)
  Variable show_value : nat -> option value -> string.
  Hypothesis as_text : forall s, render_explainer "s" s = (omap (fun t => t ++ str1 c_nl)%string (explainer_text show_value (s_ex s)), s).

  Lemma told_written s : told s -> exists text, explainer_text show_value (s_ex s) = Ok text.
  Proof.
    intros (_ & _ & F). apply C67_written. intros d l (c & I & B). destruct F as [F _]. unfold P_Written.frame_fine in F.
    rewrite Forall_forall in F. exact (P_Written.fine_below c 0 d l B (F c I)).
  Qed.

  (** It ends with exactly the status that the description gives to its lookups, no
      matter how their values would be written: what is explained cannot be what
      makes it fail. *)
  Theorem C87_command_explained : forall args o d path names on_disk matching cfg status p,
    explains_for args o d path names -> In (co_render_as o) [""; "s"] ->
    asks (world_for d path) on_disk matching cfg [] [LkEnv] -> dependable (world_for d path) ->
    usable conv (parse_type d) (parse d) file stdin render ->
    ((exists N q, prog N args p = (status, q) /\ status <> NoFuel) <->
     exists n r out, look_comes inst conv any (parse_type d) struct_of (parse d) file stdin (fun _ _ => Ok "") (ScMap []) (world_for d path)
                       on_disk matching cfg ([] ++ LkConfig :: [LkEnv]) n o names r /\ exits r status out).
  Proof.
    intros args o d path names od mt cfg status p Ha Hr Hst Hw Hu.
    assert (Hx : explained_as o = "s") by (unfold explained_as; destruct Hr as [<-|[<-|[]]]; reflexivity).
    rewrite (explained_either args o d path names od mt cfg status p (Ok tt) Ha Hst Hw Hu); [ | | discriminate ].
    - assert (Ne : forall n r, comes d path od mt cfg n o names r -> r <> Hang /\ r <> NoFuel).
      { intros n r C. split.
        - exact (coming_no_hang inst conv any (parse_type d) struct_of (parse d) file stdin unwritten (world_for d path) od mt cfg [] [LkEnv] (usable_unwritten d Hu) _ _ _ _ C).
        - exact (coming_ends inst conv any (parse_type d) struct_of (parse d) file stdin unwritten (world_for d path) od mt cfg [] [LkEnv] (usable_unwritten d Hu) _ _ _ _ C). }
      assert (Eq : forall r : outcome (bool * string), ended (match r with Ok _ => Ok tt | Panic x => Panic x | Hang => Hang | NoFuel => NoFuel end) = ended r)
        by (intros [a|[m|m|]| |]; reflexivity).
      split.
      + intros (n & r & C & X). rewrite Eq in X. destruct (Ne n r C) as [N1 N2]. apply (exits_ended r status N1 N2) in X as (out & X). exists n, r, out. auto.
      + intros (n & r & out & C & X). exists n, r. split; [ exact C | ]. destruct (Ne n r C) as [N1 N2]. rewrite Eq. apply (exits_ended r status N1 N2). eauto.
    - intros s Ht. rewrite Hx, as_text. destruct (told_written s Ht) as (text & ->). reflexivity.
  Qed.

  (** If it succeeds it writes the text of an explanation all of whose nodes have
      been left, and a newline; else it writes nothing. *)
  Theorem C87_explanation_written : forall args o d path names N status p q,
    explains_for args o d path names -> In (co_render_as o) [""; "s"] -> prog N args p = (status, q) ->
    (status = Ok 0 /\ exists x text, x_nil x = false /\ x_open x = [] /\ explainer_text show_value x = Ok text /\
       pr_out q = (pr_out p ++ text ++ str1 c_nl)%string) \/
    (status <> Ok 0 /\ pr_out q = pr_out p).
  Proof.
    intros args o d path names N status p q Ha Hr E.
    assert (Hx : explained_as o = "s") by (unfold explained_as; destruct Hr as [<-|[<-|[]]]; reflexivity).
    destruct (explained_run args o d path names N p Ha) as (q' & E' & Eo). rewrite E' in E. injection E as Est <-.
    destruct (look_explained inst conv any (parse_type d) struct_of (parse d) file stdin render render_explainer (world_for d path) N o names (asked_explaining _ _ _ _ _ Ha))
      as (s2 & H2 & E2).
    destruct (fst (look0 d path N (quietly o) names (init_st (ScMap []) None))) as [[b out]|x| |];
      rewrite ?E2 in Est, Eo;
      try (right; rewrite Eo; split; [ rewrite <- Est; try destruct x; discriminate | apply KeyFacts.app_nil_s ]).
    left. destruct (told_written s2 H2) as (text & Et). rewrite Hx, as_text, Et in Est, Eo. cbn in Est, Eo.
    split; [ symmetry; exact Est | ]. exists (s_ex s2), text. destruct H2 as (O1 & O2 & _). auto.
  Qed.

  (** In a format that there is not, the command fails with that, unless a lookup
      has failed before. *)
  Theorem C87_explanation_refused : forall args o d path names on_disk matching cfg status m p,
    explains_for args o d path names -> (forall s, render_explainer (co_render_as o) s = (Panic (EErr m), s)) -> co_render_as o <> "" ->
    asks (world_for d path) on_disk matching cfg [] [LkEnv] -> dependable (world_for d path) ->
    usable conv (parse_type d) (parse d) file stdin render ->
    ((exists N q, prog N args p = (status, q) /\ status <> NoFuel) <->
     exists n r, look_comes inst conv any (parse_type d) struct_of (parse d) file stdin (fun _ _ => Ok "") (ScMap []) (world_for d path)
                   on_disk matching cfg ([] ++ LkConfig :: [LkEnv]) n o names r /\
       status = match r with Panic EOther => Panic EOther | _ => Ok 1 end).
  Proof.
    intros args o d path names od mt cfg status m p Ha Hm Hr Hst Hw Hu.
    assert (Hx : explained_as o = co_render_as o) by (unfold explained_as; apply String.eqb_neq in Hr; rewrite Hr; reflexivity).
    rewrite (explained_either args o d path names od mt cfg status p (Panic (EErr m)) Ha Hst Hw Hu); [ | | discriminate ].
    - split; intros (n & r & C & X); exists n, r; (split; [ exact C | ]);
        pose proof (coming_no_hang inst conv any (parse_type d) struct_of (parse d) file stdin unwritten (world_for d path) od mt cfg [] [LkEnv] (usable_unwritten d Hu) _ _ _ _ C) as N1;
        pose proof (coming_ends inst conv any (parse_type d) struct_of (parse d) file stdin unwritten (world_for d path) od mt cfg [] [LkEnv] (usable_unwritten d Hu) _ _ _ _ C) as N2;
        destruct r as [a|[y|y|]| |]; try contradiction; cbn in *; congruence.
    - intros s _. rewrite Hx, Hm. reflexivity.
  Qed.
End Programs.
Print Assumptions C87_command_explained.
Print Assumptions C87_explanation_written.
Print Assumptions C87_explanation_refused.

(** ** Examples *)
Import ExLevels.

(** The command of C87 with an explanation, in a format. *)
Definition ex_line (name format : string) : list string := ["--explain"; name; ("--" ++ "render-as" ++ "=" ++ format)%string; "--var"; "env=%{cc}-x"; "--var"; "cc=se"].
Definition ex_sets (format : string) : list (string * string) := [("explain", "true"); ("render-as", format); ("var", "env=%{cc}-x"); ("var", "cc=se")].
Definition ex_options (format : string) : command_options := mk_command "" "first" None [] [] chain format true false false.
Definition ex_explainer (f : string) : M st string := fun s =>
  if String.eqb f "s" then (omap (fun t => t ++ str1 c_nl)%string (explainer_text no_show (s_ex s)), s)
  else (Panic (EErr ("unknown rendering '" ++ f ++ "'")), s).
Notation prog_explained := (program (T := unit) (fun _ _ => true) (fun _ v => Ok v) tt (fun _ _ => Ok tt) (fun _ => None) (fun _ => ex_parse) ex_file VfEmpty
  rendered ex_explainer (files_here deep_cfg) P_Program.shown [] (Ok "/h") (ret tt)).
Notation coming_unwritten := (look_comes (T := unit) (fun _ _ => true) (fun _ v => Ok v) tt (fun _ => Ok tt) (fun _ => None) ex_parse ex_file VfEmpty (fun _ _ => Ok "") (ScMap [])
  (session_world (files_here deep_cfg DPcore) LkMux "/h/hiera.yaml" [LkConfig; LkEnv]) many_disk (fun _ => []) (CfYaml deep_cfg) ([] ++ LkConfig :: [LkEnv])).

Lemma ex_line_asks name format : In name ["a"; "bad"] -> In format ["s"; "xml"] ->
  explains_for [] "/h" (ex_line name format) (ex_options format) DPcore "/h/hiera.yaml" [name].
Proof.
  intros Hn Hf. constructor; [ | discriminate ]. exists (ex_sets format), "pcore", "".
  split. { unfold ex_line, ex_sets. apply (rd_switch "explain"); [cbn; tauto|]. destruct Hn as [<-|[<-|[]]];
    (apply rd_name; [right; intros t H; discriminate|]; apply (rd_equals "render-as" format); [left; cbn; tauto|];
     repeat (apply (rd_value "var"); [cbn; tauto|]); constructor). }
  split. { intros n v H Hs. destruct H as [H|[H|[H|[H|[]]]]]; injection H as <- <-; [ left; cbn; tauto | exfalso; revert Hs; absent .. ]. }
  split; [ apply not_switched; absent | ]. split; [ apply not_switched; absent | ].
  assert (S1 : switched "explain" (ex_sets format)) by (apply ArgsFacts.switched_on; destruct Hf as [<-|[<-|[]]]; reflexivity).
  split; [ left; exact S1 | ].
  split. { destruct Hf as [<-|[<-|[]]]; from_sets; solve [ off | split; [ intros _; exact S1 | reflexivity ] ]. }
  split; [ right; split; reflexivity | apply (uc_default [] "/h" ""); reflexivity ].
Qed.

(** One lookup succeeds and one fails; without an explanation the first would write
    its value. *)
Example C87_command_explained_ex : forall name status, In (name, status) [("a", Ok 0); ("bad", Ok 1)] ->
  exists n r out, coming_unwritten n (ex_options "s") [name] r /\ exits r status out.
Proof.
  intros name status H.
  assert (Hn : In name ["a"; "bad"]) by (destruct H as [H|[H|[]]]; injection H as <- <-; cbn; tauto).
  apply (C87_command_explained (T := unit) (fun _ _ => true) (fun _ v => Ok v) tt (fun _ _ => Ok tt) (fun _ => None) (fun _ => ex_parse) ex_file VfEmpty
           rendered ex_explainer (files_here deep_cfg) P_Program.shown (fun t => eq_refl) [] "/h" (ret tt) (fun q => ex_intro _ q (conj eq_refl eq_refl)) "usage" "version"
           no_show (fun s => eq_refl)
           (ex_line name "s") (ex_options "s") DPcore "/h/hiera.yaml" [name] many_disk (fun _ => []) (CfYaml deep_cfg) status
           (mk_process_state "" (init_st (ScMap []) None))).
  - apply ex_line_asks; [ exact Hn | left; reflexivity ].
  - right. left. reflexivity.
  - exact (here_asks deep_cfg DPcore eq_refl).
  - exact (here_dependable deep_cfg DPcore).
  - apply here_usable. intro t. left. eauto.
  - exists 12. match goal with |- exists q, ?e = _ /\ _ => exists (snd e) end.
    assert (E : forall (A B : Type) (e : A * B) a, fst e = a -> e = (a, snd e)) by (intros A B [x y] a E; cbn in E; subst; reflexivity).
    destruct H as [H|[H|[]]]; injection H as <- <-; (split; [ apply E; vm_compute; reflexivity | discriminate ]).
Qed.

Example C87_explanation_written_ex :
  (exists x text, x_nil x = false /\ x_open x = [] /\ explainer_text no_show x = Ok text /\
     pr_out (snd (prog_explained 12 "usage" "version" (ex_line "a" "s") (mk_process_state "> " (init_st (ScMap []) None)))) = ("> " ++ text ++ str1 c_nl)%string) /\
  pr_out (snd (prog_explained 12 "usage" "version" (ex_line "bad" "s") (mk_process_state "> " (init_st (ScMap []) None)))) = "> ".
Proof.
  assert (G : forall name status, In (name, status) [("a", Ok 0); ("bad", Ok 1)] ->
    fst (prog_explained 12 "usage" "version" (ex_line name "s") (mk_process_state "> " (init_st (ScMap []) None))) = status)
    by (intros name status [H|[H|[]]]; injection H as <- <-; vm_compute; reflexivity).
  assert (K : forall name status, In (name, status) [("a", Ok 0); ("bad", Ok 1)] ->
    (status = Ok 0 /\ exists x text, x_nil x = false /\ x_open x = [] /\ explainer_text no_show x = Ok text /\
       pr_out (snd (prog_explained 12 "usage" "version" (ex_line name "s") (mk_process_state "> " (init_st (ScMap []) None)))) = ("> " ++ text ++ str1 c_nl)%string) \/
    (status <> Ok 0 /\ pr_out (snd (prog_explained 12 "usage" "version" (ex_line name "s") (mk_process_state "> " (init_st (ScMap []) None)))) = "> ")).
  { intros name status H. specialize (G name status H).
    destruct (prog_explained 12 "usage" "version" (ex_line name "s") (mk_process_state "> " (init_st (ScMap []) None))) as [o q] eqn:E. cbn [fst snd] in *. subst o.
    apply (C87_explanation_written (T := unit) (fun _ _ => true) (fun _ v => Ok v) tt (fun _ _ => Ok tt) (fun _ => None) (fun _ => ex_parse) ex_file VfEmpty
             rendered ex_explainer (files_here deep_cfg) P_Program.shown (fun t => eq_refl) [] "/h" (ret tt) (fun q => ex_intro _ q (conj eq_refl eq_refl)) "usage" "version"
             no_show (fun s => eq_refl)
             (ex_line name "s") (ex_options "s") DPcore "/h/hiera.yaml" [name] 12 status (mk_process_state "> " (init_st (ScMap []) None)) q).
    - apply ex_line_asks; [ destruct H as [H|[H|[]]]; injection H as <- <-; cbn; tauto | left; reflexivity ].
    - right. left. reflexivity.
    - exact E. }
  destruct (K "a" (Ok 0) (or_introl eq_refl)) as [[_ K1]|[N _]]; [ | elim N; reflexivity ].
  destruct (K "bad" (Ok 1) (or_intror (or_introl eq_refl))) as [[N _]|[_ K2]]; [ discriminate N | ]. split; assumption.
Qed.

(** What it writes here. *)
Example C87_explanation_text : pr_out (snd (prog_explained 12 "usage" "version" (ex_line "a" "s") (mk_process_state "" (init_st (ScMap []) None)))) =
  (lines
    ["Searching for ""a""";
     "  Using merge options from ""lookup_options"" hash";
     "  Merge strategy ""unique merge strategy""";
     "    data_hash function 'yaml_data'";
     "      Path ""/h/data/se-x.yaml""";
     "        Original path: ""%{env}.yaml""";
     "        Interpolation on ""%{lookup('env::A')}""";
     "          Searching for ""env::A""";
     "            data_hash function 'yaml_data'";
     "              Path ""/h/data/se-x.yaml""";
     "                Original path: ""%{env}.yaml""";
     "                No such key: ""env::A""";
     "            data_hash function 'yaml_data'";
     "              Path ""/h/data/common.yaml""";
     "                Original path: ""common.yaml""";
     "                No such key: ""env::A""";
     "        Found key: ""a"" value: {...}";
     "    data_hash function 'yaml_data'";
     "      Path ""/h/data/common.yaml""";
     "        Original path: ""common.yaml""";
     "        Found key: ""a"" value: {...}";
     "    Merged result: {...}"] ++ str1 c_nl)%string.
Proof. vm_compute. reflexivity. Qed.

(** There is no such format. *)
Example C87_explanation_refused_ex : exists n r, coming_unwritten n (ex_options "xml") ["a"] r /\ r <> Panic EOther.
Proof.
  destruct (proj1 (C87_explanation_refused (T := unit) (fun _ _ => true) (fun _ v => Ok v) tt (fun _ _ => Ok tt) (fun _ => None) (fun _ => ex_parse) ex_file VfEmpty
           rendered ex_explainer (files_here deep_cfg) P_Program.shown (fun t => eq_refl) [] "/h" (ret tt) (fun q => ex_intro _ q (conj eq_refl eq_refl)) "usage" "version"
           (ex_line "a" "xml") (ex_options "xml") DPcore "/h/hiera.yaml" ["a"] many_disk (fun _ => []) (CfYaml deep_cfg) (Ok 1) "unknown rendering 'xml'"
           (mk_process_state "" (init_st (ScMap []) None))
           (ex_line_asks "a" "xml" (or_introl eq_refl) (or_intror (or_introl eq_refl))) (fun s => eq_refl) ltac:(discriminate)
           (here_asks deep_cfg DPcore eq_refl) (here_dependable deep_cfg DPcore) (here_usable _ (fun t => or_introl (ex_intro _ tt eq_refl))))) as (n & r & C & E).
  - exists 12. match goal with |- exists q, ?e = _ /\ _ => exists (snd e) end.
    assert (E : forall (A B : Type) (e : A * B) a, fst e = a -> e = (a, snd e)) by (intros A B [x y] a E; cbn in E; subst; reflexivity).
    split; [ apply E; vm_compute; reflexivity | discriminate ].
  - exists n, r. split; [ exact C | ]. intros ->. discriminate E.
Qed.
