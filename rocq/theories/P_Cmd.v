(** The lookup command: C68. *)

From Coq Require Import String Ascii List ZArith Bool Arith Lia.
From Verif Require Import Str Value Outcome Key Config Explain State Engine Session New Api SpecApi Cmd.
From Verif Require Import Meta Worlds P_Api P_Command.
Import ListNotations.
Open Scope string_scope.
Open Scope list_scope.

(** ** Formats *)

(** What is written for a value in a format. *)
Inductive written_as (json yaml binary : value -> outcome string) (text : value -> string) (v : value) : string -> outcome string -> Prop :=
| wa_json : forall s, v <> VNil -> json v = Ok s -> written_as json yaml binary text v "json" (Ok (s ++ str1 c_nl)%string)
| wa_json_null : v = VNil -> written_as json yaml binary text v "json" (Ok ("null" ++ str1 c_nl)%string)
| wa_json_fails : forall o, v <> VNil -> json v = o -> (forall s, o <> Ok s) -> written_as json yaml binary text v "json" o
| wa_yaml : forall o, v <> VNil -> yaml v = o -> written_as json yaml binary text v "yaml" o
| wa_yaml_null : v = VNil -> written_as json yaml binary text v "yaml" (Ok (str1 c_nl))
| wa_binary : forall o, binary v = o -> written_as json yaml binary text v "binary" o
| wa_text : written_as json yaml binary text v "s" (Ok (text v ++ str1 c_nl)%string)
| wa_unknown : forall f, ~ In f ["json"; "yaml"; "binary"; "s"] ->
    written_as json yaml binary text v f (Panic (EErr ("unknown rendering '" ++ f ++ "'")%string)).

(** Each format writes what it should, and any other fails. *)
Theorem C68_formats : forall json yaml binary text v f o,
  render json yaml binary text f v = o <-> written_as json yaml binary text v f o.
Proof.
  intros json yaml binary text v f o. split.
  - intros <-. unfold render.
    destruct (String.eqb_spec f "json") as [->|N1].
    { assert (D : v = VNil \/ v <> VNil) by (destruct v; auto; right; discriminate). destruct D as [->|D]; [ apply wa_json_null; reflexivity | ].
      replace (match v with VNil => Ok ("null" ++ str1 c_nl)%string | _ => omap (fun s => (s ++ str1 c_nl)%string) (json v) end)
        with (omap (fun s => (s ++ str1 c_nl)%string) (json v)) by (destruct v; auto; congruence).
      destruct (json v) as [s| | |] eqn:E; cbn; [ apply wa_json; auto | | | ]; apply wa_json_fails; auto; discriminate. }
    destruct (String.eqb_spec f "yaml") as [->|N2].
    { assert (D : v = VNil \/ v <> VNil) by (destruct v; auto; right; discriminate). destruct D as [->|D]; [ apply wa_yaml_null; reflexivity | ].
      replace (match v with VNil => Ok (str1 c_nl) | _ => yaml v end) with (yaml v) by (destruct v; auto; congruence).
      apply wa_yaml; auto. }
    destruct (String.eqb_spec f "binary") as [->|N3]; [ apply wa_binary; reflexivity | ].
    destruct (String.eqb_spec f "s") as [->|N4]; [ apply wa_text | ].
    apply wa_unknown. intros [H|[H|[H|[H|[]]]]]; congruence.
  - intros H. destruct H as [s N E| -> |o N <- Q|o N <-| -> |o <-| |f N]; unfold render; cbn [String.eqb Ascii.eqb Bool.eqb]; try reflexivity.
    + destruct v; try congruence; rewrite E; reflexivity.
    + destruct v; try congruence; match goal with |- omap _ ?j = _ => destruct j eqn:E; auto; elim (Q _ eq_refl) end.
    + destruct v; congruence.
    + destruct (String.eqb_spec f "json") as [->|N1]; [ elim N; cbn; auto | ].
      destruct (String.eqb_spec f "yaml") as [->|N2]; [ elim N; cbn; auto | ].
      destruct (String.eqb_spec f "binary") as [->|N3]; [ elim N; cbn; auto | ].
      destruct (String.eqb_spec f "s") as [->|N4]; [ elim N; cbn; auto | reflexivity ].
Qed.

(** ** What the command writes *)

Section Output.
  Context {S T : Type}.
  Variable inst : T -> option value -> bool.
  Variable conv : T -> option value -> outcome (option value).
  Variable any : T.
  Variable parse_type : string -> outcome T.
  Variable struct_of : T -> option (list (string * T)).
  Variable parse : string -> outcome value.
  Variable file : string -> var_file.
  Variable stdin : var_file.
  Variable invoke : entries -> option (bool * bool) -> M S unit.
  Variable ask_with : option entries -> string -> M S (option value).
  Variable render : string -> value -> outcome string.
  Variable render_explainer : string -> M S string.

  Definition asked_type (opts : command_options) (t : T) : Prop :=
    co_type opts = "" /\ t = any \/ co_type opts <> "" /\ parse_type (co_type opts) = Ok t.
  Definition asked_default (opts : command_options) (v : option value) : Prop :=
    match co_default opts with
    | None => v = None
    | Some s => if String.eqb s "" then v = Some (VStr "") else exists x, v = Some x /\ command_value parse s x
    end.
  Inductive asked_explanation (opts : command_options) : option (bool * bool) -> Prop :=
  | ae_none : co_explain_data opts = false -> co_explain_options opts = false -> asked_explanation opts None
  | ae_data : co_explain_data opts = true -> co_explain_options opts = false -> asked_explanation opts (Some (false, false))
  | ae_options : co_explain_data opts = false -> co_explain_options opts = true -> asked_explanation opts (Some (true, true))
  | ae_both : co_explain_data opts = true -> co_explain_options opts = true -> asked_explanation opts (Some (true, false)).
  Inductive asked_merge (opts : command_options) : option entries -> Prop :=
  | am_none : In (co_merge opts) [""; "first"] -> asked_merge opts None
  | am_some : ~ In (co_merge opts) [""; "first"] -> asked_merge opts (Some [(VStr "merge", VStr (co_merge opts))]).

  (** What is found: the answer for the names, or a map of all answers. *)
  Inductive finds (opts : command_options) (args : list string) (t : T) (dv : option value) (mo : option entries)
    : S -> option value -> S -> Prop :=
  | fi_one : forall s a v s', co_lookup_all opts = false -> answer (ask_with mo) args None None dv None s a s' ->
      delivered inst conv (Some t) a (Ok v) -> finds opts args t dv mo s v s'
  | fi_all : forall s m s', co_lookup_all opts = true -> (co_type opts = "" \/ struct_of t <> None) ->
      lookup_all inst conv (ask_with mo) args (struct_of t) None None s = (Ok m, s') -> finds opts args t dv mo s (Some m) s'.

  (** What is written. *)
  Inductive writes (opts : command_options) (found : option value) : S -> string -> S -> Prop :=
  | wr_nothing : forall s, co_explain_data opts = false -> co_explain_options opts = false -> found = None -> writes opts found s "" s
  | wr_value : forall s v out, co_explain_data opts = false -> co_explain_options opts = false -> found = Some v ->
      render (if String.eqb (co_render_as opts) "" then "yaml" else co_render_as opts) v = Ok out -> writes opts found s out s
  | wr_explanation : forall s out s', co_explain_data opts = true \/ co_explain_options opts = true ->
      render_explainer (if String.eqb (co_render_as opts) "" then "s" else co_render_as opts) s = (Ok out, s') -> writes opts found s out s'.

  Theorem C68_output : forall opts args s b out s',
    lookup_and_render inst conv any parse_type struct_of parse file stdin invoke ask_with render render_explainer opts args s = (Ok (b, out), s') <->
    exists t dv sc ex mo s1 found s2,
      asked_type opts t /\ asked_default opts dv /\
      create_scope parse file (co_variables opts) (co_var_paths opts) (co_fact_paths opts) stdin = Ok sc /\
      asked_explanation opts ex /\ asked_merge opts mo /\
      invoke sc ex s = (Ok tt, s1) /\ finds opts args t dv mo s1 found s2 /\ writes opts found s2 out s' /\
      (b = true <-> found <> None).
  Proof.
    intros opts args s b out s'. unfold lookup_and_render. split.
    - intro E.
      apply bind_ok in E. destruct E as (t & x1 & E1 & E). unfold lift in E1. injection E1 as E1 <-.
      apply bind_ok in E. destruct E as (dv & x2 & E2 & E). unfold lift in E2. injection E2 as E2 <-.
      apply bind_ok in E. destruct E as (sc & x3 & E3 & E). unfold lift in E3. injection E3 as E3 <-.
      apply bind_ok in E. destruct E as ([] & s1 & E4 & E).
      apply bind_ok in E. destruct E as (found & s2 & E5 & E).
      exists t, dv, sc,
        (if co_explain_data opts || co_explain_options opts
                     then Some (co_explain_options opts, co_explain_options opts && negb (co_explain_data opts)) else None),
        (if String.eqb (co_merge opts) "" || String.eqb (co_merge opts) "first" then None else Some [(VStr "merge", VStr (co_merge opts))]),
        s1, found, s2.
      split. { unfold asked_type. destruct (String.eqb_spec (co_type opts) "") as [Y|N]; [ left; injection E1 as <-; auto | auto ]. }
      split. { unfold asked_default. destruct (co_default opts) as [d|]; [ | injection E2 as <-; reflexivity ].
        destruct (String.eqb d ""); [ injection E2 as <-; reflexivity | ].
        destruct (parse_command_line_value parse d) as [v| | |] eqn:P; try discriminate. injection E2 as <-.
        exists v. split; [ reflexivity | exact (proj1 (command_value_ok _ file _ _) P) ]. }
      split; [ exact E3 | ].
      split. {
        destruct (co_explain_data opts) eqn:D, (co_explain_options opts) eqn:O; cbn; constructor; auto. }
      split. {
        destruct (String.eqb_spec (co_merge opts) "") as [Y|N]; [ apply am_none; left; congruence | ].
        destruct (String.eqb_spec (co_merge opts) "first") as [Y|N2]; [ apply am_none; right; left; congruence | ].
        apply am_some. intros [H|[H|[]]]; congruence. }
      split; [ exact E4 | ].
      set (mo := if String.eqb (co_merge opts) "" || String.eqb (co_merge opts) "first" then None else Some [(VStr "merge", VStr (co_merge opts))]) in *.
      split.
      { destruct (co_lookup_all opts) eqn:A.
        - destruct (struct_of t) as [l|] eqn:ST.
          + apply bind_ok in E5. destruct E5 as (m & x4 & E5 & E6). injection E6 as <- <-.
            apply fi_all; [ exact A | right; rewrite ST; discriminate | rewrite ST; exact E5 ].
          + destruct (String.eqb_spec (co_type opts) "") as [Y|N]; [ | discriminate ].
            apply bind_ok in E5. destruct E5 as (m & x4 & E5 & E6). injection E6 as <- <-.
            apply fi_all; [ exact A | auto | rewrite ST; exact E5 ].
        - apply C35_first_source in E5. destruct E5 as [(a & An & De)|St].
          + eapply fi_one; eauto.
          + exfalso. inversion St as [? ? ? ? ? ? ? _ _ _ _ N|? ? ? ? ? _ _ _ _ F _ N]; subst; [ exact (N _ eq_refl) | discriminate F ]. }
      destruct (co_explain_data opts) eqn:D; [ | destruct (co_explain_options opts) eqn:O ]; cbn [orb] in E.
      + apply bind_ok in E. destruct E as (o & x5 & E6 & E7). injection E7 as <- <- <-.
        split; [ apply wr_explanation; auto | destruct found; split; congruence ].
      + apply bind_ok in E. destruct E as (o & x5 & E6 & E7). injection E7 as <- <- <-.
        split; [ apply wr_explanation; auto | destruct found; split; congruence ].
      + destruct found as [v|].
        * apply bind_ok in E. destruct E as (o & x5 & E6 & E7). injection E7 as <- <- <-. unfold lift in E6. injection E6 as E6 <-.
          split; [ eapply wr_value; eauto | split; congruence ].
        * injection E as <- <- <-. split; [ apply wr_nothing; auto | split; congruence ].
    - intros (t & dv & sc & ex & mo & s1 & found & s2 & Ht & Hd & Hs & He & Hm & Hi & Hf & Hw & Hb).
      assert (E1 : (if String.eqb (co_type opts) "" then Ok any else parse_type (co_type opts)) = Ok t).
      { destruct Ht as [(-> & ->)|(N & P)]; [ reflexivity | ]. destruct (String.eqb_spec (co_type opts) ""); [ contradiction | exact P ]. }
      rewrite E1. unfold bind at 1, lift at 1.
      assert (E2 : match co_default opts with
               | None => Ok None
               | Some s => if String.eqb s "" then Ok (Some (VStr "")) else omap Some (parse_command_line_value parse s)
               end = Ok dv).
      { unfold asked_default in Hd. destruct (co_default opts) as [d|]; [ | rewrite Hd; reflexivity ].
        destruct (String.eqb d ""); [ rewrite Hd; reflexivity | ]. destruct Hd as (x & -> & C). apply (command_value_ok _ file) in C. rewrite C. reflexivity. }
      rewrite E2. unfold bind at 1, lift at 1. rewrite Hs. unfold bind at 1, lift at 1.
      assert (E3 : (if co_explain_data opts || co_explain_options opts
                     then Some (co_explain_options opts, co_explain_options opts && negb (co_explain_data opts)) else None) = ex).
      { destruct He as [D O|D O|D O|D O]; rewrite D, O; reflexivity. }
      rewrite E3. unfold bind at 1. rewrite Hi. cbv beta iota.
      assert (E4 : (if String.eqb (co_merge opts) "" || String.eqb (co_merge opts) "first" then @None entries else @Some entries [(VStr "merge", VStr (co_merge opts))]) = mo).
      { destruct Hm as [I|N].
        - destruct I as [<-|[<-|[]]]; reflexivity.
        - destruct (String.eqb_spec (co_merge opts) "") as [Y|N1]; [ elim N; left; congruence | ].
          destruct (String.eqb_spec (co_merge opts) "first") as [Y|N2]; [ elim N; right; left; congruence | reflexivity ]. }
      cbv zeta. match goal with |- context [ask_with ?e] => replace e with mo by (symmetry; exact E4) end. unfold bind at 1.
      match goal with |- (let (_, _) := ?m s1 in _) = _ => assert (E5 : m s1 = (Ok found, s2)) end.
      { destruct Hf as [s0 a v s3 A An De|s0 m s3 A C L]; rewrite A.
        - apply C35_first_source. left. eauto.
        - destruct (struct_of t) as [l|]; [ unfold bind; rewrite L; reflexivity | ].
          destruct C as [C|C]; [ rewrite C; cbn [String.eqb]; unfold bind; rewrite L; reflexivity | congruence ]. }
      rewrite E5. cbv beta iota.
      assert (Eb : b = match found with Some _ => true | None => false end).
      { destruct found as [v|], b; auto; [ apply (proj2 Hb); discriminate | elim (proj1 Hb eq_refl); reflexivity ]. }
      destruct Hw as [s0 D O ->|s0 v o D O -> R|s0 o s3 DO R].
      + rewrite D, O in E3. cbn in E3. subst ex. rewrite Eb. reflexivity.
      + rewrite D, O in E3. cbn in E3. subst ex. unfold bind, lift. rewrite R, Eb. reflexivity.
      + assert (Q : exists p, ex = Some p).
        { rewrite <- E3. destruct DO as [H|H]; rewrite H; rewrite ?orb_true_r; cbn [orb]; eauto. }
        destruct Q as (p & ->). unfold bind. rewrite R, Eb. reflexivity.
  Qed.
End Output.
Print Assumptions C68_formats.
Print Assumptions C68_output.

(** ** How the command ends *)

Section Ends.
  Context {S X : Type}.
  Variable new : entries -> lkfn -> list lkfn -> M S X.
  Variable kill : X -> M S unit.
  Variable look_and_render : X -> command_options -> list string -> M S (bool * string).
  Variable write : string -> M S unit.

  (** The options of the session. *)
  Inductive session_options (dialect config : string) : entries -> Prop :=
  | so_default : config = "" -> session_options dialect config [(VStr "Hiera::Dialect", VStr dialect)]
  | so_config : config <> "" ->
      session_options dialect config [(VStr "Hiera::Dialect", VStr dialect); (VStr "Hiera::Config", VStr config)].

  (** The command succeeds exactly if there are names, a session can be made that
      asks the configuration and then the environment, the lookup returns, what it
      has to say is written, all of it, and the plugins are killed. *)
  Theorem C68_success : forall opts dialect config args s s',
    main new kill look_and_render write opts dialect config args s = (Ok 0, s') <->
    args <> [] /\ exists cfg x s1 b out s2 s3,
      session_options dialect config cfg /\ new cfg LkMux [LkConfig; LkEnv] s = (Ok x, s1) /\
      look_and_render x opts args s1 = (Ok (b, out), s2) /\ write out s2 = (Ok tt, s3) /\ kill x s3 = (Ok tt, s').
  Proof.
    intros opts dialect config args s s'.
    set (cfg := (VStr "Hiera::Dialect", VStr dialect) :: (if String.eqb config "" then [] else [(VStr "Hiera::Config", VStr config)])).
    assert (HC : forall c, session_options dialect config c <-> c = cfg).
    { intro c. unfold cfg. destruct (String.eqb_spec config "") as [Y|N]; split; intro H; subst; try (constructor; auto; fail); inversion H; congruence. }
    unfold main, cmd_lookup. fold cfg. split.
    - destruct args as [|a args]; [ discriminate | ]. intro E. split; [ discriminate | ].
      apply bind_ok in E. destruct E as (e & x1 & E & E2). destruct e; [ discriminate | ]. injection E2 as <-.
      unfold try_with_parent, catch in E. unfold bind at 1 in E.
      destruct (new cfg LkMux [LkConfig; LkEnv] s) as [[x|e| |] s1] eqn:N; [ | destruct e; discriminate | discriminate | discriminate ].
      unfold deferred in E. unfold bind at 1 in E. unfold bind at 1 in E.
      destruct (look_and_render x opts (a :: args) s1) as [[[b out]|e| |] s2] eqn:L.
      2: { destruct (kill x s2) as [[u|e'| |] s3]; destruct e; try destruct e'; discriminate. }
      2, 3: discriminate.
      unfold bind in E. cbn [snd] in E. destruct (write out s2) as [[[]|e| |] s3] eqn:W.
      2: { destruct (kill x s3) as [[u|e'| |] s4]; destruct e; try destruct e'; discriminate. }
      2, 3: discriminate.
      unfold ret in E. destruct (kill x s3) as [[[]|e'| |] s4] eqn:K; [ | destruct e'; discriminate | discriminate | discriminate ].
      injection E as <-. exists cfg, x, s1, b, out, s2, s3. rewrite HC. auto.
    - intros (NA & c & x & s1 & b & out & s2 & s3 & Hc & N & L & W & K). apply HC in Hc. subst c.
      destruct args as [|a args]; [ contradiction | ].
      unfold bind at 1, try_with_parent, catch. unfold bind at 1. rewrite N. cbv beta iota. unfold deferred, bind, ret.
      rewrite L. cbn [snd]. rewrite W, K. reflexivity.
  Qed.
End Ends.
Print Assumptions C68_success.

(** ** A whole command *)

(** The state of the program: what was written, and the session.  The type texts
    are not used here. *)
Definition cli_new (w : world) (cfg : entries) (top : lkfn) (mux : list lkfn) : M string world := fun s =>
  (obind (new_session (fun v => match v with VStr t => t | _ => "?" end) (w_env w) (Ok (w_cwd w)) (Some cfg)) (fun ss =>
   obind (config_path (fun v => match v with VStr t => t | _ => "?" end) ss) (fun p =>
   Ok (mk_world (w_stat w) (w_glob w) (w_config w) (w_yaml w) (w_json w) (w_readdir w) (w_lstat w) (w_fun w)
           (w_plugin w) (w_call w) (w_dig w) (w_env w) (w_cwd w) (w_show w) (w_parse_type w) (w_new w)
           top p (Some mux) (w_modpath w) (w_yamlpath w)))), s).
Definition cli_text (v : value) : string := match v with VInt 7 => "7" | VStr s => s | VMap _ => "{...}" | _ => "?" end.
Definition cli_render : string -> value -> outcome string :=
  render (fun v => Ok ("json " ++ cli_text v)%string) (fun v => Ok (cli_text v ++ str1 c_nl)%string)
         (fun _ => Panic (EErr "not binary")) cli_text.
Definition cli_look (w : world) (opts : command_options) (args : list string) : M string (bool * string) := fun s =>
  (fst (lookup_and_render (T := unit) (fun _ _ => true) (fun _ v => Ok v) tt (fun _ => Ok tt) (fun _ => None) ex_parse ex_file VfEmpty
         (engine_invoke (ScMap [])) (engine_ask w 20) cli_render (fun _ => ret "explained") opts args (init_st (ScMap []) None)), s).
Definition cli (w : world) : command_options -> string -> string -> list string -> M string nat :=
  main (cli_new w) (fun _ => ret tt) cli_look (fun t s => (Ok tt, (s ++ t)%string)).

Definition cli_w : world :=
  with_env [("HOME", "/root")] (file_world [("/h/x.yaml", levels ["a"])] [("/h/data/a.yaml", vmap [("k", VInt 7); ("n", VNil)])]).
Definition cli_opts (default : option string) (format : string) (all : bool) : command_options :=
  mk_command "" "first" default [] [] [] format false false all.

Example C68_ex :
  cli cli_w (cli_opts None "" false) "pcore" "/h/x.yaml" ["k"] "" = (Ok 0, "7" ++ str1 c_nl)%string /\
  cli cli_w (cli_opts None "json" false) "pcore" "/h/x.yaml" ["none"; "k"] "" = (Ok 0, "json 7" ++ str1 c_nl)%string /\
  cli cli_w (cli_opts None "json" false) "pcore" "/h/x.yaml" ["n"] "" = (Ok 0, "null" ++ str1 c_nl)%string /\
  cli cli_w (cli_opts None "s" false) "dgo" "/h/x.yaml" ["env::HOME"] "" = (Ok 0, "/root" ++ str1 c_nl)%string /\
  cli cli_w (cli_opts (Some "d") "s" false) "pcore" "/h/x.yaml" ["none"] "" = (Ok 0, "d" ++ str1 c_nl)%string /\
  cli cli_w (cli_opts None "s" false) "pcore" "/h/x.yaml" ["none"] "" = (Ok 0, "") /\
  cli cli_w (cli_opts None "s" false) "ruby" "/h/x.yaml" ["k"] "" = (Ok 1, "") /\
  cli cli_w (cli_opts None "xml" false) "pcore" "/h/x.yaml" ["k"] "" = (Ok 1, "") /\
  cli cli_w (cli_opts None "s" false) "pcore" "/h/x.yaml" [] "" = (Ok 1, "").
Proof. do 8 (split; [ vm_compute; reflexivity | ]). vm_compute. reflexivity. Qed.

(** The same run as the theorem about the output sees it. *)
Example C68_output_ex :
  fst (cli_look (with_top LkMux (Some [LkConfig; LkEnv]) (file_world [("/h/hiera.yaml", levels ["a"])] [("/h/data/a.yaml", vmap [("k", VInt 7)])]))
         (cli_opts (Some "d") "json" false) ["none"; "k"] "") = Ok (true, ("json 7" ++ str1 c_nl)%string).
Proof. vm_compute. reflexivity. Qed.

(** ** What is missing *)

(** The full statement: with a format that is not known the command fails, and
    with names that have no value and a default the default is written, however
    the names are looked up. *)
Definition C68_full : Prop :=
  (forall w opts dialect config args s s', ~ In (co_render_as opts) [""; "json"; "yaml"; "binary"; "s"] ->
     cli w opts dialect config args s <> (Ok 0, s')) /\
  (forall w dialect config args d,
     cli w (cli_opts None "s" false) dialect config args "" = (Ok 0, "") ->
     forall all, cli w (cli_opts (Some d) "s" all) dialect config args ""
                 = cli w (cli_opts (Some d) "s" false) dialect config args "").

(** A format that is not known is accepted as long as no value is found. *)
Theorem C68_unknown_format_refuted : exists w opts dialect config args,
  ~ In (co_render_as opts) [""; "json"; "yaml"; "binary"; "s"] /\
  cli w opts dialect config args "" = (Ok 0, "").
Proof.
  exists cli_w, (cli_opts None "xml" false), "pcore", "/h/x.yaml", ["none"]. split.
  - intros [H|[H|[H|[H|[H|[]]]]]]; discriminate H.
  - vm_compute. reflexivity.
Qed.

(** The default is dropped when all names are looked up: what is written is the
    same with and without. *)
Theorem C68_default_dropped_refuted : exists w dialect config args d,
  cli w (cli_opts (Some d) "s" true) dialect config args "" = (Ok 0, ("{...}" ++ str1 c_nl)%string) /\
  cli w (cli_opts (Some d) "s" true) dialect config args "" = cli w (cli_opts None "s" true) dialect config args "" /\
  cli w (cli_opts (Some d) "s" false) dialect config args "" = (Ok 0, (d ++ str1 c_nl)%string).
Proof.
  exists cli_w, "pcore", "/h/x.yaml", ["none"], "d".
  split; [ vm_compute; reflexivity | ]. split; vm_compute; reflexivity.
Qed.

(** The rest of the full statement holds: a value or an explanation is never
    written in a format that is not known. *)
Theorem C68_known_format_partial : forall json yaml binary text f v out,
  render json yaml binary text f v = Ok out -> In f ["json"; "yaml"; "binary"; "s"].
Proof.
  intros json yaml binary text f v out E. apply C68_formats in E. inversion E; cbn; auto 6.
Qed.
Example C68_known_format_ex : cli_render "json" (VInt 7) = Ok ("json 7" ++ str1 c_nl)%string.
Proof. reflexivity. Qed.

Print Assumptions C68_unknown_format_refuted.
Print Assumptions C68_default_dropped_refuted.
Print Assumptions C68_known_format_partial.
