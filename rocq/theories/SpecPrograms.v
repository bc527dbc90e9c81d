(** What the lookup command and the REST service must come to, whatever is asked and
    whatever is in the files: values, errors and lookups that never end. *)

From Coq Require Import String Ascii List ZArith Bool.
From Verif Require Import Str Value Outcome Key Merge Config State Session Api Rest SpecKey SpecKeyErr SpecConfig SpecLookup SpecFail SpecMany SpecDeep SpecApi
  P_Cmd P_FromFiles P_Rest.
Import ListNotations.
Open Scope string_scope.
Open Scope list_scope.

(** The same failure, for another type of result. *)
Inductive same_failure {A B} : outcome A -> outcome B -> Prop :=
| sf_panic : forall x, same_failure (Panic x) (Panic x)
| sf_hang : same_failure Hang Hang.

(** Reading a type or a value, converting and writing give a result or an error. *)
Definition works {A} (o : outcome A) : Prop := (exists a, o = Ok a) \/ exists x, o = Panic x.

(** ** Names *)
Section Names.
  (** What keys other than lookup_options come to. *)
  Variable other : key -> outcome (option value) -> Prop.

  Inductive name_comes (name : string) : outcome (option value) -> Prop :=
  | nc_misspelt : forall x, misspelt name x -> name_comes name (Panic x)
  | nc_options : forall ps, written_key name (PStr "lookup_options" :: ps) -> name_comes name (Ok None)
  | nc_key : forall r ps o, written_key name (PStr r :: ps) -> r <> "lookup_options" -> other (mk_key name (PStr r :: ps)) o -> name_comes name o.

  (** The value of the first name that has one; the first failure ends it. *)
  Inductive first_comes : list string -> outcome (option value) -> Prop :=
  | fc_none : first_comes [] (Ok None)
  | fc_found : forall n l v, name_comes n (Ok (Some v)) -> first_comes (n :: l) (Ok (Some v))
  | fc_next : forall n l o, name_comes n (Ok None) -> first_comes l o -> first_comes (n :: l) o
  | fc_fails : forall n l o o', name_comes n o -> same_failure o o' -> first_comes (n :: l) o'.

  Context {T : Type}.
  Variable inst : T -> option value -> bool.
  Variable conv : T -> option value -> outcome (option value).

  (** The entry for a name in the map of all of several names. *)
  Inductive entry_comes (types : option (list (string * T))) (n : string) : outcome (option value) -> Prop :=
  | ec_nothing : name_comes n (Ok None) -> entry_comes types n (Ok None)
  | ec_fails : forall o o', name_comes n o -> same_failure o o' -> entry_comes types n o'
  | ec_value : forall v t r, name_comes n (Ok (Some v)) -> entry_type types n t -> of_type inst conv t (Some v) (Ok r) ->
      entry_comes types n (Ok (Some (match r with Some x => x | None => VNil end)))
  | ec_no_such : forall v t r o, name_comes n (Ok (Some v)) -> entry_type types n t -> of_type inst conv t (Some v) r -> same_failure r o ->
      entry_comes types n o
  | ec_untyped : forall v l, name_comes n (Ok (Some v)) -> types = Some l -> ~ In n (map fst l) ->
      entry_comes types n (Panic (EErr ("key '" ++ n ++ "' was not found in the type map"))).

  (** A map with an entry for each name that has a value, in the order in which they
      are first asked for; the first failure ends it. *)
  Inductive all_come (types : option (list (string * T))) (names : list string) : outcome (option value) -> Prop :=
  | al_map : forall shown, (forall n, In n names -> entry_comes types n (Ok (shown n))) ->
      all_come types names (Ok (Some (VMap (map (fun n => (VStr n, match shown n with Some v => v | None => VNil end))
        (firsts (filter (fun n => match shown n with Some _ => true | None => false end) names))))))
  | al_fails : forall pre n post o o', names = pre ++ n :: post -> (forall m, In m pre -> exists v, entry_comes types m (Ok v)) ->
      entry_comes types n o -> same_failure o o' -> all_come types names o'.
End Names.

(** ** One command or request *)
Section Lookups.
  Context {T : Type}.
  Variable inst : T -> option value -> bool.
  Variable conv : T -> option value -> outcome (option value).
  Variable any : T.
  Variable parse_type : string -> outcome T.
  Variable struct_of : T -> option (list (string * T)).
  Variable parse : string -> outcome value.
  Variable file : string -> var_file.
  Variable stdin : var_file.
  Variable render : string -> value -> outcome string.

  (** What is found for the names, given what keys come to. *)
  Inductive found_comes (other : key -> outcome (option value) -> Prop) (opts : command_options) (args : list string) (t : T) (dv : option value)
    : outcome (option value) -> Prop :=
  | fo_value : forall v r, co_lookup_all opts = false -> first_comes other args (Ok (Some v)) -> of_type inst conv (Some t) (Some v) r ->
      found_comes other opts args t dv r
  | fo_default : forall v r, co_lookup_all opts = false -> first_comes other args (Ok None) -> dv = Some v -> of_type inst conv (Some t) (Some v) r ->
      found_comes other opts args t dv r
  | fo_nothing : co_lookup_all opts = false -> first_comes other args (Ok None) -> dv = None -> found_comes other opts args t dv (Ok None)
  | fo_fails : forall o o', co_lookup_all opts = false -> first_comes other args o -> same_failure o o' -> found_comes other opts args t dv o'
  | fo_all : forall o, co_lookup_all opts = true -> (co_type opts = "" \/ struct_of t <> None) -> all_come other inst conv (struct_of t) args o ->
      found_comes other opts args t dv o
  | fo_no_map : co_lookup_all opts = true -> co_type opts <> "" -> struct_of t = None ->
      found_comes other opts args t dv (Panic (EErr "type must be a map")).

  (** What is written about it, and whether there is something. *)
  Inductive written (format : string) : outcome (option value) -> outcome (bool * string) -> Prop :=
  | wn_nothing : written format (Ok None) (Ok (false, ""))
  | wn_value : forall v out, render format v = Ok out -> written format (Ok (Some v)) (Ok (true, out))
  | wn_unrendered : forall v o r, render format v = o -> same_failure o r -> written format (Ok (Some v)) r
  | wn_failed : forall o r, same_failure o r -> written format o r.

  (** A default on the command line that is no value. *)
  Definition default_fails (opts : command_options) (x : err) : Prop :=
    exists d c r, co_default opts = Some d /\ trim_space d = String c r /\ (c = "{"%char \/ c = "["%char \/ c = """"%char \/ c = "'"%char) /\
      parse (trim_space d) = Panic x.

  (** What comes of options and names: the scope and the way to merge decide what
      keys come to. *)
  Inductive looked_up (keys : scope -> option entries -> (key -> outcome (option value) -> Prop) -> Prop) (session : scope)
            (opts : command_options) (args : list string) : outcome (bool * string) -> Prop :=
  | lu_type : forall x, co_type opts <> "" -> parse_type (co_type opts) = Panic x -> looked_up keys session opts args (Panic x)
  | lu_default : forall t x, asked_type any parse_type opts t -> default_fails opts x -> looked_up keys session opts args (Panic x)
  | lu_scope : forall t dv x, asked_type any parse_type opts t -> asked_default parse opts dv ->
      create_scope parse file (co_variables opts) (co_var_paths opts) (co_fact_paths opts) stdin = Panic x -> looked_up keys session opts args (Panic x)
  | lu_found : forall t dv vars mo other o r, asked_type any parse_type opts t -> asked_default parse opts dv ->
      create_scope parse file (co_variables opts) (co_var_paths opts) (co_fact_paths opts) stdin = Ok vars -> asked_merge opts mo ->
      keys (ScNest session vars) mo other -> found_comes other opts args t dv o ->
      written (if String.eqb (co_render_as opts) "" then "yaml" else co_render_as opts) o r -> looked_up keys session opts args r.
End Lookups.

(** ** What keys come to *)
Section Keys.
  Variables (w : world) (on_disk : string -> bool) (matching : string -> list string) (file : cfg_file) (fs : list lkfn) (n : nat).

  (** With a configuration: it is resolved, with its lookup options, or cannot be,
      or there is no need to. *)
  Inductive keys_with (c : config) (sc : scope) (mo : option entries) : (key -> outcome (option value) -> Prop) -> Prop :=
  | kw_resolved : forall es all, hierarchy_in w on_disk matching n sc c es -> all_options w sc es n all ->
      keys_with c sc mo (fun k o => match o with
        | Ok v => many_answers w sc es all fs n (ALook k mo) v
        | Panic x => many_fails w sc es all fs n (ALook k mo) x
        | _ => False end)
  | kw_refused : forall x, hierarchy_not w on_disk matching n sc c x -> keys_with c sc mo (fun _ o => o = Panic x)
  | kw_options : forall es x, hierarchy_in w on_disk matching n sc c es ->
      hierarchy_fails w sc (value_in w sc es Options n) (fails_in w sc es Options n) "lookup_options" (SDeep []) es x ->
      keys_with c sc mo (fun _ o => o = Panic x)
  | kw_unneeded : keys_with c sc mo (fun _ _ => False).

  (** Without: every key ends in [first]. *)
  Definition keys_without (first : outcome (option value)) (sc : scope) (mo : option entries) (other : key -> outcome (option value) -> Prop) : Prop :=
    other = fun _ o => o = first.
  Definition no_keys (sc : scope) (mo : option entries) (other : key -> outcome (option value) -> Prop) : Prop := other = fun _ _ => False.
End Keys.

(** ** The response to one request *)
Section Response.
  Variable clean : string -> string.
  (** The options of the server and what LookupAndRender must come to. *)
  Variable server : command_options.
  Variable looks : command_options -> list string -> outcome (bool * string) -> Prop.

  (** The first of the values of a parameter, or nothing. *)
  Definition first_value (l : list string) (t : string) : Prop := l = [] /\ t = "" \/ exists r, l = t :: r.

  (** What a request asks for. *)
  Record requested (p : params) (o : command_options) : Prop := mk_requested {
    rq_type : first_value (pa_type p) (co_type o);
    rq_merge : first_value (pa_merge p) (co_merge o);
    rq_default : forall d, co_default o = Some d <-> (exists r, pa_default p = d :: r) \/ pa_default p = [] /\ co_default server = Some d;
    rq_vars : co_variables o = co_variables server ++ pa_var p;
    rq_paths : co_var_paths o = co_var_paths server;
    rq_facts : co_fact_paths o = co_fact_paths server;
    rq_format : co_render_as o = "json";
    rq_others : co_explain_data o = co_explain_data server /\ co_explain_options o = co_explain_options server /\ co_lookup_all o = co_lookup_all server
  }.

  Inductive responds : string * params -> outcome response -> Prop :=
  | rs_no_key : forall path p, clean path = "/lookup" -> responds (path, p) (Ok (Redirect "/lookup/"))
  | rs_unclean : forall path p, clean path <> "/lookup" -> clean path <> path -> responds (path, p) (Ok (Redirect (clean path)))
  | rs_elsewhere : forall path p, clean path = path -> path <> "/lookup" -> (forall key, ~ lookup_path path key) ->
      responds (path, p) (Ok (Respond 404 ("404 page not found" ++ str1 c_nl)))
  | rs_value : forall path p key o out, clean path = path -> lookup_path path key -> requested p o -> looks o [key] (Ok (true, out)) ->
      responds (path, p) (Ok (Respond 200 out))
  | rs_nothing : forall path p key o out, clean path = path -> lookup_path path key -> requested p o -> looks o [key] (Ok (false, out)) ->
      responds (path, p) (Ok (Respond 404 ("404 value not found" ++ str1 c_nl)))
  | rs_error : forall path p key o x m, clean path = path -> lookup_path path key -> requested p o -> looks o [key] (Panic x) -> x = EErr m \/ x = EStr m ->
      responds (path, p) (Ok (Respond 500 (m ++ str1 c_nl)))
  | rs_crash : forall path p key o, clean path = path -> lookup_path path key -> requested p o -> looks o [key] (Panic EOther) ->
      responds (path, p) (Panic EOther)
  | rs_never : forall path p key o, clean path = path -> lookup_path path key -> requested p o -> looks o [key] Hang -> responds (path, p) Hang.
End Response.

(** ** The responses to several requests *)
Section Service.
  Context {T : Type}.
  Variable inst : T -> option value -> bool.
  Variable conv : T -> option value -> outcome (option value).
  Variable any : T.
  Variable parse_type : string -> outcome T.
  Variable struct_of : T -> option (list (string * T)).
  Variable parse : string -> outcome value.
  Variable file : string -> var_file.
  Variable stdin : var_file.
  Variable render : string -> value -> outcome string.
  Variable clean : string -> string.
  Variable session : scope.
  Variable server : command_options.
  Notation responding keys := (responds clean server (looked_up inst conv any parse_type struct_of parse file stdin render keys session)).

  (** With a configuration that cannot be read: the first request that needs it
      ends in [first], and no other that needs it ever ends. *)
  Inductive responses_without (first : outcome (option value)) : list (string * params) -> list (outcome response) -> Prop :=
  | rw_done : responses_without first [] []
  | rw_unneeded : forall q r rs os, responding no_keys q r -> responses_without first rs os -> responses_without first (q :: rs) (r :: os)
  | rw_needed : forall q r rs os, (forall r', ~ responding no_keys q r') -> responding (keys_without first) q r ->
      responses_without Hang rs os -> responses_without first (q :: rs) (r :: os).

  Inductive service_comes (w : world) (on_disk : string -> bool) (matching : string -> list string) (cfg : cfg_file) (fs : list lkfn) (n : nat)
            (rs : list (string * params)) (os : list (outcome response)) : Prop :=
  | sv_config : forall c, config_new (w_env w) (w_cfgpath w) cfg = Ok c ->
      Forall2 (responding (keys_with w on_disk matching fs n c)) rs os -> service_comes w on_disk matching cfg fs n rs os
  | sv_no_config : forall x, config_new (w_env w) (w_cfgpath w) cfg = Panic x -> responses_without (Panic x) rs os ->
      service_comes w on_disk matching cfg fs n rs os.
End Service.

(** ** How a command ends *)
Section Command.
  Context {T : Type}.
  Variable inst : T -> option value -> bool.
  Variable conv : T -> option value -> outcome (option value).
  Variable any : T.
  Variable parse_type : string -> outcome T.
  Variable struct_of : T -> option (list (string * T)).
  Variable parse : string -> outcome value.
  Variable file : string -> var_file.
  Variable stdin : var_file.
  Variable render : string -> value -> outcome string.
  Variable session : scope.
  Notation looking keys := (looked_up inst conv any parse_type struct_of parse file stdin render keys session).

  (** What comes of options and names in a session where nothing was looked up. *)
  Inductive look_comes (w : world) (on_disk : string -> bool) (matching : string -> list string) (cfg : cfg_file) (fs : list lkfn) (n : nat)
            (opts : command_options) (args : list string) (r : outcome (bool * string)) : Prop :=
  | lc_config : forall c, config_new (w_env w) (w_cfgpath w) cfg = Ok c ->
      looking (keys_with w on_disk matching fs n c) opts args r -> look_comes w on_disk matching cfg fs n opts args r
  | lc_no_config : forall x, config_new (w_env w) (w_cfgpath w) cfg = Panic x ->
      looking (keys_without (Panic x)) opts args r -> look_comes w on_disk matching cfg fs n opts args r.

  (** The exit status and what is written; a failure is an exit status too, unless
      it is no error that a command can report. *)
  Inductive exits : outcome (bool * string) -> outcome nat -> string -> Prop :=
  | ex_written : forall b out, exits (Ok (b, out)) (Ok 0) out
  | ex_error : forall x m, x = EErr m \/ x = EStr m -> exits (Panic x) (Ok 1) ""
  | ex_crash : exits (Panic EOther) (Panic EOther) "".
End Command.
