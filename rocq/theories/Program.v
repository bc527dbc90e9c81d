(** The program lookup and the REST service as a whole: the arguments are read
    (Flags.v, RestArgs.v), a session is made (New.v), names are looked up
    (Engine.v) and the output is written.  /repo/lookup/lookup.go:10-17 with
    /repo/cli/hiera.go:121-137, and /repo/hieraserver/rest/rest.go:25-102. *)

From Coq Require Import String Ascii List ZArith Bool.
From Verif Require Import Str Value Outcome Key Config Fpath Explain State Engine Session Api Cmd New Args Flags Rest RestArgs.
Import ListNotations.
Open Scope string_scope.

(** The state of the process: what was written to the standard output, and the
    state of the session. *)
Record process : Type := mk_process_state { pr_out : string; pr_session : st }.

(** An action on the session, in the process. *)
Definition in_session {A} (m : M st A) : M process A := fun p =>
  let (o, s) := m (pr_session p) in (o, mk_process_state (pr_out p) s).

(** Writing to the standard output, /repo/cli/hiera.go:128 and :134.
    Simplification: it does not fail. *)
Definition to_output (t : string) : M process unit := fun p =>
  (Ok tt, mk_process_state (pr_out p ++ t) (pr_session p)).

(** A session for these options: the world with the function at the top, the path
    of the configuration and the functions that MuxLookupKey asks,
    /repo/session/session.go:53-103. *)
Definition session_world (w : world) (top : lkfn) (path : string) (mux : list lkfn) : world :=
  mk_world (w_stat w) (w_glob w) (w_config w) (w_yaml w) (w_json w) (w_readdir w) (w_lstat w) (w_fun w)
    (w_plugin w) (w_call w) (w_dig w) (w_env w) (w_cwd w) (w_show w) (w_parse_type w) (w_new w)
    top path (Some mux) (w_modpath w) (w_yamlpath w).

Section Program.
  Context {T : Type}.
  (** The types and the values of a dialect, and the files; see Api.v and Engine.v.
      What the world does with types is that of the dialect. *)
  Variable inst : T -> option value -> bool.
  Variable conv : T -> option value -> outcome (option value).
  Variable any : T.
  Variable parse_type : dialect -> string -> outcome T.
  Variable struct_of : T -> option (list (string * T)).
  Variable parse : dialect -> string -> outcome value.
  Variable file : string -> var_file.
  Variable stdin : var_file.
  Variable render : string -> value -> outcome string.
  Variable render_explainer : string -> M st string.
  Variable outside : dialect -> world.
  (** String() of a value, the environment and the working directory. *)
  Variable show : value -> string.
  Variable env : environ.
  Variable cwd : outcome string.
  (** KillPlugins, see Plugin.v and C54. *)
  Variable kill : M process unit.
  (** Steps that an engine may take. *)
  Variable fuel : nat.

  (** New, /repo/session/session.go:53-103: what the lookups of the session need. *)
  Definition make_session (cfg : entries) (top : lkfn) (mux : list lkfn) : M process (dialect * world * scope) := fun p =>
    match obind (new_session show env cwd (Some cfg)) (fun ss => omap (pair ss) (config_path show ss)) with
    | Ok (ss, path) =>
        (Ok (ss_dialect ss, session_world (outside (ss_dialect ss)) top path mux, ss_scope ss),
         mk_process_state (pr_out p) (init_st (ss_scope ss) None))
    | x => (recast x, p)
    end.

  (** LookupAndRender in a session, /repo/cli/hiera.go:134. *)
  Definition render_in (x : dialect * world * scope) (opts : command_options) (args : list string) : M process (bool * string) :=
    let '(d, w, sc) := x in
    in_session (lookup_and_render inst conv any (parse_type d) struct_of (parse d) file stdin (engine_invoke sc) (engine_ask w fuel)
                  render render_explainer opts args).

  (** What cobra writes for help and for the version. *)
  Variable usage version : string.

  (** main, /repo/lookup/lookup.go:10-17: the exit status.  Errors are written to
      the standard error.  An argument with a single dash is not modelled. *)
  Definition program (args : list string) : M process nat :=
    match snd (execute first_flags args) with
    | AcHelp => bind (to_output usage) (fun _ => ret 0)
    | AcVersion => bind (to_output version) (fun _ => ret 0)
    | AcRefuse => ret 1
    | AcShort => ret 1
    | AcLookup o d c names => main make_session (fun _ => kill) render_in to_output o d c names
    end.

  (** The handler of the service with a session, for requests one after the other,
      /repo/hieraserver/rest/rest.go:81, :106-149. *)
  Variable clean : string -> string.
  Fixpoint respond (handle : string -> params -> M st response) (rs : list (string * params)) (s : st) : list (outcome response) :=
    match rs with
    | [] => []
    | (path, p) :: rs => let (o, s1) := handle path p s in o :: respond handle rs s1
    end.

  (** See RestArgs.v. *)
  Variable parse_int : string -> option Z.
  Variable load_pair : string -> string -> bool.
  Variable load_pool : string -> bool.

  (** The service, /repo/hieraserver/rest/rest.go:25-102: where and how it listens,
      and how it responds to these requests; [None] when it does not serve.  Its
      session has no option for the dialect, :76-78. *)
  Definition service (args : list string) (rs : list (string * params)) : option (string * listening * list (outcome response)) :=
    match execute_server parse_int load_pair load_pool args with
    | SaServe config opts address (Ok l) =>
        match fst (make_session [(VStr "Hiera::Config", VStr config)] LkMux [LkConfig; LkEnv] (mk_process_state "" (init_st (ScMap []) None))) with
        | Ok (d, w, sc) =>
            Some (address, l,
                  respond (route (lookup_and_render inst conv any (parse_type d) struct_of (parse d) file stdin (engine_invoke sc)
                                    (engine_ask w fuel) render render_explainer) opts clean)
                          rs (init_st sc None))
        | _ => None
        end
    | _ => None
    end.
End Program.
