(** The flags of the REST server and what it does with them: newCommand,
    /repo/hieraserver/rest/rest.go:46-71, main (:25-32) and startServer (:75-102).

    Assumed of cobra and pflag, besides what Args.v says: the command has the
    switch help besides the flags declared.  Not modelled: the session that
    startServer makes (see New.v and Engine.v), and a port that cannot be
    listened on. *)

From Coq Require Import String Ascii List Bool ZArith.
From Verif Require Import Str Value Outcome State Ipl Api Args Rest.
Import ListNotations.
Open Scope string_scope.

(** The variables that flags are stored in, /repo/hieraserver/rest/rest.go:34-44,
    and the switch help; of cmdOpts only VarPaths and Variables are flags. *)
Record server_flags : Type := mk_server {
  sv_loglevel : string;
  sv_config : string;
  sv_vars : list string;
  sv_var : list string;
  sv_addr : string;
  sv_tls : tls_flags;
  sv_port : Z;
  sv_help : bool
}.

(** newCommand, /repo/hieraserver/rest/rest.go:46-71: declaring a flag stores its
    default value. *)
Definition new_server : server_flags :=
  mk_server "error" "/hiera/hiera.yaml" [] [] "" (mk_flags "" "" false "") 8080 false.

(** The flags by name, /repo/hieraserver/rest/rest.go:56-69, with that of cobra. *)
Definition server_kinds : list (string * flag_kind) :=
  [("loglevel", FkText); ("config", FkText); ("vars", FkList); ("var", FkList); ("addr", FkText);
   ("ssl-key", FkText); ("ssl-cert", FkText); ("ca", FkText); ("clientCertVerify", FkSwitch);
   ("port", FkText); ("help", FkSwitch)].

Section Server.
  (** strconv.ParseInt(v, 0, 64), with which pflag reads the value of port. *)
  Variable parse_int : string -> option Z.
  (** tls.LoadX509KeyPair and loadCertPool, see Rest.v. *)
  Variable load_pair : string -> string -> bool.
  Variable load_pool : string -> bool.

  (** Setting a flag: the variable that /repo/hieraserver/rest/rest.go:56-69 names.
      [None]: the value is refused. *)
  Definition set_server_flag (n v : string) (g : server_flags) : option server_flags :=
    let t := sv_tls g in
    let with_tls t := Some (mk_server (sv_loglevel g) (sv_config g) (sv_vars g) (sv_var g) (sv_addr g) t (sv_port g) (sv_help g)) in
    if String.eqb n "loglevel" then
      Some (mk_server v (sv_config g) (sv_vars g) (sv_var g) (sv_addr g) t (sv_port g) (sv_help g))
    else if String.eqb n "config" then
      Some (mk_server (sv_loglevel g) v (sv_vars g) (sv_var g) (sv_addr g) t (sv_port g) (sv_help g))
    else if String.eqb n "vars" then
      Some (mk_server (sv_loglevel g) (sv_config g) (sv_vars g ++ [v])%list (sv_var g) (sv_addr g) t (sv_port g) (sv_help g))
    else if String.eqb n "var" then
      Some (mk_server (sv_loglevel g) (sv_config g) (sv_vars g) (sv_var g ++ [v])%list (sv_addr g) t (sv_port g) (sv_help g))
    else if String.eqb n "addr" then
      Some (mk_server (sv_loglevel g) (sv_config g) (sv_vars g) (sv_var g) v t (sv_port g) (sv_help g))
    else if String.eqb n "ssl-key" then with_tls (mk_flags (fl_cert t) v (fl_verify t) (fl_ca t))
    else if String.eqb n "ssl-cert" then with_tls (mk_flags v (fl_key t) (fl_verify t) (fl_ca t))
    else if String.eqb n "ca" then with_tls (mk_flags (fl_cert t) (fl_key t) (fl_verify t) v)
    else if String.eqb n "port" then
      match parse_int v with
      | Some z => Some (mk_server (sv_loglevel g) (sv_config g) (sv_vars g) (sv_var g) (sv_addr g) t z (sv_help g))
      | None => None
      end
    else
      match parse_bool v with
      | None => None
      | Some b =>
          if String.eqb n "clientCertVerify" then with_tls (mk_flags (fl_cert t) (fl_key t) b (fl_ca t))
          else Some (mk_server (sv_loglevel g) (sv_config g) (sv_vars g) (sv_var g) (sv_addr g) t (sv_port g) b)
      end.

  (** What the command does: it writes how to use it, it refuses its arguments,
      or it serves: with a session for this configuration, these options for all
      requests, at this address, with or without TLS; or it panics because the
      certificates cannot be loaded. *)
  Inductive server_action : Type :=
  | SaHelp
  | SaRefuse
  | SaServe (config : string) (opts : command_options) (address : string) (l : outcome listening)
  | SaShort.

  (** Execute, /repo/hieraserver/rest/rest.go:27: help comes before the check that
      there are no names (:53).  startServer, :75-102; the address is that of
      :84. *)
  Definition execute_server (args : list string) : server_action :=
    match read_args server_kinds set_server_flag args [] new_server with
    | Refused _ => SaRefuse
    | Short => SaShort
    | Parsed g names =>
        if sv_help g then SaHelp
        else match names with
             | _ :: _ => SaRefuse
             | [] => SaServe (sv_config g)
                       (mk_command "" "" None [] (sv_vars g) (sv_var g) "" false false false)
                       (sv_addr g ++ ":" ++ show_int (sv_port g))
                       (start_server load_pair load_pool (sv_tls g))
             end
    end.

  (** main, /repo/hieraserver/rest/rest.go:25-32: the exit status, when the command
      does not serve. *)
  Definition exit_status (a : server_action) : option nat :=
    match a with SaHelp => Some 0 | SaRefuse => Some 1 | _ => None end.
End Server.
