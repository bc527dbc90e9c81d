(** Model of the REST server: /repo/hieraserver/rest/rest.go. *)

From Coq Require Import String Ascii List ZArith Bool.
From Verif Require Import Str Value Outcome Api.
Import ListNotations.
Open Scope string_scope.

(** What is sent back: the status and the body.  http.Error and http.NotFound add
    a newline to the message. *)
Inductive response : Type :=
| Respond (status : nat) (body : string)
| Redirect (path : string).
Definition http_error (message : string) (status : nat) : response := Respond status (message ++ str1 c_nl).
Definition not_found : response := http_error "404 page not found" 404.

(** The parameters of a request that are used: all values of default and var, the
    first of merge and type, or nothing,
    /repo/hieraserver/rest/rest.go:130-136. *)
Record params : Type := mk_params {
  pa_default : list string;
  pa_merge : list string;
  pa_type : list string;
  pa_var : list string
}.
(** url.Values.Get. *)
Definition first_or_empty (l : list string) : string := match l with [] => "" | x :: _ => x end.

(** keyPattern, /repo/hieraserver/rest/rest.go:73: the prefix /lookup/ and then no
    newline up to the end. *)
Definition key_of_path (path : string) : option string :=
  match strip_prefix "/lookup/" path with
  | Some k => if one_line k then Some k else None
  | None => None
  end.

(** The options of one request, /repo/hieraserver/rest/rest.go:129-137.  What append
    does with a shared array is modelled in Races.v; here it gives a new list. *)
Definition request_options (server : command_options) (p : params) : command_options :=
  mk_command (first_or_empty (pa_type p)) (first_or_empty (pa_merge p))
             (match pa_default p with [] => co_default server | d :: _ => Some d end)
             (co_fact_paths server) (co_var_paths server) (co_variables server ++ pa_var p) "json"
             (co_explain_data server) (co_explain_options server) (co_lookup_all server).

Section Handler.
  Context {S : Type}.
  (** hiera.LookupAndRender with the session of the server: whether there is a
      value, and what was written. *)
  Variable look : command_options -> list string -> M S (bool * string).
  Variable server : command_options.

  (** doLookup, /repo/hieraserver/rest/rest.go:107-145. *)
  Definition do_lookup (path : string) (p : params) : M S response := fun s =>
    match key_of_path path with
    | None => (Ok not_found, s)
    | Some key =>
        let (o, s1) := look (request_options server p) [key] s in
        (match o with
         | Ok (true, out) => Ok (Respond 200 out)
         | Ok (false, _) => Ok (http_error "404 value not found" 404)
         | Panic (EErr m) => Ok (http_error m 500)
         | Panic (EStr m) => Ok (http_error m 500)
         | Panic EOther => Panic EOther
         | Hang => Hang
         | NoFuel => NoFuel
         end, s1)
    end.

  (** The router, /repo/hieraserver/rest/rest.go:147-149: http.ServeMux redirects a
      path that is not clean ([clean] is its cleanPath) and /lookup without a
      slash, gives a path below /lookup/ to the handler, and others 404.
      Simplification: the CONNECT method and patterns with hosts do not occur. *)
  Variable clean : string -> string.
  Definition route (path : string) (p : params) : M S response := fun s =>
    if String.eqb (clean path) "/lookup" then (Ok (Redirect "/lookup/"), s)
    else if negb (String.eqb (clean path) path) then (Ok (Redirect (clean path)), s)
    else if has_prefix "/lookup/" path then do_lookup path p s
    else (Ok not_found, s).
End Handler.

(** *** TLS *)

(** tls.Config as far as it is used: whether clients must show a certificate that
    is verified, and the authorities, if not those of the system. *)
Record tls_config : Type := mk_tls { tl_verify : bool; tl_authorities : option string }.

(** The flags of the server, /repo/hieraserver/rest/rest.go:34-44. *)
Record tls_flags : Type := mk_flags { fl_cert : string; fl_key : string; fl_verify : bool; fl_ca : string }.

Section Tls.
  (** tls.LoadX509KeyPair and loadCertPool, /repo/hieraserver/rest/rest.go:152-165:
      whether they succeed. *)
  Variable load_pair : string -> string -> bool.
  Variable load_pool : string -> bool.

  (** makeTLSconfig, /repo/hieraserver/rest/rest.go:167-193; a failure is a panic at
      :88-91. *)
  Definition make_tls_config (f : tls_flags) : outcome (option tls_config) :=
    if String.eqb (fl_cert f) "" || String.eqb (fl_key f) "" then Ok None
    else if negb (load_pair (fl_cert f) (fl_key f)) then Panic (EErr "cannot load key pair")
    else if String.eqb (fl_ca f) "" then Ok (Some (mk_tls (fl_verify f) None))
    else if load_pool (fl_ca f) then Ok (Some (mk_tls (fl_verify f) (Some (fl_ca f))))
    else Panic (EErr "failed to load certificate").

  (** How the server listens, /repo/hieraserver/rest/rest.go:93-98. *)
  Inductive listening : Type := Plain | Tls (c : tls_config).
  Definition start_server (f : tls_flags) : outcome listening :=
    omap (fun c => match c with None => Plain | Some c => Tls c end) (make_tls_config f).
End Tls.
