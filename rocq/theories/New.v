(** Model of the creation of a session: New and addHieraConfig of
    /repo/session/session.go, and Invocation. *)

From Coq Require Import String List ZArith Bool.
From Verif Require Import Str Value Outcome Fpath Config State Session.
Import ListNotations.
Open Scope string_scope.

(** The dialects, /repo/session/session.go:70-76. *)
Inductive dialect : Type := DDgo | DPcore.

(** What New keeps of the options, /repo/session/session.go:30-37 and :92-102:
    the options, the dialect and the scope.  The loader and the caches are
    modelled with the lookups. *)
Record session : Type := mk_session {
  ss_options : entries;
  ss_dialect : dialect;
  ss_scope : scope
}.

Section New.
  (** String() of an option value. *)
  Variable show : value -> string.
  Variable env : environ.
  (** os.Getwd(), /repo/session/session.go:113. *)
  Variable cwd : outcome string.

  (** addHieraConfig, /repo/session/session.go:105-124. *)
  Definition add_hiera_config (options : entries) : outcome entries :=
    obind (match mgets "Hiera::Root" options with
           | Some r => Ok (show r)
           | None => cwd
           end) (fun root =>
    let file :=
      match mgets "Hiera::ConfigFileName" options with
      | Some r => show r
      | None => match lookup_env env "HIERA_CONFIGFILE" with
                | Some f => f
                | None => "hiera.yaml"
                end
      end in
    Ok (mput (VStr "Hiera::Config") (VStr (join2 root file)) options)).

  (** The dialect, /repo/session/session.go:68-81. *)
  Definition new_dialect (options : entries) : outcome dialect :=
    match mgets "Hiera::Dialect" options with
    | Some (VStr d) =>
        if String.eqb d "dgo" then Ok DDgo
        else if String.eqb d "pcore" then Ok DPcore
        else Panic (EErr ("unknown dialect '" ++ d ++ "'"))
    | _ => Ok DDgo
    end.

  (** The scope, /repo/session/session.go:83-92.  Simplification: only maps
      count as dgo.Keyed. *)
  Definition new_scope (options : entries) : scope :=
    match mgets "Hiera::Scope" options with
    | Some (VMap m) => ScMap m
    | _ => ScMap []
    end.

  (** New, /repo/session/session.go:53-103; [oif] are the options given, if
      any. *)
  Definition new_session (oif : option entries) : outcome session :=
    let given := mputall [] (match oif with Some m => m | None => [] end) in
    obind (match mgets "Hiera::Config" given with
           | None => add_hiera_config given
           | Some _ => Ok given
           end) (fun options =>
    obind (new_dialect options) (fun d =>
    Ok (mk_session options d (new_scope options)))).

  (** The path of the configuration that ConfigLookupKey uses,
      /repo/provider/configlookupkey.go:13. *)
  Definition config_path (s : session) : outcome string :=
    match mgets "Hiera::Config" (ss_options s) with
    | Some v => Ok (show v)
    | None => Panic nil_deref
    end.
End New.

(** The scope of an invocation, /repo/session/session.go:134-142; [si] is the
    map given, if any. *)
Definition invocation_scope (s : session) (si : option entries) : scope :=
  match si with
  | None => ss_scope s
  | Some m => ScNest (ss_scope s) m
  end.
