(** Model of the arguments that must be maps: ToMap of /repo/api/coerce.go, Lookup
    of /repo/hiera/hiera.go, and New and Invocation of /repo/session/session.go
    with whatever argument they are given. *)

From Coq Require Import String List Bool.
From Verif Require Import Str Value Outcome Fpath Config State Engine New Api.
Import ListNotations.
Open Scope string_scope.
Open Scope monad_scope.

(** ToMap, /repo/api/coerce.go:12-21; [None] is Go's nil, everything else is what
    vf.Value makes of the argument. *)
Definition to_map (name : string) (v : option value) : outcome entries :=
  match v with
  | None | Some VNil => Ok []
  | Some (VMap m) => Ok m
  | Some _ => Panic (EErr (name ++ " does not represent a map"))
  end.

Section Lookup.
  Context {T : Type}.
  Variable inst : T -> option value -> bool.
  Variable conv : T -> option value -> outcome (option value).
  (** typ.Any. *)
  Variable any : T.

  (** Lookup, /repo/hiera/hiera.go:68-70: the options are an argument of the call
      of Lookup2 and thus made a map before that. *)
  Definition hiera_lookup (ask : option entries -> string -> M st (option value)) (name : string) (default_value options : option value)
    : M st (option value) :=
    m <- lift (to_map "lookup options" options) ;;
    lookup2 inst conv (ask (Some m)) [name] (Some any) default_value None None None.
End Lookup.

(** New, /repo/session/session.go:53-103, with any options. *)
Definition new_session_with (show : value -> string) (env : environ) (cwd : outcome string) (oif : option value) : outcome session :=
  match oif with
  | None => new_session show env cwd None
  | Some _ => obind (to_map "session options" oif) (fun m => new_session show env cwd (Some m))
  end.

(** Invocation, /repo/session/session.go:134-142, with any scope. *)
Definition invocation_with (s : session) (si : option value) : outcome scope :=
  match si with
  | None => Ok (invocation_scope s None)
  | Some _ => omap (fun m => invocation_scope s (Some m)) (to_map "invocation scope" si)
  end.
