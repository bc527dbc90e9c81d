(** WithKey of the invocation, which is meant to stop recursive lookups. *)

From Coq Require Import String List Bool.
From Verif Require Import Str Value Outcome State.
Import ListNotations.
Open Scope string_scope.
Open Scope list_scope.

(** The nameStack of an ivContext replaced.  /repo/session/invocation.go:265 and :267. *)
Definition iv_with_names (ns : list string) (i : iv) : iv :=
  mk_iv ns (iv_scope i) (iv_luopts i) (iv_strat i) (iv_expl i) (iv_mode i) (iv_redacted i).

(** fmt.Errorf with the stack joined.  /repo/session/invocation.go:263. *)
Definition recursive_lookup (ns : list string) : err :=
  EErr ("recursive lookup detected in [" ++ join ", " ns ++ "]").

(** util.ContainsString on the stack.  /repo/session/invocation.go:262. *)
Definition contains_string (ns : list string) (s : string) : bool := existsb (String.eqb s) ns.

(** The deferred function: the stack without its last name.  Go panics when the stack is
    empty, which is [EOther].  /repo/session/invocation.go:266-268. *)
Definition pop_name {A} (o : outcome A) (s : st) : outcome A * st :=
  match iv_names (s_iv s) with
  | [] => (Panic EOther, s)
  | ns => (o, with_iv (iv_with_names (removelast ns) (s_iv s)) s)
  end.

(** WithKey, given the source of the key.  The deferred function runs when the actor
    returns or panics; an actor that does neither is left alone.
    /repo/session/invocation.go:261-270. *)
Definition with_key {A} (src : string) (actor : M st A) : M st A := fun s =>
  let ns := iv_names (s_iv s) in
  if contains_string ns src then (Panic (recursive_lookup ns), s)
  else match actor (with_iv (iv_with_names (ns ++ [src]) (s_iv s)) s) with
       | (Ok a, s') => pop_name (Ok a) s'
       | (Panic e, s') => pop_name (Panic e) s'
       | (o, s') => (o, s')
       end.
