(** A session that serves one lookup after the other:
    /repo/session/session.go:134-142. *)

From Coq Require Import String List ZArith Bool.
From Verif Require Import Str Value Outcome Key Merge Config Explain State Engine.
Import ListNotations.

(** Invocation and newInvocation, /repo/session/session.go:134-142 and
    /repo/session/invocation.go:49-57: a new ivContext in a session that may
    have served others before.  The map configs (/repo/session/invocation.go:37) is new; the
    caches of the session stay. *)
Definition invocation (sc : scope) (explain : bool) (s : st) : st :=
  with_configs [] (with_iv (new_iv sc explain) s).

(** One request: the scope of the invocation, the key and the options. *)
Record request : Type := mk_request { q_scope : scope; q_key : key; q_opts : option entries }.

(** Lookups in the same session, each with an invocation of its own and the
    same explainer, or none; a panic of one is recovered from before the next,
    as in /repo/hieraserver/rest/rest.go:107-127. *)
Fixpoint serve (w : world) (n : nat) (explain : bool) (rs : list request) (s : st)
  : list (outcome (option value)) * st :=
  match rs with
  | [] => ([], s)
  | r :: t =>
      let (o, s1) := run_lookup w n (q_key r) (q_opts r) (invocation (q_scope r) explain s) in
      let (os, s2) := serve w n explain t s1 in
      (o :: os, s2)
  end.
