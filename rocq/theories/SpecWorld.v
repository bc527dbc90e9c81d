(** Surroundings that can be relied on: the same question always has the same
    answer, and an answer comes. *)

From Coq Require Import String List.
From Verif Require Import Str Value Outcome Key State SpecPath.
Import ListNotations.
Open Scope string_scope.
Open Scope list_scope.

(** A value, when there is one, has no key twice. *)
Definition tidy (o : option value) : Prop := forall v, o = Some v -> wf v = true.

(** What is asked of the surroundings: files are as they are, functions and
    plugins are there or not, what functions and types say depends on what they
    are asked only, or they fail; functions do not look up anything themselves.
    The program has a working directory. *)
Record dependable (w : world) : Prop := mk_dependable {
  dp_yaml : forall p, exists f, (forall t, w_yaml w t p = f) /\ forall v, f = DfValue v -> wf v = true;
  dp_json : forall p, exists f, (forall t, w_json w t p = f) /\ forall v, f = DfValue v -> wf v = true;
  dp_fun : forall n, exists b, forall t, w_fun w t n = b;
  dp_plugin : forall path n, (exists b, forall t, w_plugin w t path n = Ok b) \/ (exists x, forall t, w_plugin w t path n = Panic x);
  dp_call : forall f a, (exists v, (forall t, w_call w t f a = PRet v) /\ tidy v) \/ (exists x, forall t, w_call w t f a = PPanic x);
  dp_dig : forall f ps, (exists v, (forall t, w_dig w t f ps = Ok v) /\ tidy v) \/ (exists x, forall t, w_dig w t f ps = Panic x);
  dp_type : forall t, (exists ty, w_parse_type w t = Ok ty) \/ (exists x, w_parse_type w t = Panic x);
  dp_new : forall ty v l, wf v = true ->
    (exists v', w_new w ty v l = Ok v' /\ wf v' = true) \/ (exists x, w_new w ty v l = Panic x);
  dp_cwd : absolute (w_cwd w)
}.
