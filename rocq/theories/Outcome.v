(** Outcomes of Go code and the state monad the model is written in. *)

From Coq Require Import String List.
Import ListNotations.
Open Scope string_scope.

(** The value a Go panic carries: an [error], a [string] or something else
    (told apart by /repo/hieraserver/rest/rest.go:118-124).  Runtime errors
    such as nil dereference and failed type assertions are errors. *)
Inductive err : Type :=
| EErr (msg : string)
| EStr (msg : string)
| EOther.

(** Outcome of running a piece of Go code: normal return, panic, blocked for
    ever, or (model artefact) the fuel ran out before the code finished. *)
Inductive outcome (A : Type) : Type :=
| Ok (a : A)
| Panic (e : err)
| Hang
| NoFuel.
Arguments Ok {A} a.
Arguments Panic {A} e.
Arguments Hang {A}.
Arguments NoFuel {A}.

(** Re-type an outcome that is not [Ok]. *)
Definition recast {A B} (o : outcome A) : outcome B :=
  match o with
  | Ok _ => NoFuel
  | Panic e => Panic e
  | Hang => Hang
  | NoFuel => NoFuel
  end.

(** Map over the normal result. *)
Definition omap {A B} (f : A -> B) (o : outcome A) : outcome B :=
  match o with
  | Ok a => Ok (f a)
  | Panic e => Panic e
  | Hang => Hang
  | NoFuel => NoFuel
  end.

(** Sequencing of outcomes without state. *)
Definition obind {A B} (o : outcome A) (f : A -> outcome B) : outcome B :=
  match o with
  | Ok a => f a
  | Panic e => Panic e
  | Hang => Hang
  | NoFuel => NoFuel
  end.

(** State monad: the state is kept also when the code panics, since Go code
    can recover and go on with whatever was modified. *)
Definition M (S A : Type) : Type := S -> outcome A * S.

Section Monad.
  Context {S : Type}.

  (** A Go return, a Go panic, a goroutine that waits for ever, and a run that
      needs more fuel; one statement after the other; the state; and a call of
      code without a state. *)
  Definition ret {A} (a : A) : M S A := fun s => (Ok a, s).
  Definition panic {A} (e : err) : M S A := fun s => (Panic e, s).
  Definition hang {A} : M S A := fun s => (Hang, s).
  Definition nofuel {A} : M S A := fun s => (NoFuel, s).
  Definition bind {A B} (m : M S A) (f : A -> M S B) : M S B :=
    fun s => match m s with
             | (Ok a, s') => f a s'
             | (Panic e, s') => (Panic e, s')
             | (Hang, s') => (Hang, s')
             | (NoFuel, s') => (NoFuel, s')
             end.
  Definition get : M S S := fun s => (Ok s, s).
  Definition modify (f : S -> S) : M S unit := fun s => (Ok tt, f s).
  Definition lift {A} (o : outcome A) : M S A := fun s => (o, s).
End Monad.

Declare Scope monad_scope.
Delimit Scope monad_scope with monad.
Notation "x <- m ;; k" := (bind m (fun x => k)) (at level 61, m at next level, right associativity) : monad_scope.
Notation "m ;;; k" := (bind m (fun _ => k)) (at level 61, right associativity) : monad_scope.

(** Panic of a nil dereference: a Go runtime error. *)
Definition nil_deref : err := EErr "runtime error: invalid memory address or nil pointer dereference".
(** Panic of a failed type assertion: a Go runtime error. *)
Definition bad_assert : err := EErr "interface conversion".
