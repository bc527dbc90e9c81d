(** What it means that an explainer is where it was, and what a finished
    explanation contains; stated over the tree only. *)

From Coq Require Import String List ZArith Bool.
From Verif Require Import Str Value Outcome Key Merge Ipl Config Explain.
Import ListNotations.
Open Scope string_scope.

(** [f'] has everything recorded below [f], in the same order, and maybe more. *)
Definition grows (f f' : frame) : Prop :=
  (exists l, fr_bs f' = (fr_bs f ++ l)%list) /\ (exists l, fr_ts f' = (fr_ts f ++ l)%list).

(** [y] has the same open nodes as [x] and only the current one may have got
    more. *)
Definition same_place (x y : explainer) : Prop :=
  x_options y = x_options x /\ x_only y = x_only x /\ x_nil y = x_nil x /\
  match x_open x with
  | [] => x_open y = [] /\ grows (x_root x) (x_root y)
  | (k, f) :: r => x_root y = x_root x /\ exists f', x_open y = (k, f') :: r /\ grows f f'
  end.
