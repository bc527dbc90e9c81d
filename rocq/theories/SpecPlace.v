(** When there is something at a location. *)

From Coq Require String.
From Verif Require Import Config.

(** A path when there is a file, and a URI always.  The locations of a resolved
    hierarchy are paths and URIs. *)
Definition there (l : location) : Prop :=
  match l with
  | LPath _ _ exists_ => exists_ = true
  | LUri _ _ => True
  | LGlob _ | LMapped _ _ _ => False
  end.

(** The path or the URI that a location was resolved to. *)
Definition resolved_as (l : location) (p : String.string) : Prop :=
  match l with
  | LPath _ r _ | LUri _ r => r = p
  | LGlob _ | LMapped _ _ _ => False
  end.
