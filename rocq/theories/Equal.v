(** Equality and hash codes of locations and keys. *)

From Coq Require Import String List ZArith Bool.
From Verif Require Import Str Outcome Key Config.
Open Scope string_scope.

(** Equals of a path (/repo/config/path.go:55-61), a URI
    (/repo/config/uri.go:50-56), a glob (/repo/config/glob.go:39-41) and mapped
    paths (/repo/config/mappedpaths.go:59-64): the same type, and each field is
    the same. *)
Definition loc_equals (a b : location) : bool :=
  match a, b with
  | LPath o r e, LPath o' r' e' => String.eqb o o' && String.eqb r r' && Bool.eqb e e'
  | LUri o r, LUri o' r' => String.eqb o o' && String.eqb r r'
  | LGlob p, LGlob p' => String.eqb p p'
  | LMapped v k t, LMapped v' k' t' => String.eqb v v' && String.eqb k k' && String.eqb t t'
  | _, _ => false
  end.

(** Equals of a key with another key, /repo/api/key.go:117-122. *)
Definition key_equals (a b : key) : bool := String.eqb (k_source a) (k_source b).

Section Hash.
  (** util.StringHash of the dgo library, and the arithmetic of Go's int. *)
  Variable string_hash : string -> Z.
  Variable wrap : Z -> Z.

  (** HashCode of the locations, /repo/config/path.go:51-53,
      /repo/config/uri.go:46-48, /repo/config/glob.go:43-45,
      /repo/config/mappedpaths.go:70-72. *)
  Definition loc_hash (l : location) : Z :=
    match l with
    | LPath o _ _ => string_hash o
    | LUri o _ => string_hash o
    | LGlob p => string_hash p
    | LMapped v k t => wrap (string_hash v * 31 + string_hash k * 31 + string_hash t)
    end.
End Hash.

(** HashCode of a key, /repo/api/key.go:124-126. *)
Definition key_hash (k : key) : outcome Z := Panic (EStr "implement me").
