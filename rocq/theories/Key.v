(** Model of /repo/api/key.go: parsing of dotted keys, Bury and Dig. *)

From Coq Require Import String Ascii List ZArith Bool Arith.
From Verif Require Import Str Value Outcome.
Import ListNotations.
Open Scope string_scope.
Open Scope bool_scope.

(** One element of the [parts] slice, /repo/api/key.go:41: an int or a
    string. *)
Inductive part : Type :=
| PInt (z : Z)
| PStr (s : string).

(** The key struct, /repo/api/key.go:39-42. *)
Record key : Type := mk_key { k_source : string; k_parts : list part }.

(** The closure mungedPart, /repo/api/key.go:149-160.  [ix] is the number of
    parts already found. *)
Definition munged (key : string) (ix : nat) (txt : string) : outcome part :=
  match parse_int32 txt with
  | Some i =>
      if Nat.eqb ix 0
      then Panic (EErr ("key '" ++ key ++ "' first segment cannot be an index"))
      else Ok (PInt i)
  | None =>
      if String.eqb txt ""
      then Panic (EErr ("key '" ++ key ++ "' contains an empty segment"))
      else Ok (PStr txt)
  end.

(** parseUnquoted and parseQuoted, /repo/api/key.go:148-174 and :176-187.  [b]
    is the content of the buffer; note that a closing quote does not end the
    segment and does not reset the buffer.  Simplification: Go ranges over
    runes, the model over bytes; they agree on valid UTF-8 since quotes and
    dots are ASCII. *)
Fixpoint parse_unquoted (key b : string) (parts : list part) (s : string) {struct s}
  : outcome (list part) :=
  match s with
  | EmptyString => obind (munged key (List.length parts) b) (fun p => Ok (parts ++ [p])%list)
  | String c r =>
      if ceq c c_squote || ceq c c_dquote then parse_quoted key c b parts r
      else if ceq c c_dot then
        obind (munged key (List.length parts) b)
              (fun p => parse_unquoted key "" (parts ++ [p])%list r)
      else parse_unquoted key (b ++ str1 c) parts r
  end
with parse_quoted (key : string) (q : ascii) (b : string) (parts : list part) (s : string) {struct s}
  : outcome (list part) :=
  match s with
  | EmptyString => Panic (EErr ("unterminated quote in key '" ++ key ++ "'"))
  | String c r =>
      if ceq c q then
        match r with
        | EmptyString => Ok (parts ++ [PStr b])%list
        | String _ _ => parse_unquoted key b parts r
        end
      else parse_quoted key q (b ++ str1 c) parts r
  end.

(** NewKey, /repo/api/key.go:46-49. *)
Definition new_key (s : string) : outcome key :=
  omap (mk_key s) (parse_unquoted s "" [] s).

(** Key.Root, /repo/api/key.go:136-138.  Panics when there is no part
    (index out of range) or the first part is not a string (failed type
    assertion). *)
Definition root (k : key) : outcome string :=
  match k_parts k with
  | PStr s :: _ => Ok s
  | PInt _ :: _ => Panic bad_assert
  | [] => Panic (EErr "runtime error: index out of range")
  end.

(** The dgo value used to index a map with a part, /repo/api/key.go:64-69 and
    :95-100. *)
Definition part_value (p : part) : value :=
  match p with PInt i => VInt i | PStr s => VStr s end.

(** Key.Bury, /repo/api/key.go:61-73: the loop runs from the last part down to
    the second one, which is a right fold over the parts after the first. *)
Definition bury (k : key) (v : value) : value :=
  fold_right (fun p w => VMap [(part_value p, w)]) v (tl (k_parts k)).

(** Body of the loop in Key.Dig, /repo/api/key.go:85-107: one step into [v].
    The reports to the explainer are in the engine model. *)
Definition dig_part (p : part) (v : value) : option value :=
  match v with
  | VArr l =>
      match p with
      | PInt ix => if (0 <=? ix)%Z && (ix <? Z.of_nat (List.length l))%Z
                   then nth_error l (Z.to_nat ix) else None
      | PStr _ => None
      end
  | VMap m => mget (part_value p) m
  | _ => None
  end.

(** The loop in Key.Dig, /repo/api/key.go:82-113. *)
Fixpoint dig_parts (ps : list part) (v : value) : option value :=
  match ps with
  | [] => Some v
  | p :: r => match dig_part p v with Some w => dig_parts r w | None => None end
  end.

(** Key.Dig, /repo/api/key.go:75-115, without the calls that record the
    explanation. *)
Definition dig (k : key) (v : value) : option value := dig_parts (tl (k_parts k)) v.
