(** Specification of interpolation, independent of the scanner. *)

From Coq Require Import String Ascii List ZArith Bool.
From Verif Require Import Str Value SpecKey.
Import ListNotations.
Open Scope string_scope.

(** [sub] is somewhere in [s]. *)
Definition has (sub s : string) : Prop := exists a b, s = a ++ sub ++ b.

(** The strings inside a value, map keys included.  The content of a sensitive
    value does not count. *)
Inductive inside (s : string) : value -> Prop :=
| inside_str : inside s (VStr s)
| inside_arr : forall l x, In x l -> inside s x -> inside s (VArr l)
| inside_key : forall m k v, In (k, v) m -> inside s k -> inside s (VMap m)
| inside_val : forall m k v, In (k, v) m -> inside s v -> inside s (VMap m).

(** A value with nothing to interpolate. *)
Definition settled (v : value) : Prop := forall s, inside s v -> ~ has "%{" s.

(** A string made of texts, each followed by an expression in %{ and }, and a
    last text. *)
Fixpoint assembled (cut : list (string * string)) (last : string) : string :=
  match cut with
  | [] => last
  | (t, e) :: r => t ++ "%{" ++ e ++ "}" ++ assembled r last
  end.

(** The same with the expressions replaced by other texts. *)
Fixpoint filled (cut : list (string * string)) (rs : list string) (last : string) : string :=
  match cut, rs with
  | (t, _) :: c, r :: rs => t ++ r ++ filled c rs last
  | _, _ => last
  end.

(** The expressions are the leftmost ones, they are as short as possible, and
    no other can be found. *)
Definition well_cut (cut : list (string * string)) (last : string) : Prop :=
  Forall (fun p => ~ has "%{" (fst p) /\ ~ has "}" (snd p)) cut /\
  ~ (exists a b c, last = a ++ "%{" ++ b ++ "}" ++ c).

(** Word characters. *)
Definition word_char (c : ascii) : Prop :=
  (65 <= nat_of_ascii c <= 90 \/ 97 <= nat_of_ascii c <= 122 \/ 48 <= nat_of_ascii c <= 57 \/
   nat_of_ascii c = 95)%nat.

(** The expression calls a method with one quoted argument. *)
Definition calls (e name arg : string) : Prop :=
  exists q, is_quote q /\ e = name ++ "(" ++ String q arg ++ String q ")" /\
            name <> "" /\ (forall c, occurs c name -> word_char c) /\ arg <> "" /\ ~ occurs q arg.
