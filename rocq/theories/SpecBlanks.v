(** Blanks around texts, said without the functions of the model. *)

From Coq Require Import String Ascii List Arith.
Import ListNotations.
Open Scope string_scope.

(** Tab, newline, vertical tab, form feed, carriage return and space. *)
Definition blank (c : ascii) : Prop := In (nat_of_ascii c) [9; 10; 11; 12; 13; 32].
Inductive blanks : string -> Prop :=
| bl_none : blanks ""
| bl_one : forall c s, blank c -> blanks s -> blanks (String c s).

(** A text that neither begins nor ends with a blank. *)
Definition bare (t : string) : Prop :=
  (forall c r, t = String c r -> ~ blank c) /\ (forall r c, t = r ++ String c "" -> ~ blank c).

(** What is left of a text without the blanks around it. *)
Definition trimmed (s t : string) : Prop := exists a b, s = a ++ t ++ b /\ blanks a /\ blanks b /\ bare t.

(** Two texts that differ in the blanks around them only. *)
Definition alike (s s' : string) : Prop :=
  exists t a b a' b', s = a ++ t ++ b /\ s' = a' ++ t ++ b' /\ blanks a /\ blanks b /\ blanks a' /\ blanks b'.
