(** Specification of keys, independent of the parser. *)

From Coq Require Import String Ascii List ZArith.
From Verif Require Import Value Key.
Import ListNotations.
Open Scope string_scope.

(** A text that reads as a 32 bit signed decimal integer: optional sign and at
    least one digit. *)
Definition digit_of (c : ascii) (d : Z) : Prop :=
  (0 <= d <= 9)%Z /\ Z.of_nat (nat_of_ascii c) = (48 + d)%Z.

Inductive numeral : string -> Z -> Prop :=
| num_one : forall c d, digit_of c d -> numeral (String c "") d
| num_more : forall s z c d, numeral s z -> digit_of c d -> numeral (s ++ String c "") (10 * z + d)%Z.

Inductive reads_as : string -> Z -> Prop :=
| reads_plain : forall s z, numeral s z -> (z < 2 ^ 31)%Z -> reads_as s z
| reads_plus : forall s z, numeral s z -> (z < 2 ^ 31)%Z -> reads_as ("+" ++ s) z
| reads_minus : forall s z, numeral s z -> (z <= 2 ^ 31)%Z -> reads_as ("-" ++ s) (- z)%Z.

(** A segment is written as a sequence of plain characters and quoted
    stretches. *)
Inductive piece : Type :=
| Plain (c : ascii)
| Quoted (q : ascii) (body : string).

Definition is_quote (c : ascii) : Prop := c = "'"%char \/ c = """"%char.

Fixpoint occurs (c : ascii) (s : string) : Prop :=
  match s with
  | "" => False
  | String d r => d = c \/ occurs c r
  end.

Definition piece_ok (p : piece) : Prop :=
  match p with
  | Plain c => ~ is_quote c /\ c <> "."%char
  | Quoted q body => is_quote q /\ ~ occurs q body
  end.

Definition show_piece (p : piece) : string :=
  match p with
  | Plain c => String c ""
  | Quoted q body => String q (body ++ String q "")
  end.

Definition piece_text (p : piece) : string :=
  match p with
  | Plain c => String c ""
  | Quoted _ body => body
  end.

(** How a segment is written, and what it says. *)
Definition show_seg (seg : list piece) : string := String.concat "" (map show_piece seg).
Definition seg_text (seg : list piece) : string := String.concat "" (map piece_text seg).

Definition seg_ok (seg : list piece) : Prop := Forall piece_ok seg.

Definition ends_quoted (seg : list piece) : Prop :=
  exists pre q body, seg = (pre ++ [Quoted q body])%list.

(** How a key is written: its segments joined by dots. *)
Definition show_key (segs : list (list piece)) : string := String.concat "." (map show_seg segs).

(** The part that a text stands for when it is not the quoted end of the key. *)
Inductive plain_part : string -> part -> Prop :=
| plain_int : forall t z, reads_as t z -> plain_part t (PInt z)
| plain_str : forall t, t <> "" -> (forall z, ~ reads_as t z) -> plain_part t (PStr t).

(** The parts of a key. *)
Inductive key_parts : list (list piece) -> list part -> Prop :=
| kp_last_quoted : forall seg, ends_quoted seg -> key_parts [seg] [PStr (seg_text seg)]
| kp_last_plain : forall seg p, ~ ends_quoted seg -> plain_part (seg_text seg) p -> key_parts [seg] [p]
| kp_more : forall seg p segs ps,
    plain_part (seg_text seg) p -> key_parts segs ps -> key_parts (seg :: segs) (p :: ps).

(** [written_key s parts]: the text [s] is a correctly written key and [parts]
    are its parts. *)
Definition written_key (s : string) (parts : list part) : Prop :=
  exists segs, Forall seg_ok segs /\ s = show_key segs /\ key_parts segs parts /\
               exists r rest, parts = PStr r :: rest.

(** Following a path into a value: [path v ps w] says that [w] is reached. *)
Inductive step_into : value -> part -> value -> Prop :=
| step_index : forall pre x post, step_into (VArr (pre ++ x :: post)%list) (PInt (Z.of_nat (List.length pre))) x
| step_int_key : forall m pre z x post,
    m = (pre ++ (VInt z, x) :: post)%list -> (forall y, ~ In (VInt z, y) pre) ->
    step_into (VMap m) (PInt z) x
| step_str_key : forall m pre s x post,
    m = (pre ++ (VStr s, x) :: post)%list -> (forall y, ~ In (VStr s, y) pre) ->
    step_into (VMap m) (PStr s) x.

Inductive path : value -> list part -> value -> Prop :=
| path_nil : forall v, path v [] v
| path_cons : forall v p w ps x, step_into v p w -> path w ps x -> path v (p :: ps) x.
