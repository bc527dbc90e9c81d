(** Go string primitives used by the modelled code.

    Go strings are byte sequences; they are modelled by Coq [string] (a list
    of [ascii] bytes).  All the characters the code under study gives a
    meaning to (dots, quotes, colons, braces, ...) are ASCII, so working on
    bytes instead of runes gives the same result for valid UTF-8. *)

From Coq Require Import String Ascii List ZArith Bool Arith.
Import ListNotations.
Open Scope string_scope.
Open Scope bool_scope.

(** Single character string.  Go: string(c).  Used wherever the Go code writes
    one rune to a buffer, e.g. /repo/api/key.go:170 and :184. *)
Definition str1 (c : ascii) : string := String c EmptyString.

(** Character equality (Go [==] on runes, e.g. /repo/api/key.go:163-166). *)
Definition ceq (a b : ascii) : bool := Ascii.eqb a b.

(** Named characters, those that /repo/api/key.go:131-190 and the patterns at
    /repo/session/interpolate.go:14 and :85 name and others used below. *)
Definition chr (n : nat) : ascii := ascii_of_nat n.
Definition c_dot : ascii := "."%char.
Definition c_squote : ascii := "'"%char.
Definition c_dquote : ascii := """"%char.
Definition c_pct : ascii := "%"%char.
Definition c_lbrace : ascii := "{"%char.
Definition c_rbrace : ascii := "}"%char.
Definition c_lparen : ascii := "("%char.
Definition c_rparen : ascii := ")"%char.
Definition c_colon : ascii := ":"%char.
Definition c_eq : ascii := "="%char.
Definition c_slash : ascii := "/"%char.
Definition c_nl : ascii := chr 10.

(** Decimal digit test, part of strconv.ParseInt (used at
    /repo/api/key.go:150). *)
Definition is_digit (c : ascii) : bool :=
  let n := nat_of_ascii c in (48 <=? n)%nat && (n <=? 57)%nat.

(** Numeric value of a digit. *)
Definition digit_val (c : ascii) : Z := Z.of_nat (nat_of_ascii c) - 48.

(** Value of a non-empty all-digit string, [None] otherwise.  The accumulator
    holds the value of the digits already read. *)
Fixpoint digits_val (acc : Z) (s : string) : option Z :=
  match s with
  | EmptyString => Some acc
  | String c r => if is_digit c then digits_val (acc * 10 + digit_val c) r else None
  end.

(** Unsigned decimal number: at least one digit. *)
Definition parse_uint (s : string) : option Z :=
  match s with
  | EmptyString => None
  | _ => digits_val 0 s
  end.

(** strconv.ParseInt(s, 10, 32) as used at /repo/api/key.go:150: an optional
    sign followed by decimal digits, in the range of a 32 bit signed integer.
    [None] stands for a non-nil error. *)
Definition parse_int32 (s : string) : option Z :=
  let ranged (v : option Z) :=
    match v with
    | Some z => if (-2147483648 <=? z)%Z && (z <=? 2147483647)%Z then Some z else None
    | None => None
    end in
  match s with
  | String c r =>
      if ceq c "-"%char then ranged (option_map Z.opp (parse_uint r))
      else if ceq c "+"%char then ranged (parse_uint r)
      else ranged (parse_uint s)
  | EmptyString => None
  end.

(** strings.HasPrefix(s, p). *)
Definition has_prefix (p s : string) : bool := String.prefix p s.

(** Strip a known prefix, [None] when it is not one. *)
Fixpoint strip_prefix (p s : string) : option string :=
  match p, s with
  | EmptyString, _ => Some s
  | String a p', String b s' => if ceq a b then strip_prefix p' s' else None
  | String _ _, EmptyString => None
  end.

(** strings.Index(s, sub): the text before the first occurrence of [sub] and
    the text after it, [None] when there is no occurrence (Go: -1). *)
Fixpoint split_at (sub s : string) : option (string * string) :=
  match strip_prefix sub s with
  | Some rest => Some (EmptyString, rest)
  | None =>
      match s with
      | EmptyString => None
      | String c r =>
          match split_at sub r with
          | Some (b, a) => Some (String c b, a)
          | None => None
          end
      end
  end.

(** strings.Contains(s, sub). *)
Definition contains (sub s : string) : bool :=
  match split_at sub s with Some _ => true | None => false end.

(** ASCII white space as seen by unicode.IsSpace.  Simplification: the
    non-ASCII spaces U+0085, U+00A0 and the Unicode space separators are not
    recognised. *)
Definition is_space (c : ascii) : bool :=
  let n := nat_of_ascii c in ((9 <=? n)%nat && (n <=? 13)%nat) || (n =? 32)%nat.

(** Left half of strings.TrimSpace. *)
Fixpoint trim_left (s : string) : string :=
  match s with
  | String c r => if is_space c then trim_left r else s
  | EmptyString => EmptyString
  end.

(** Right half of strings.TrimSpace: drop a suffix that is all spaces. *)
Fixpoint trim_right (s : string) : string :=
  match s with
  | EmptyString => EmptyString
  | String c r =>
      match trim_right r with
      | EmptyString => if is_space c then EmptyString else String c EmptyString
      | r' => String c r'
      end
  end.

(** strings.TrimSpace, used at /repo/session/interpolate.go:124 and
    /repo/hiera/hiera.go:277 and :295. *)
Definition trim_space (s : string) : string := trim_right (trim_left s).

(** strings.ToLower restricted to ASCII letters (simplification: other
    letters are left alone).  Used at /repo/provider/modulelookupkey.go:28. *)
Definition lower_char (c : ascii) : ascii :=
  let n := nat_of_ascii c in
  if (65 <=? n)%nat && (n <=? 90)%nat then ascii_of_nat (n + 32) else c.
Fixpoint to_lower (s : string) : string :=
  match s with
  | EmptyString => EmptyString
  | String c r => String (lower_char c) (to_lower r)
  end.

(** strings.EqualFold restricted to ASCII, used at
    /repo/provider/modulelookupkey.go:92. *)
Definition equal_fold (a b : string) : bool := String.eqb (to_lower a) (to_lower b).

(** util.ContainsString(list, s), used at /repo/config/config.go:211 and
    /repo/config/entry.go:68 and :73. *)
Definition contains_string (l : list string) (s : string) : bool :=
  existsb (String.eqb s) l.

(** strings.Split(s, "/"), used for paths. *)
Fixpoint split_slash_acc (cur : string) (s : string) : list string :=
  match s with
  | EmptyString => [cur]
  | String c r =>
      if ceq c c_slash then cur :: split_slash_acc EmptyString r
      else split_slash_acc (cur ++ str1 c) r
  end.
Definition split_slash (s : string) : list string := split_slash_acc EmptyString s.

(** strings.Join. *)
Definition join (sep : string) (l : list string) : string := String.concat sep l.
