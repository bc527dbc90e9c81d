(** Lexical part of the interpolation of strings:
    /repo/session/interpolate.go:14-22 and :71-131. *)

From Coq Require Import String Ascii List ZArith Bool DecimalString.
From Verif Require Import Str Value Outcome.
Import ListNotations.
Open Scope string_scope.
Open Scope bool_scope.

(** A string cut along the matches of iplPattern, `%{[^}]*}`
    (/repo/session/interpolate.go:14): the literal text between matches and the
    text between the braces of a match. *)
Inductive token : Type :=
| TLit (s : string)
| TExpr (s : string).

(** The matches found by iplPattern.ReplaceAllStringFunc
    (/repo/session/interpolate.go:123), leftmost first: a match starts at the
    first "%{" and ends at the first "}" after it; a "%{" without a "}" after
    it is literal text.  [lit] is the literal text and [ex] the expression
    text read so far. *)
Fixpoint scan (lit s : string) {struct s} : list token :=
  match s with
  | EmptyString => [TLit lit]
  | String c r =>
      match r with
      | String d r' =>
          if ceq c c_pct && ceq d c_lbrace then scan_expr lit EmptyString r'
          else scan (lit ++ str1 c) r
      | EmptyString => [TLit (lit ++ str1 c)]
      end
  end
with scan_expr (lit ex s : string) {struct s} : list token :=
  match s with
  | EmptyString => [TLit (lit ++ "%{" ++ ex)]
  | String c r =>
      if ceq c c_rbrace then TLit lit :: TExpr ex :: scan EmptyString r
      else scan_expr lit (ex ++ str1 c) r
  end.

(** All the pieces of a string, in order. *)
Definition tokens (s : string) : list token := scan EmptyString s.

(** emptyInterpolations, /repo/session/interpolate.go:15-22. *)
Definition empty_interpolation (e : string) : bool :=
  existsb (String.eqb e) [""; "::"; """"""; "''"; """::"""; "'::'"].

(** iplMethod, /repo/session/interpolate.go:71-79. *)
Inductive ipl_method : Type :=
| MScope
| MAlias
| MStrictAlias
| MLookup
| MLiteral.

(** isAlias, /repo/session/interpolate.go:81-83. *)
Definition is_alias (m : ipl_method) : bool :=
  match m with MAlias | MStrictAlias => true | _ => false end.

(** The class \w of methodMatch, /repo/session/interpolate.go:85. *)
Definition is_word (c : ascii) : bool :=
  let n := nat_of_ascii c in
  is_digit c || ((65 <=? n)%nat && (n <=? 90)%nat) || ((97 <=? n)%nat && (n <=? 122)%nat) || (n =? 95)%nat.

(** The longest prefix of word characters and the rest. *)
Fixpoint take_word (s : string) : string * string :=
  match s with
  | String c r => if is_word c then let (a, b) := take_word r in (String c a, b) else (EmptyString, s)
  | EmptyString => (EmptyString, EmptyString)
  end.

(** The argument of a method call after the opening quote [q]: a non-empty
    text without [q], then [q], then ")" at the very end. *)
Definition take_arg (q : ascii) (s : string) : option string :=
  match split_at (str1 q) s with
  | Some (EmptyString, _) => None
  | Some (a, rest) => if String.eqb rest ")" then Some a else None
  | None => None
  end.

(** methodMatch.FindStringSubmatch, /repo/session/interpolate.go:85 and :88: the
    pattern is one or more word characters, an opening parenthesis, a quoted
    non-empty text (quoted by single or by double quotes) without that quote,
    and a closing parenthesis at the end.  Gives the method name and the
    argument (group 2 or 3, :92-95). *)
Definition method_match (e : string) : option (string * string) :=
  match take_word e with
  | (EmptyString, _) => None
  | (name, String p (String q rest)) =>
      if ceq p c_lparen && (ceq q c_dquote || ceq q c_squote)
      then match take_arg q rest with Some a => Some (name, a) | None => None end
      else None
  | _ => None
  end.

(** getMethodAndData, /repo/session/interpolate.go:87-112. *)
Definition method_and_data (expr : string) (allow : bool) : outcome (ipl_method * string) :=
  match method_match expr with
  | Some (name, data) =>
      if negb allow then Panic (EErr "interpolation using method syntax is not allowed in this context")
      else if String.eqb name "alias" then Ok (MAlias, data)
      else if String.eqb name "strict_alias" then Ok (MStrictAlias, data)
      else if String.eqb name "hiera" || String.eqb name "lookup" then Ok (MLookup, data)
      else if String.eqb name "literal" then Ok (MLiteral, data)
      else if String.eqb name "scope" then Ok (MScope, data)
      else Panic (EErr ("unknown interpolation method '" ++ name ++ "'"))
  | None => Ok (MScope, expr)
  end.

(** The error of /repo/session/interpolate.go:130. *)
Definition alias_misplaced : err :=
  EErr "'alias'/'strict_alias' interpolation is only permitted if the expression is equal to the entire string".

(** Decimal text of an integer (dgo Integer.String, strconv.Itoa at
    /repo/explain/explainer.go:137). *)
Definition show_int (z : Z) : string := NilZero.string_of_int (Z.to_int z).
