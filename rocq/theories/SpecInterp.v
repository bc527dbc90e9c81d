(** What an interpolated value must look like, given what the expressions in it
    are replaced by. *)

From Coq Require Import String Ascii List ZArith Bool.
From Verif Require Import Str Value Outcome Key State Engine SpecKey SpecIpl.
Import ListNotations.
Open Scope string_scope.
Open Scope list_scope.

(** What one expression may be replaced by: nothing, the text of a literal, the
    text of a value found by a lookup, or the text of a value found in the
    scope; the last two as they are in some state of the session. *)
Inductive replacement (w : world) (n : nat) (allow : bool) (e : string) : string -> Prop :=
| rep_empty :
    In (trim_space e) [""; "::"; """"""; "''"; """::"""; "'::'"] -> replacement w n allow e ""
| rep_literal : forall arg,
    allow = true -> calls (trim_space e) "literal" arg -> replacement w n allow e arg
| rep_lookup : forall name arg k v s1 s2,
    allow = true -> calls (trim_space e) name arg -> name = "lookup" \/ name = "hiera" ->
    new_key arg = Ok k -> run w n (RLookup k None) s1 = (Ok v, s2) ->
    replacement w n allow e (text_of w (fst v))
| rep_scope : forall arg v s1 s2,
    (allow = true /\ calls (trim_space e) "scope" arg) \/
    (arg = trim_space e /\ forall name a, ~ calls (trim_space e) name a) ->
    in_scope (run w n) allow arg s1 = (Ok v, s2) ->
    replacement w n allow e (text_of w v).

(** What one string may be replaced by, in some state of the session. *)
Definition string_result (w : world) (n : nat) (allow : bool) (t : string) (v : value) : Prop :=
  exists o b s1 s2, run w n (RStr t allow) s1 = (Ok (o, b), s2) /\ v = nil_to_null o.

(** [v'] is [v] with every string replaced, and nothing else.  Entries of a map
    whose new keys are equal end up as one entry. *)
Inductive same_shape (w : world) (n : nat) (allow : bool) : value -> value -> Prop :=
| shape_str : forall t v, string_result w n allow t v -> same_shape w n allow (VStr t) v
| shape_arr : forall l l', Forall2 (same_shape w n allow) l l' -> same_shape w n allow (VArr l) (VArr l')
| shape_map : forall m m',
    Forall2 (fun e e' => same_shape w n allow (fst e) (fst e') /\ same_shape w n allow (snd e) (snd e')) m m' ->
    same_shape w n allow (VMap m) (VMap (mputall [] m'))
| shape_nil : same_shape w n allow VNil VNil
| shape_bool : forall b, same_shape w n allow (VBool b) (VBool b)
| shape_int : forall z, same_shape w n allow (VInt z) (VInt z)
| shape_float : forall z, same_shape w n allow (VFloat z) (VFloat z)
| shape_sens : forall v, same_shape w n allow (VSens v) (VSens v).

(** [arg] is what the expression asks of the scope: the argument of scope or,
    when no method is called, the expression itself. *)
Definition asks_scope (allow : bool) (e arg : string) : Prop :=
  (allow = true /\ calls e "scope" arg) \/ (arg = e /\ forall name a, ~ calls e name a).

(** What an expression stands for when only literals and variables of the scope
    are involved and the variables have nothing more to interpolate. *)
Inductive stands_for (w : world) (sc : scope) (allow : bool) (e : string) : string -> Prop :=
| sf_empty :
    In (trim_space e) [""; "::"; """"""; "''"; """::"""; "'::'"] -> stands_for w sc allow e ""
| sf_literal : forall arg,
    allow = true -> calls (trim_space e) "literal" arg -> stands_for w sc allow e arg
| sf_unset : forall arg x ps,
    ~ In (trim_space e) [""; "::"; """"""; "''"; """::"""; "'::'"] ->
    asks_scope allow (trim_space e) arg -> written_key arg (PStr x :: ps) ->
    scope_get sc x = None -> stands_for w sc allow e ""
| sf_value : forall arg x ps v y,
    ~ In (trim_space e) [""; "::"; """"""; "''"; """::"""; "'::'"] ->
    asks_scope allow (trim_space e) arg -> written_key arg (PStr x :: ps) ->
    scope_get sc x = Some v -> settled v -> path v ps y -> stands_for w sc allow e (vstring w y)
| sf_no_path : forall arg x ps v,
    ~ In (trim_space e) [""; "::"; """"""; "''"; """::"""; "'::'"] ->
    asks_scope allow (trim_space e) arg -> written_key arg (PStr x :: ps) ->
    scope_get sc x = Some v -> settled v -> (forall y, ~ path v ps y) -> stands_for w sc allow e "".

(** The expressions of a string. *)
Definition expression_of (t e : string) : Prop :=
  exists cut last text, well_cut cut last /\ t = assembled cut last /\ In (text, e) cut.

(** A value mentions a variable of the scope. *)
Definition mentions (allow : bool) (v : value) (x : string) : Prop :=
  exists t e arg ps, inside t v /\ expression_of t e /\
    ~ In (trim_space e) [""; "::"; """"""; "''"; """::"""; "'::'"] /\
    asks_scope allow (trim_space e) arg /\ written_key arg (PStr x :: ps).

(** A value that makes no lookups. *)
Definition no_lookups (v : value) : Prop :=
  forall t e name arg, inside t v -> expression_of t e -> calls (trim_space e) name arg ->
  ~ In name ["lookup"; "hiera"; "alias"; "strict_alias"].
