(** When a function of the user, or what it asks for, fails: which error comes
    out, and what the cache has then.  What was stored before the failure stays. *)

From Coq Require Import String Ascii List ZArith Bool.
From Verif Require Import Str Value Outcome Key State Session SpecKey SpecKeyErr SpecIpl SpecInterp SpecLookup SpecWorld SpecFail SpecServer.
Import ListNotations.
Open Scope string_scope.
Open Scope list_scope.

Section Failing.
  Variables (w : world) (sc : scope).
  Variable function : args -> prog.

  (** The lookup of a key fails: in the function, or in what it gave. *)
  Inductive asking_fails : imode -> cached -> key -> option entries -> err -> cached -> Prop :=
  | af_function : forall md c k opts r ps x c', k_parts k = PStr r :: ps -> r <> "lookup_options" ->
      doing_fails md c (function (ALookupKey (match opts with Some o => o | None => [] end) r)) x c' ->
      asking_fails md c k opts x c'
  | af_value : forall md c k opts r ps v x c1 c', k_parts k = PStr r :: ps -> r <> "lookup_options" ->
      does w sc function md c (function (ALookupKey (match opts with Some o => o | None => [] end) r)) (Some v) c1 ->
      value_breaks MdData c1 v x c' -> asking_fails md c k opts x c'

  (** The first step that fails ends the function. *)
  with doing_fails : imode -> cached -> prog -> err -> cached -> Prop :=
  | df_panic : forall md c x, doing_fails md c (PPanic x) x c
  | df_cache : forall md c k v next x c', doing_fails md (put k v c) (next (c k)) x c' -> doing_fails md c (PCache k v next) x c'
  | df_cached : forall md c k next x c', doing_fails md c (next (c k)) x c' -> doing_fails md c (PCached k next) x c'
  | df_scope : forall md c k next x c', doing_fails md c (next (scope_get sc k)) x c' -> doing_fails md c (PScope k next) x c'
  | df_mode : forall md c next x c', doing_fails md c (next md) x c' -> doing_fails md c (PMode next) x c'
  | df_explain : forall md c t next x c', doing_fails md c next x c' -> doing_fails md c (PExplain t next) x c'
  | df_interpolate : forall md c v next x c', value_breaks md c v x c' -> doing_fails md c (PInterpolate v next) x c'
  | df_interpolated : forall md c v next r x c1 c', becomes w sc function md c v r c1 ->
      doing_fails md c1 (next r) x c' -> doing_fails md c (PInterpolate v next) x c'
  | df_key : forall md c t opts next x, misspelt t x -> doing_fails md c (PLookup t opts next) x c
  | df_lookup : forall md c t ps opts next x c', written_key t ps ->
      asking_fails md c (mk_key t ps) opts x c' -> doing_fails md c (PLookup t opts next) x c'
  | df_looked_up : forall md c t ps opts next r x c1 c', written_key t ps ->
      asks w sc function md c (mk_key t ps) opts r c1 -> doing_fails md c1 (next r) x c' ->
      doing_fails md c (PLookup t opts next) x c'

  (** A value fails with the first string in it that does. *)
  with value_breaks : imode -> cached -> value -> err -> cached -> Prop :=
  | vb_str : forall md c cut u e post last rs x c1 c', well_cut (cut ++ (u, e) :: post) last ->
      parts_become w sc function md c cut rs c1 ->
      expression_breaks md c1 (assembled (cut ++ (u, e) :: post) last) e x c' ->
      value_breaks md c (VStr (assembled (cut ++ (u, e) :: post) last)) x c'
  | vb_element : forall md c pre v post pre' x c1 c', all_become w sc function md c pre pre' c1 ->
      value_breaks md c1 v x c' -> value_breaks md c (VArr (pre ++ v :: post)) x c'
  | vb_key : forall md c pre k v post pre' x c1 c', entries_become w sc function md c pre pre' c1 ->
      value_breaks md c1 k x c' -> value_breaks md c (VMap (pre ++ (k, v) :: post)) x c'
  | vb_value : forall md c pre k v post pre' k' x c1 c2 c', entries_become w sc function md c pre pre' c1 ->
      becomes w sc function md c1 k k' c2 -> value_breaks md c2 v x c' ->
      value_breaks md c (VMap (pre ++ (k, v) :: post)) x c'

  (** An expression in the string [t] fails. *)
  with expression_breaks : imode -> cached -> string -> string -> err -> cached -> Prop :=
  | eb_unknown : forall md c t e name arg, calls (trim_space e) name arg ->
      ~ In name ["alias"; "strict_alias"; "hiera"; "lookup"; "literal"; "scope"] ->
      expression_breaks md c t e (EErr ("unknown interpolation method '" ++ name ++ "'")) c
  | eb_misplaced : forall md c t e name arg, calls (trim_space e) name arg -> name = "alias" \/ name = "strict_alias" ->
      t <> ("%{" ++ e ++ "}")%string ->
      expression_breaks md c t e
        (EErr "'alias'/'strict_alias' interpolation is only permitted if the expression is equal to the entire string") c
  | eb_variable : forall md c t e arg x,
      ~ In (trim_space e) [""; "::"; """"""; "''"; """::"""; "'::'"] ->
      asks_scope true (trim_space e) arg -> misspelt arg x -> expression_breaks md c t e x c
  | eb_scope : forall md c t e arg y ps v x c',
      ~ In (trim_space e) [""; "::"; """"""; "''"; """::"""; "'::'"] ->
      asks_scope true (trim_space e) arg -> written_key arg (PStr y :: ps) ->
      scope_get sc y = Some v -> value_breaks md c v x c' -> expression_breaks md c t e x c'
  | eb_key : forall md c t e name arg x, calls (trim_space e) name arg -> looks_up t e name -> misspelt arg x ->
      expression_breaks md c t e x c
  | eb_lookup : forall md c t e name arg ps x c', calls (trim_space e) name arg -> looks_up t e name ->
      written_key arg ps -> asking_fails md c (mk_key arg ps) None x c' -> expression_breaks md c t e x c'.
End Failing.

(** Requests one after the other; a failure ends its own request only, and the
    next one has the cache as the failure left it. *)
Inductive handles (w : world) (function : args -> prog) : cached -> list request -> list (outcome (option value)) -> cached -> Prop :=
| ha_nil : forall c, handles w function c [] [] c
| ha_answer : forall c q rs o os c1 c', asks w (q_scope q) function MdTop c (q_key q) (q_opts q) o c1 ->
    handles w function c1 rs os c' -> handles w function c (q :: rs) (Ok o :: os) c'
| ha_failure : forall c q rs x os c1 c', asking_fails w (q_scope q) function MdTop c (q_key q) (q_opts q) x c1 ->
    handles w function c1 rs os c' -> handles w function c (q :: rs) (Panic x :: os) c'.

(** A function whose maps have every key once, as all maps of the program do;
    what it is given has the same form. *)
Fixpoint neat (p : prog) : Prop :=
  match p with
  | PRet o => tidy o
  | PPanic _ => True
  | PInterpolate v next => wf v = true /\ forall r, tidy r -> neat (next r)
  | PLookup _ _ next | PCached _ next | PScope _ next => forall r, tidy r -> neat (next r)
  | PCache _ v next => wf v = true /\ forall r, tidy r -> neat (next r)
  | PMode next => forall md, neat (next md)
  | PExplain _ next => neat next
  end.
