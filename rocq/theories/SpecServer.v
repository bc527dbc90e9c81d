(** What a session with a function of the user for all its lookups must do: the
    function sees a cache that all calls share, the scope, and the lookups and
    interpolations it asks for.  Written with the cache as a plain function from
    keys to values; no state, explainer or fuel. *)

From Coq Require Import String Ascii List ZArith Bool.
From Verif Require Import Str Value Outcome Key State Session SpecKey SpecIpl SpecInterp SpecLookup.
Import ListNotations.
Open Scope string_scope.
Open Scope list_scope.

Definition cached : Type := string -> option value.
Definition put (k : string) (v : value) (c : cached) : cached := fun x => if string_dec x k then Some v else c x.

Section Server.
  Variables (w : world) (sc : scope).
  (** What the function does with its arguments. *)
  Variable function : args -> prog.

  (** [asks md c k opts o c']: the lookup of [k] with the cache [c] gives [o] and
      leaves the cache [c'].  What the function gives is interpolated as data
      before the rest of the key is followed. *)
  Inductive asks : imode -> cached -> key -> option entries -> option value -> cached -> Prop :=
  | as_hidden : forall md c k opts ps, k_parts k = PStr "lookup_options" :: ps -> asks md c k opts None c
  | as_nothing : forall md c k opts r ps c', k_parts k = PStr r :: ps -> r <> "lookup_options" ->
      does md c (function (ALookupKey (match opts with Some o => o | None => [] end) r)) None c' ->
      asks md c k opts None c'
  | as_value : forall md c k opts r ps x y o c1 c', k_parts k = PStr r :: ps -> r <> "lookup_options" ->
      does md c (function (ALookupKey (match opts with Some o => o | None => [] end) r)) (Some x) c1 ->
      becomes MdData c1 x y c' -> digs ps y o -> asks md c k opts o c'

  (** What a function does, step by step. *)
  with does : imode -> cached -> prog -> option value -> cached -> Prop :=
  | do_return : forall md c o, does md c (PRet o) o c
  | do_cache : forall md c k v next o c', does md (put k v c) (next (c k)) o c' -> does md c (PCache k v next) o c'
  | do_cached : forall md c k next o c', does md c (next (c k)) o c' -> does md c (PCached k next) o c'
  | do_scope : forall md c k next o c', does md c (next (scope_get sc k)) o c' -> does md c (PScope k next) o c'
  | do_mode : forall md c next o c', does md c (next md) o c' -> does md c (PMode next) o c'
  | do_explain : forall md c t next o c', does md c next o c' -> does md c (PExplain t next) o c'
  | do_interpolate : forall md c v next r o c1 c', becomes md c v r c1 -> does md c1 (next r) o c' ->
      does md c (PInterpolate v next) o c'
  | do_lookup : forall md c t ps opts next r o c1 c', written_key t ps ->
      asks md c (mk_key t ps) opts r c1 -> does md c1 (next r) o c' -> does md c (PLookup t opts next) o c'

  (** What a value becomes when it is interpolated; from left to right. *)
  with becomes : imode -> cached -> value -> option value -> cached -> Prop :=
  | be_str : forall md c t r c', string_becomes md c t r c' -> becomes md c (VStr t) r c'
  | be_arr : forall md c l l' c', all_become md c l l' c' -> becomes md c (VArr l) (Some (VArr l')) c'
  | be_map : forall md c m m' c', wf (VMap m) = true -> entries_become md c m m' c' ->
      becomes md c (VMap m) (Some (VMap (mputall [] m'))) c'
  | be_other : forall md c v, (forall t, v <> VStr t) -> (forall l, v <> VArr l) -> (forall m, v <> VMap m) ->
      becomes md c v (Some v) c

  with all_become : imode -> cached -> list value -> list value -> cached -> Prop :=
  | al_nil : forall md c, all_become md c [] [] c
  | al_cons : forall md c x r l l' c1 c', becomes md c x r c1 -> all_become md c1 l l' c' ->
      all_become md c (x :: l) (element r :: l') c'

  with entries_become : imode -> cached -> entries -> entries -> cached -> Prop :=
  | en_nil : forall md c, entries_become md c [] [] c
  | en_cons : forall md c k k' v v' m m' c1 c2 c', becomes md c k k' c1 -> becomes md c1 v v' c2 ->
      entries_become md c2 m m' c' -> entries_become md c ((k, v) :: m) ((element k', element v') :: m') c'

  with string_becomes : imode -> cached -> string -> option value -> cached -> Prop :=
  | st_text : forall md c cut rs last c', well_cut cut last -> parts_become md c cut rs c' ->
      string_becomes md c (assembled cut last) (Some (VStr (filled cut rs last))) c'
  | st_alias : forall md c e arg ps o c', ~ has "}" e -> calls (trim_space e) "alias" arg -> written_key arg ps ->
      asks md c (mk_key arg ps) None o c' ->
      string_becomes md c ("%{" ++ e ++ "}") (Some (match o with Some v => v | None => VStr "" end)) c'
  | st_strict_alias : forall md c e arg ps o c', ~ has "}" e -> calls (trim_space e) "strict_alias" arg ->
      written_key arg ps -> asks md c (mk_key arg ps) None o c' -> string_becomes md c ("%{" ++ e ++ "}") o c'

  with parts_become : imode -> cached -> list (string * string) -> list string -> cached -> Prop :=
  | pa_nil : forall md c, parts_become md c [] [] c
  | pa_cons : forall md c t e r cut rs c1 c', expression_becomes md c e r c1 -> parts_become md c1 cut rs c' ->
      parts_become md c ((t, e) :: cut) (r :: rs) c'

  with expression_becomes : imode -> cached -> string -> string -> cached -> Prop :=
  | ex_empty : forall md c e,
      In (trim_space e) [""; "::"; """"""; "''"; """::"""; "'::'"] -> expression_becomes md c e "" c
  | ex_literal : forall md c e arg, calls (trim_space e) "literal" arg -> expression_becomes md c e arg c
  | ex_unset : forall md c e arg x ps,
      ~ In (trim_space e) [""; "::"; """"""; "''"; """::"""; "'::'"] ->
      asks_scope true (trim_space e) arg -> written_key arg (PStr x :: ps) -> scope_get sc x = None ->
      expression_becomes md c e "" c
  | ex_scope : forall md c e arg x ps v r o c',
      ~ In (trim_space e) [""; "::"; """"""; "''"; """::"""; "'::'"] ->
      asks_scope true (trim_space e) arg -> written_key arg (PStr x :: ps) -> scope_get sc x = Some v ->
      becomes md c v r c' -> digs ps r o -> expression_becomes md c e (text w o) c'
  | ex_lookup : forall md c e name arg ps o c', calls (trim_space e) name arg -> name = "lookup" \/ name = "hiera" ->
      written_key arg ps -> asks md c (mk_key arg ps) None o c' -> expression_becomes md c e (text w o) c'.
End Server.

(** Requests one after the other, each with what the cache has then. *)
Inductive serves (w : world) (function : args -> prog) : cached -> list request -> list (option value) -> cached -> Prop :=
| se_nil : forall c, serves w function c [] [] c
| se_cons : forall c q rs o os c1 c', asks w (q_scope q) function MdTop c (q_key q) (q_opts q) o c1 ->
    serves w function c1 rs os c' -> serves w function c (q :: rs) (o :: os) c'.
