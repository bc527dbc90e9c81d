(** What is claimed of Lookup2, LookupAll, the variables of the lookup command
    and the splitting of --var, said without the functions of Api.v. *)

From Coq Require Import String Ascii List ZArith Bool.
From Verif Require Import Str Value Outcome State Api.
Import ListNotations.
Open Scope string_scope.
Open Scope list_scope.

(** *** Sources of values *)

(** A map, if there is one, has a value for a name. *)
Definition entry_of (m : option entries) (n : string) (v : value) : Prop := exists e, m = Some e /\ mgets n e = Some v.
Definition without (m : option entries) (n : string) : Prop := forall v, ~ entry_of m n v.

(** A map has a value for a name, and none for the names before it. *)
Definition first_in (m : option entries) (names : list string) (v : value) : Prop :=
  exists pre n post, names = pre ++ n :: post /\ Forall (without m) pre /\ entry_of m n v.

Section Sources.
  Context {S : Type}.
  Variable ask : string -> M S (option value).

  (** The names are asked for, one after the other, and none has a value. *)
  Inductive nothing_for : list string -> S -> S -> Prop :=
  | nf_nil s : nothing_for [] s s
  | nf_cons n r s s1 s2 : ask n s = (Ok None, s1) -> nothing_for r s1 s2 -> nothing_for (n :: r) s s2.

  (** The first of the names that has a value in the data. *)
  Definition first_found (names : list string) (s : S) (v : value) (s' : S) : Prop :=
    exists pre n post s1, names = pre ++ n :: post /\ nothing_for pre s s1 /\ ask n s1 = (Ok (Some v), s').

  (** The first source that has a value: [None] when there is no source left. *)
  Inductive answer (names : list string) (override defaults : option entries) (default_value : option value)
            (default_func : option (M S (option value))) : S -> option (option value) -> S -> Prop :=
  | an_override s v :
      first_in override names v ->
      answer names override defaults default_value default_func s (Some (Some v)) s
  | an_data s v s' :
      Forall (without override) names -> first_found names s v s' ->
      answer names override defaults default_value default_func s (Some (Some v)) s'
  | an_defaults s v s' :
      Forall (without override) names -> nothing_for names s s' -> first_in defaults names v ->
      answer names override defaults default_value default_func s (Some (Some v)) s'
  | an_value s v s' :
      Forall (without override) names -> nothing_for names s s' -> Forall (without defaults) names -> default_value = Some v ->
      answer names override defaults default_value default_func s (Some (Some v)) s'
  | an_function s f s1 v s' :
      Forall (without override) names -> nothing_for names s s1 -> Forall (without defaults) names -> default_value = None ->
      default_func = Some f -> f s1 = (Ok v, s') ->
      answer names override defaults default_value default_func s (Some v) s'
  | an_nothing s s' :
      Forall (without override) names -> nothing_for names s s' -> Forall (without defaults) names -> default_value = None ->
      default_func = None ->
      answer names override defaults default_value default_func s None s'.

  (** The ways in which a lookup stops without an answer: a name, or the default
      function, is asked for and does not return. *)
  Inductive stops (names : list string) (override defaults : option entries) (default_value : option value)
            (default_func : option (M S (option value))) : S -> outcome (option value) -> S -> Prop :=
  | st_data pre n post s s1 o s' :
      Forall (without override) names -> names = pre ++ n :: post -> nothing_for pre s s1 -> ask n s1 = (o, s') -> (forall x, o <> Ok x) ->
      stops names override defaults default_value default_func s o s'
  | st_function f s s1 o s' :
      Forall (without override) names -> nothing_for names s s1 -> Forall (without defaults) names -> default_value = None ->
      default_func = Some f -> f s1 = (o, s') -> (forall x, o <> Ok x) ->
      stops names override defaults default_value default_func s o s'.

  (** The first source with a value for a name. *)
  Inductive source (override defaults : option entries) (n : string) : S -> option value -> S -> Prop :=
  | so_override s v : entry_of override n v -> source override defaults n s (Some v) s
  | so_data s v s' : without override n -> ask n s = (Ok (Some v), s') -> source override defaults n s (Some v) s'
  | so_defaults s v s' : without override n -> ask n s = (Ok None, s') -> entry_of defaults n v -> source override defaults n s (Some v) s'
  | so_none s s' : without override n -> ask n s = (Ok None, s') -> without defaults n -> source override defaults n s None s'.

  (** The answers for a list of names, one after the other. *)
  Inductive sources (override defaults : option entries) : list string -> S -> list (string * option value) -> S -> Prop :=
  | ss_nil s : sources override defaults [] s [] s
  | ss_cons n r s o s1 l s2 : source override defaults n s o s1 -> sources override defaults r s1 l s2 ->
      sources override defaults (n :: r) s ((n, o) :: l) s2.

  Context {T : Type}.
  Variable inst : T -> option value -> bool.
  Variable conv : T -> option value -> outcome (option value).

  (** A value as it is, or converted when it is not of the type. *)
  Inductive of_type : option T -> option value -> outcome (option value) -> Prop :=
  | ot_untyped v : of_type None v (Ok v)
  | ot_instance t v : inst t v = true -> of_type (Some t) v (Ok v)
  | ot_converted t v r : inst t v = false -> conv t v = r -> of_type (Some t) v r.

  (** What is delivered of an answer. *)
  Inductive delivered (t : option T) : option (option value) -> outcome (option value) -> Prop :=
  | dl_nothing : delivered t None (Ok None)
  | dl_value v r : of_type t v r -> delivered t (Some v) r.
End Sources.

(** The names in order of first occurrence. *)
Fixpoint firsts (l : list string) : list string :=
  match l with
  | [] => []
  | n :: r => n :: filter (fun m => negb (String.eqb m n)) (firsts r)
  end.

(** *** Variables *)

(** A text is a name, a separator, and a value; both neighbours of the
    separator are no separators. *)
Inductive split_of : string -> string -> string -> Prop :=
| so_here k a c b v :
    a <> ":"%char -> a <> "="%char -> c = ":"%char \/ c = "="%char -> b <> ":"%char -> b <> "="%char ->
    split_of (k ++ String a (String c (String b v))) (k ++ String a "") (String b v).

(** The first place where a text can be split so. *)
Definition first_split (s k v : string) : Prop :=
  split_of s k v /\ forall k' v', split_of s k' v' -> String.length k <= String.length k'.

(** No newline in a text. *)
Fixpoint no_newline (s : string) : Prop :=
  match s with EmptyString => True | String c r => c <> ascii_of_nat 10 /\ no_newline r end.

(** Such a split where the name has no newline, but perhaps as its last character,
    and the value none, but perhaps as its first. *)
Inductive one_line_split : string -> string -> string -> Prop :=
| ol_here k a c b v :
    a <> ":"%char -> a <> "="%char -> c = ":"%char \/ c = "="%char -> b <> ":"%char -> b <> "="%char ->
    no_newline k -> no_newline v ->
    one_line_split (k ++ String a (String c (String b v))) (k ++ String a "") (String b v).

(** What a value on the command line means: text in brackets, braces or quotes is
    parsed, anything else is a string; white space around it does not count. *)
Inductive command_value (parse : string -> outcome value) : string -> value -> Prop :=
| cv_text t : (forall c r, trim_space t = String c r -> c <> "{"%char /\ c <> "["%char /\ c <> """"%char /\ c <> "'"%char) ->
    command_value parse t (VStr (trim_space t))
| cv_parsed t c r v : trim_space t = String c r -> (c = "{"%char \/ c = "["%char \/ c = """"%char \/ c = "'"%char) ->
    parse (trim_space t) = Ok v -> command_value parse t v.

(** The value a list of definitions, or of maps, gives a key: the last counts. *)
Definition last_def (l : list (string * value)) (k : string) (v : value) : Prop :=
  exists a b, l = a ++ (k, v) :: b /\ forall v', ~ In (k, v') b.
Definition last_map (l : list entries) (k : value) (v : value) : Prop :=
  exists a m b, l = a ++ m :: b /\ mget k m = Some v /\ Forall (fun m' => mget k m' = None) b.

(** *** The scope of a command *)

Section Scope.
  Variable parse : string -> outcome value.
  Variable file : string -> Api.var_file.

  (** A --var argument defines a variable. *)
  Definition defines (arg : string) (d : string * value) : Prop :=
    exists k t v, Api.var_split arg = Some (k, t) /\ command_value parse t v /\ d = (trim_space k, v).

  (** The maps in files read one after the other; "-" is the standard input, which
      is empty once it has been read. *)
  Inductive reads : Api.var_file -> list string -> list entries -> Api.var_file -> Prop :=
  | rd_done stdin : reads stdin [] [] stdin
  | rd_stdin m r l s' : reads Api.VfEmpty r l s' -> reads (Api.VfMap m) ("-" :: r) (m :: l) s'
  | rd_stdin_empty r l s' : reads Api.VfEmpty r l s' -> reads Api.VfEmpty ("-" :: r) l s'
  | rd_file stdin p m r l s' : p <> "-" -> file p = Api.VfMap m -> reads stdin r l s' -> reads stdin (p :: r) (m :: l) s'
  | rd_file_empty stdin p r l s' : p <> "-" -> file p = Api.VfEmpty -> reads stdin r l s' -> reads stdin (p :: r) l s'.

  (** No map of a list, no definition, has a key. *)
  Definition in_no_map (l : list entries) (k : value) : Prop := Forall (fun m => mget k m = None) l.
  Definition not_defined (l : list (string * value)) (k : string) : Prop := forall v, ~ In (k, v) l.

  (** The value of a variable. *)
  Inductive variable_is (facts : option (list entries)) (vars : list entries) (defs : list (string * value)) (session : scope) (x : string)
    : option value -> Prop :=
  | vi_facts fs f : x = "facts" -> facts = Some fs -> (forall k v, wf k = true -> (mget k f = Some v <-> last_map fs k v)) ->
      variable_is facts vars defs session x (Some (VMap f))
  | vi_fact fs v : x <> "facts" -> facts = Some fs -> last_map fs (VStr x) v -> variable_is facts vars defs session x (Some v)
  | vi_var v : (x <> "facts" \/ facts = None) -> (forall fs, facts = Some fs -> in_no_map fs (VStr x)) -> last_map vars (VStr x) v ->
      variable_is facts vars defs session x (Some v)
  | vi_def v : (x <> "facts" \/ facts = None) -> (forall fs, facts = Some fs -> in_no_map fs (VStr x)) -> in_no_map vars (VStr x) ->
      last_def defs x v -> variable_is facts vars defs session x (Some v)
  | vi_session : (x <> "facts" \/ facts = None) -> (forall fs, facts = Some fs -> in_no_map fs (VStr x)) -> in_no_map vars (VStr x) ->
      not_defined defs x -> variable_is facts vars defs session x (scope_get session x).
End Scope.
