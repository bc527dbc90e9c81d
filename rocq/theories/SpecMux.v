(** What a lookup must give when the configuration is one of several functions
    that are asked, as in the lookup command (/repo/cli/hiera.go:123-133) and in
    the REST service (/repo/hieraserver/rest/rest.go:76-80). *)

From Coq Require Import String Ascii List ZArith Bool.
From Verif Require Import Str Value Outcome Key Merge Fpath Config State Engine
  SpecKey SpecIpl SpecInterp SpecConfig MergeLookup SpecLookup.
Import ListNotations.
Open Scope string_scope.
Open Scope list_scope.

(** What a function that reads no configuration has for a key; it has this also
    when it is asked for lookup options. *)
Inductive source_has (w : world) (sc : scope) (r : string) : lkfn -> option value -> Prop :=
| sh_environment : source_has w sc r LkEnv (environment (w_env w) r)
| sh_scope : source_has w sc r LkScope (scope_get sc r)
| sh_user : forall f v, (forall t opts, w_call w t (FnTop f) (ALookupKey opts r) = PRet v) ->
    source_has w sc r (LkUser f) v
| sh_no_function : source_has w sc r LkNotFun None.

(** What the functions answer when they are asked for the lookup options of the
    key, when [all] is under lookup_options in the hierarchy. *)
Inductive options_from (w : world) (sc : scope) (all : option value) (r : string) : lkfn -> option value -> Prop :=
| of_config : forall lo, options_for all r lo -> options_from w sc all r LkConfig (option_map VMap lo)
| of_source : forall f o, source_has w sc r f o -> options_from w sc all r f o.

(** What they answer when they are asked for data, when [gives] is what the
    hierarchy gives. *)
Inductive value_from (w : world) (sc : scope) (gives : option value -> Prop) (r : string) : lkfn -> option value -> Prop :=
| vf_config : forall o, gives o -> value_from w sc gives r LkConfig o
| vf_source : forall f o, source_has w sc r f o -> value_from w sc gives r f o.

(** The map that a value is, if it is one. *)
Inductive map_of : option value -> option entries -> Prop :=
| mo_map : forall m, map_of (Some (VMap m)) (Some m)
| mo_no_map : forall o, (forall m, o <> Some (VMap m)) -> map_of o None.

(** What is found under the root of a key: the answers to the question for lookup
    options, merged deeply, say how the answers to the question for data are
    merged and converted. *)
Definition found_under (w : world) (sc : scope) (es : list entry) (all : option value) (fs : list lkfn)
           (value_is : value -> option value -> Prop) (r : string) (opts : option entries) (x : option value) : Prop :=
  exists outs lo mo s c v,
    Forall2 (options_from w sc all r) fs outs /\ map_of (pure_lookup (SDeep []) outs) lo /\
    merge_option opts lo mo /\ strategy_is mo s /\ conversion_is lo c /\
    picks (value_from w sc (hierarchy_gives w sc value_is r s es) r) s fs v /\
    converted w c v x.

(** Then the expressions in it are replaced and the rest of the key is followed. *)
Definition followed (value_is : value -> option value -> Prop) (ps : list part) (x : option value) (o : option value) : Prop :=
  match x with
  | Some x => exists y, value_is x y /\ digs ps y o
  | None => o = None
  end.

(** Answers to questions on the way that need at most [n] nested steps.  A nested
    lookup is a lookup like any other: its own options count. *)
Fixpoint mux_answers (w : world) (sc : scope) (es : list entry) (all : option value) (fs : list lkfn) (n : nat)
  : question -> option value -> Prop :=
  match n with
  | 0 => fun _ _ => False
  | S n =>
      let string_is t := mux_answers w sc es all fs n (QStr t) in
      let lookup_is k := mux_answers w sc es all fs n (QKey k) in
      let value_is := value_is string_is in
      fun q o =>
        match q with
        | QStr t => whole_is w sc string_is lookup_is t o
        | QKey k =>
            exists r ps x, k_parts k = PStr r :: ps /\ r <> "lookup_options" /\ plain_key r /\
              found_under w sc es all fs value_is r None x /\ followed value_is ps x o
        end
  end.

(** The lookup of a key, with [es] for the hierarchy, [all] for what is under
    lookup_options in it and at most [n] nested steps. *)
Definition mux_finds (w : world) (sc : scope) (es : list entry) (all : option value) (fs : list lkfn) (n : nat) (k : key)
           (opts : option entries) (o : option value) : Prop :=
  exists r ps x,
    k_parts k = PStr r :: ps /\ r <> "lookup_options" /\ plain_key r /\
    found_under w sc es all fs (value_is (fun t => mux_answers w sc es all fs n (QStr t))) r opts x /\
    followed (value_is (fun t => mux_answers w sc es all fs n (QStr t))) ps x o.

Definition mux_gives (w : world) (sc : scope) (es : list entry) (fs : list lkfn) (n : nat) (k : key)
           (opts : option entries) (o : option value) : Prop :=
  exists all, all_options w sc es n all /\ mux_finds w sc es all fs n k opts o.
