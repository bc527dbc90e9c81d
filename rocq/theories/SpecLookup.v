(** What a lookup must give, without caches, locks, explainer or any other
    state: a big-step semantics of configuration, data and interpolation. *)

From Coq Require Import String Ascii List ZArith Bool.
From Verif Require Import SpecPlace.
From Verif Require Import Str Value Outcome Key Merge Fpath Config State Engine
  SpecKey SpecIpl SpecInterp SpecConfig MergeLookup SpecPath.
Import ListNotations.
Open Scope string_scope.
Open Scope list_scope.

(** ** Values with expressions *)

(** The text of a value, and of none. *)
Definition text (w : world) (o : option value) : string := match o with Some v => vstring w v | None => "" end.
(** A value inside an array or a map; none becomes null. *)
Definition element (o : option value) : value := match o with Some v => v | None => VNil end.

(** What is at a path below a value. *)
Inductive digs (ps : list part) : option value -> option value -> Prop :=
| digs_none : digs ps None None
| digs_path : forall v y, path v ps y -> digs ps (Some v) (Some y)
| digs_no_path : forall v, (forall y, ~ path v ps y) -> digs ps (Some v) None.

Section Level.
  Variables (w : world) (sc : scope).
  (** What the strings met on the way stand for, and what nested lookups give. *)
  Variable string_is : string -> option value -> Prop.
  Variable lookup_is : key -> option value -> Prop.

  (** What a value stands for: its strings are replaced, nothing else. *)
  Inductive value_is : value -> option value -> Prop :=
  | vi_str : forall t r, string_is t r -> value_is (VStr t) r
  | vi_arr : forall l l', Forall2 (fun x y => exists r, value_is x r /\ y = element r) l l' ->
      value_is (VArr l) (Some (VArr l'))
  | vi_map : forall m m', wf (VMap m) = true ->
      Forall2 (fun e e' => (exists r, value_is (fst e) r /\ fst e' = element r) /\
                           (exists r, value_is (snd e) r /\ snd e' = element r)) m m' ->
      value_is (VMap m) (Some (VMap (mputall [] m')))
  | vi_other : forall v, (forall t, v <> VStr t) -> (forall l, v <> VArr l) -> (forall m, v <> VMap m) ->
      value_is v (Some v).

  (** The text that one expression stands for. *)
  Inductive expression_is (e : string) : string -> Prop :=
  | ei_empty :
      In (trim_space e) [""; "::"; """"""; "''"; """::"""; "'::'"] -> expression_is e ""
  | ei_literal : forall arg, calls (trim_space e) "literal" arg -> expression_is e arg
  | ei_unset : forall arg x ps,
      ~ In (trim_space e) [""; "::"; """"""; "''"; """::"""; "'::'"] ->
      asks_scope true (trim_space e) arg -> written_key arg (PStr x :: ps) ->
      scope_get sc x = None -> expression_is e ""
  | ei_scope : forall arg x ps v r o,
      ~ In (trim_space e) [""; "::"; """"""; "''"; """::"""; "'::'"] ->
      asks_scope true (trim_space e) arg -> written_key arg (PStr x :: ps) ->
      scope_get sc x = Some v -> value_is v r -> digs ps r o -> expression_is e (text w o)
  | ei_lookup : forall name arg ps o,
      calls (trim_space e) name arg -> name = "lookup" \/ name = "hiera" ->
      written_key arg ps -> lookup_is (mk_key arg ps) o -> expression_is e (text w o).

  (** What a whole string stands for. *)
  Inductive whole_is : string -> option value -> Prop :=
  | wi_text : forall cut rs last, well_cut cut last ->
      Forall2 (fun p r => expression_is (snd p) r) cut rs ->
      whole_is (assembled cut last) (Some (VStr (filled cut rs last)))
  | wi_alias : forall e arg ps o, ~ has "}" e ->
      calls (trim_space e) "alias" arg -> written_key arg ps -> lookup_is (mk_key arg ps) o ->
      whole_is ("%{" ++ e ++ "}") (Some (match o with Some v => v | None => VStr "" end))
  | wi_strict_alias : forall e arg ps o, ~ has "}" e ->
      calls (trim_space e) "strict_alias" arg -> written_key arg ps -> lookup_is (mk_key arg ps) o ->
      whole_is ("%{" ++ e ++ "}") o.
End Level.

(** ** Data *)

(** A file as it is read: missing or with a map. *)
Inductive file_has : data_file -> entries -> Prop :=
| fh_missing : file_has DfMissing []
| fh_map : forall m, file_has (DfValue (VMap m)) m.

(** The options of an entry for one of its locations: its own, with the
    location as path. *)
Inductive options_are (e : entry) : option location -> entries -> Prop :=
| oa_none : options_are e None (match e_options e with Some o => o | None => [] end)
| oa_location : forall l p, loc_resolved l = Ok p ->
    options_are e (Some l) (mput (VStr "path") (VStr p) (match e_options e with Some o => o | None => [] end)).

(** The file of the plugin that has the function [n] of an entry, for a program
    in the directory [cwd]: the file that the entry names, or one with the name
    of the function; a relative one is in the plugin directory of the entry,
    and a relative plugin directory is in [cwd].  The path is written without
    detours. *)
Definition plugin_name (e : entry) (n file : string) : Prop :=
  (e_pluginfile e <> "" /\ file = e_pluginfile e) \/ (e_pluginfile e = "" /\ file = n).
Inductive plugin_file (cwd : string) (e : entry) (n : string) : string -> Prop :=
| pf_absolute : forall file to, plugin_name e n file -> absolute file ->
    reaches [] file to -> plugin_file cwd e n (spelled true to)
| pf_relative : forall file home d to, plugin_name e n file -> ~ absolute file ->
    absolute cwd -> reaches [] cwd home -> reaches home (e_plugindir e) d -> reaches d file to ->
    plugin_file cwd e n (spelled true to).

(** The function that a name stands for, when it is not a built-in one.  The
    root directory is no plugin. *)
Inductive function_is (w : world) (e : entry) (n : string) : option fnref -> Prop :=
| fi_session : (forall t, w_fun w t n = true) -> function_is w e n (Some (FnSession n))
| fi_plugin : forall path, (forall t, w_fun w t n = false) ->
    plugin_file (w_cwd w) e n path -> path <> "/" ->
    (forall t, w_plugin w t path n = Ok true) ->
    function_is w e n (Some (FnPlugin path n))
| fi_none : forall path, (forall t, w_fun w t n = false) ->
    plugin_file (w_cwd w) e n path -> path <> "/" ->
    (forall t, w_plugin w t path n = Ok false) -> function_is w e n None
| fi_root : (forall t, w_fun w t n = false) ->
    plugin_file (w_cwd w) e n "/" -> function_is w e n None.

(** The hash that an entry of kind data_hash has at a location. *)
Inductive hash_is (w : world) (e : entry) (n : string) (loc : option location) : entries -> Prop :=
| hi_yaml : forall opts p m, n = "yaml_data" -> options_are e loc opts -> mgets "path" opts = Some p ->
    (forall t, file_has (w_yaml w t (vstring w p)) m) -> hash_is w e n loc m
| hi_json : forall opts p m, n = "json_data" -> options_are e loc opts -> mgets "path" opts = Some p ->
    (forall t, file_has (w_json w t (vstring w p)) m) -> hash_is w e n loc m
| hi_function : forall opts f v, n <> "yaml_data" -> n <> "json_data" ->
    function_is w e n (Some f) -> options_are e loc opts ->
    (forall t, w_call w t f (ADataHash opts) = PRet v) ->
    hash_is w e n loc (match v with Some (VMap m) => m | _ => [] end)
| hi_unknown : forall opts, n <> "yaml_data" -> n <> "json_data" -> function_is w e n None ->
    options_are e loc opts -> hash_is w e n loc [].

(** The text [r] is read as a key that starts with [x]. *)
Definition root_is (r x : string) : Prop := exists ps, written_key r (PStr x :: ps).

(** A value below the steps of a path. *)
Fixpoint wrapped (ps : list part) (v : value) : value :=
  match ps with
  | [] => v
  | PStr s :: r => VMap [(VStr s, wrapped r v)]
  | PInt z :: r => VMap [(VInt z, wrapped r v)]
  end.

Section Hierarchy.
  Variables (w : world) (sc : scope).
  (** What values in data hashes stand for. *)
  Variable value_is : value -> option value -> Prop.
  (** The key.  Although it is only the first part of the key that was asked for
      it is read as a key once more. *)
  Variable r : string.

  (** What an entry provides for the key at a location. *)
  Inductive provides (e : entry) (loc : option location) : option value -> Prop :=
  | pr_hash : forall x n m v o, root_is r x -> e_function e = Some (mk_fdef KDataHash n) -> hash_is w e n loc m ->
      mgets x m = Some v -> value_is v o -> provides e loc o
  | pr_hash_not : forall x n m, root_is r x -> e_function e = Some (mk_fdef KDataHash n) -> hash_is w e n loc m ->
      mgets x m = None -> provides e loc None
  | pr_environment : forall x opts, root_is r x -> e_function e = Some (mk_fdef KLookupKey "environment") ->
      options_are e loc opts -> provides e loc (environment (w_env w) x)
  | pr_scope : forall x opts, root_is r x -> e_function e = Some (mk_fdef KLookupKey "scope") ->
      options_are e loc opts -> provides e loc (scope_get sc x)
  | pr_key : forall x n f opts v, root_is r x -> e_function e = Some (mk_fdef KLookupKey n) ->
      n <> "environment" -> n <> "scope" -> function_is w e n (Some f) -> options_are e loc opts ->
      (forall t, w_call w t f (ALookupKey opts x) = PRet v) -> provides e loc v
  | pr_key_unknown : forall n opts, e_function e = Some (mk_fdef KLookupKey n) ->
      n <> "environment" -> n <> "scope" -> function_is w e n None -> options_are e loc opts ->
      provides e loc None
  | pr_dig : forall x ps n f opts v, written_key r (PStr x :: ps) -> e_function e = Some (mk_fdef KDataDig n) ->
      function_is w e n (Some f) -> options_are e loc opts ->
      (forall t, w_dig w t f (PStr x :: ps) = Ok v) -> provides e loc (option_map (wrapped ps) v)
  | pr_dig_unknown : forall n opts, e_function e = Some (mk_fdef KDataDig n) ->
      function_is w e n None -> options_are e loc opts -> provides e loc None.

  (** The same, but nothing where there is no file. *)
  Inductive location_gives (e : entry) (l : location) : option value -> Prop :=
  | lg_absent : ~ there l -> location_gives e l None
  | lg_there : forall o, there l -> provides e (Some l) o -> location_gives e l o.

  (** A strategy over places that give values: first stops at the first value,
      the others want all of them. *)
  Inductive picks {L} (gives : L -> option value -> Prop) : strategy -> list L -> option value -> Prop :=
  | pk_first : forall pre x post v, Forall (fun y => gives y None) pre -> gives x (Some v) ->
      picks gives SFirst (pre ++ x :: post) (Some v)
  | pk_none : forall l, Forall (fun y => gives y None) l -> picks gives SFirst l None
  | pk_merge : forall s l outs, s <> SFirst -> Forall2 gives l outs -> picks gives s l (pure_lookup s outs).

  (** An entry: without locations, with one, or with several. *)
  Inductive entry_gives (s : strategy) (e : entry) : option value -> Prop :=
  | eg_plain : forall o, e_locations e = None -> provides e None o -> entry_gives s e o
  | eg_empty : e_locations e = Some [] -> entry_gives s e None
  | eg_one : forall l o, e_locations e = Some [l] -> location_gives e l o -> entry_gives s e o
  | eg_many : forall l1 l2 ls o, e_locations e = Some (l1 :: l2 :: ls) ->
      picks (location_gives e) s (l1 :: l2 :: ls) o -> entry_gives s e o.

  (** The hierarchy. *)
  Definition hierarchy_gives (s : strategy) (es : list entry) : option value -> Prop :=
    picks (entry_gives s) s es.
End Hierarchy.

(** ** Nested lookups *)

(** A key that consists of its own text, and a text that is a key at all. *)
Definition plain_key (r : string) : Prop := written_key r [PStr r].
Definition correct_key (r : string) : Prop := exists parts, written_key r parts.

(** A string to interpolate, or a key to look up, on the way. *)
Inductive question : Type :=
| QStr (t : string)
| QKey (k : key).

(** Answers that need at most [n] nested steps.  [st] is the strategy in use;
    without one lookups are not possible. *)
Fixpoint answers (w : world) (sc : scope) (es : list entry) (st : option strategy) (n : nat)
  : question -> option value -> Prop :=
  match n with
  | 0 => fun _ _ => False
  | S n =>
      let string_is t := answers w sc es st n (QStr t) in
      let lookup_is k := answers w sc es st n (QKey k) in
      let value_is := value_is string_is in
      fun q o =>
        match q with
        | QStr t => whole_is w sc string_is lookup_is t o
        | QKey k =>
            (exists ps, k_parts k = PStr "lookup_options" :: ps /\ o = None) \/
            exists s r ps v, st = Some s /\ k_parts k = PStr r :: ps /\ r <> "lookup_options" /\ correct_key r /\
              hierarchy_gives w sc value_is r s es v /\
              match v with
              | Some x => exists y, value_is x y /\ digs ps y o
              | None => o = None
              end
        end
  end.

(** ** Lookups *)

(** The hierarchy of a configuration in a scope. *)
Definition hierarchy_is (w : world) (on_disk : string -> bool) (matching : string -> list string) (sc : scope)
           (c : config) (es : list entry) : Prop :=
  exists d ds,
    entry_resolved w on_disk matching sc (w_env w) (c_root c) None (c_defaults c) d /\
    Forall2 (entry_resolved w on_disk matching sc (w_env w) (c_root c) (Some d)) (c_hierarchy c) es /\
    Forall2 (entry_resolved w on_disk matching sc (w_env w) (c_root c) (Some d)) (c_default_hierarchy c) ds.

(** The lookup options of a key: the deep merge of what is under the key
    lookup_options in the hierarchy, and there the map under the key. *)
Inductive options_for (all : option value) (r : string) : option entries -> Prop :=
| of_map : forall m o, all = Some (VMap m) -> mgets r m = Some (VMap o) -> options_for all r (Some o)
| of_other : forall m, all = Some (VMap m) -> (forall o, mgets r m <> Some (VMap o)) -> options_for all r None
| of_none : (forall m, all <> Some (VMap m)) -> options_for all r None.

Definition options_of (all : option value) (r : string) (lo : option entries) : Prop :=
  exists x, root_is r x /\ options_for all x lo.

(** The merge option that counts: the explicit one or else the one in the
    lookup options. *)
Inductive merge_option (explicit : option entries) (lo : option entries) : option value -> Prop :=
| mo_explicit : forall o v, explicit = Some o -> mgets "merge" o = Some v -> merge_option explicit lo (Some v)
| mo_option : forall l v, (forall o, explicit = Some o -> mgets "merge" o = None) ->
    lo = Some l -> mgets "merge" l = Some v -> merge_option explicit lo (Some v)
| mo_none : (forall o, explicit = Some o -> mgets "merge" o = None) ->
    (forall l, lo = Some l -> mgets "merge" l = None) -> merge_option explicit lo None.

(** The strategy by name, with options for deep. *)
Inductive strategy_named : string -> entries -> strategy -> Prop :=
| sn_first : forall o, strategy_named "first" o SFirst
| sn_unique : forall o, strategy_named "unique" o SUnique
| sn_hash : forall o, strategy_named "hash" o SHash
| sn_deep : forall o, strategy_named "deep" o (SDeep o).

(** A merge option gives the name, or a map with the name and options; one that
    is neither counts for nothing. *)
Inductive strategy_is : option value -> strategy -> Prop :=
| si_name : forall n s, strategy_named n [] s -> strategy_is (Some (VStr n)) s
| si_map : forall m n s, mgets "strategy" m = Some (VStr n) ->
    strategy_named n (mwithout (VStr "strategy") m) s -> strategy_is (Some (VMap m)) s
| si_none : strategy_is None SFirst
| si_other : forall v, (forall n, v <> VStr n) -> (forall m, v <> VMap m) -> strategy_is (Some v) SFirst.

(** The conversion in the lookup options: a type, with arguments perhaps. *)
Inductive conversion_is (lo : option entries) : option (string * option (list value)) -> Prop :=
| ci_none : (forall l, lo = Some l -> mgets "convert_to" l = None \/ mgets "convert_to" l = Some (VArr [])) ->
    conversion_is lo None
| ci_type : forall l t, lo = Some l -> mgets "convert_to" l = Some (VStr t) \/ mgets "convert_to" l = Some (VArr [VStr t]) ->
    conversion_is lo (Some (t, None))
| ci_args : forall l t x a, lo = Some l -> mgets "convert_to" l = Some (VArr (VStr t :: x :: a)) ->
    conversion_is lo (Some (t, Some (x :: a))).

(** A found value is converted, and nothing else. *)
Inductive converted (w : world) : option (string * option (list value)) -> option value -> option value -> Prop :=
| cv_no_conversion : forall o, converted w None o o
| cv_not_found : forall t a ty, w_parse_type w t = Ok ty -> converted w (Some (t, a)) None None
| cv_sensitive : forall t v, w_parse_type w t = Ok CSensitive -> converted w (Some (t, None)) (Some v) (Some (VSens v))
| cv_new : forall t a ty v v', w_parse_type w t = Ok ty -> ty <> CSensitive \/ a <> None ->
    w_new w ty v (match a with Some l => l | None => [] end) = Ok v' ->
    converted w (Some (t, a)) (Some v) (Some v').

(** What is under lookup_options in the hierarchy; no lookups are possible in
    there. *)
Definition all_options (w : world) (sc : scope) (es : list entry) (n : nat) (all : option value) : Prop :=
  hierarchy_gives w sc (value_is (fun t => answers w sc es None n (QStr t))) "lookup_options" (SDeep []) es all.

(** The lookup of a key, with [es] for the hierarchy, [all] for what is under
    lookup_options in it and at most [n] nested steps. *)
Definition lookup_finds (w : world) (sc : scope) (es : list entry) (all : option value) (n : nat) (k : key)
           (opts : option entries) (o : option value) : Prop :=
  exists r ps lo mo s c v x,
    k_parts k = PStr r :: ps /\ r <> "lookup_options" /\ correct_key r /\
    options_of all r lo /\ merge_option opts lo mo /\ strategy_is mo s /\ conversion_is lo c /\
    hierarchy_gives w sc (value_is (fun t => answers w sc es (Some s) n (QStr t))) r s es v /\
    converted w c v x /\
    match x with
    | Some x => exists y, value_is (fun t => answers w sc es None n (QStr t)) x y /\ digs ps y o
    | None => o = None
    end.

(** The lookup of a key, with [es] for the hierarchy and at most [n] nested
    steps. *)
Definition lookup_gives (w : world) (sc : scope) (es : list entry) (n : nat) (k : key) (opts : option entries)
           (o : option value) : Prop :=
  exists r ps all lo mo s c v x,
    k_parts k = PStr r :: ps /\ r <> "lookup_options" /\ correct_key r /\
    hierarchy_gives w sc (value_is (fun t => answers w sc es None n (QStr t))) "lookup_options" (SDeep []) es all /\
    options_of all r lo /\ merge_option opts lo mo /\ strategy_is mo s /\ conversion_is lo c /\
    hierarchy_gives w sc (value_is (fun t => answers w sc es (Some s) n (QStr t))) r s es v /\
    converted w c v x /\
    match x with
    | Some x => exists y, value_is (fun t => answers w sc es None n (QStr t)) x y /\ digs ps y o
    | None => o = None
    end.
