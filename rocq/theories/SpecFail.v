(** When a lookup must fail, and with which error: a source that cannot be read
    is an error for every lookup that gets to it. *)

From Coq Require Import String Ascii List ZArith Bool.
From Verif Require Import SpecPlace.
From Verif Require Import Str Value Outcome Key Merge Fpath Config State Engine
  SpecKey SpecKeyErr SpecIpl SpecInterp SpecConfig MergeLookup SpecPath SpecLookup.
Import ListNotations.
Open Scope string_scope.
Open Scope list_scope.

(** ** Sources *)

(** A data file that cannot be read or has something else than a map. *)
Inductive unreadable (what path : string) : data_file -> err -> Prop :=
| ur_error : forall e, unreadable what path (DfError e) e
| ur_content : forall v, (forall m, v <> VMap m) ->
    unreadable what path (DfValue v) (EErr ("file '" ++ path ++ "' does not contain a " ++ what)).

(** A plugin that cannot be started. *)
Definition function_fails (w : world) (e : entry) (n : string) (x : err) : Prop :=
  (forall t, w_fun w t n = false) /\
  exists path, plugin_file (w_cwd w) e n path /\ path <> "/" /\ forall t, w_plugin w t path n = Panic x.

(** The hash of an entry of kind data_hash at a location cannot be had. *)
Inductive hash_fails (w : world) (e : entry) (n : string) (loc : option location) (x : err) : Prop :=
| hf_yaml : forall opts p, n = "yaml_data" -> options_are e loc opts -> mgets "path" opts = Some p ->
    (forall t, unreadable "YAML hash" (vstring w p) (w_yaml w t (vstring w p)) x) -> hash_fails w e n loc x
| hf_json : forall opts p, n = "json_data" -> options_are e loc opts -> mgets "path" opts = Some p ->
    (forall t, unreadable "JSON object" (vstring w p) (w_json w t (vstring w p)) x) -> hash_fails w e n loc x
| hf_no_path : forall opts, n = "yaml_data" \/ n = "json_data" -> options_are e loc opts ->
    mgets "path" opts = None -> x = EErr "missing required provider option 'path'" -> hash_fails w e n loc x
| hf_call : forall opts f, n <> "yaml_data" -> n <> "json_data" -> function_is w e n (Some f) ->
    options_are e loc opts -> (forall t, w_call w t f (ADataHash opts) = PPanic x) -> hash_fails w e n loc x
| hf_load : forall opts, n <> "yaml_data" -> n <> "json_data" -> function_fails w e n x ->
    options_are e loc opts -> hash_fails w e n loc x.

(** ** Values with expressions *)

Section Text.
  Variables (w : world) (sc : scope).
  (** What the strings met on the way stand for, what nested lookups give, and
      when they fail. *)
  Variable string_is : string -> option value -> Prop.
  Variable lookup_is : key -> option value -> Prop.
  Variable string_fails : string -> err -> Prop.
  Variable key_fails : key -> err -> Prop.

  (** A value fails with the first string in it that does, those before it have
      been replaced. *)
  Inductive value_fails : value -> err -> Prop :=
  | vf_str : forall t x, string_fails t x -> value_fails (VStr t) x
  | vf_element : forall pre v post x, Forall (fun y => exists r, value_is string_is y r) pre ->
      value_fails v x -> value_fails (VArr (pre ++ v :: post)) x
  | vf_key : forall pre k v post x,
      Forall (fun e => (exists r, value_is string_is (fst e) r) /\ exists r, value_is string_is (snd e) r) pre ->
      value_fails k x -> value_fails (VMap (pre ++ (k, v) :: post)) x
  | vf_value : forall pre k v post x,
      Forall (fun e => (exists r, value_is string_is (fst e) r) /\ exists r, value_is string_is (snd e) r) pre ->
      (exists r, value_is string_is k r) -> value_fails v x -> value_fails (VMap (pre ++ (k, v) :: post)) x.

  (** The methods that look up a key: an alias must be the whole string. *)
  Definition looks_up (t e name : string) : Prop :=
    name = "lookup" \/ name = "hiera" \/ ((name = "alias" \/ name = "strict_alias") /\ t = ("%{" ++ e ++ "}")%string).

  (** An expression in the string [t] fails. *)
  Inductive expression_fails (t e : string) (x : err) : Prop :=
  | xf_unknown : forall name arg, calls (trim_space e) name arg ->
      ~ In name ["alias"; "strict_alias"; "hiera"; "lookup"; "literal"; "scope"] ->
      x = EErr ("unknown interpolation method '" ++ name ++ "'") -> expression_fails t e x
  | xf_misplaced : forall name arg, calls (trim_space e) name arg -> name = "alias" \/ name = "strict_alias" ->
      t <> ("%{" ++ e ++ "}")%string ->
      x = EErr "'alias'/'strict_alias' interpolation is only permitted if the expression is equal to the entire string" ->
      expression_fails t e x
  | xf_variable : forall arg,
      ~ In (trim_space e) [""; "::"; """"""; "''"; """::"""; "'::'"] ->
      asks_scope true (trim_space e) arg -> misspelt arg x -> expression_fails t e x
  | xf_scope : forall arg y ps v,
      ~ In (trim_space e) [""; "::"; """"""; "''"; """::"""; "'::'"] ->
      asks_scope true (trim_space e) arg -> written_key arg (PStr y :: ps) ->
      scope_get sc y = Some v -> value_fails v x -> expression_fails t e x
  | xf_key : forall name arg, calls (trim_space e) name arg -> looks_up t e name -> misspelt arg x -> expression_fails t e x
  | xf_lookup : forall name arg ps, calls (trim_space e) name arg -> looks_up t e name ->
      written_key arg ps -> key_fails (mk_key arg ps) x -> expression_fails t e x.

  (** A string fails with its first expression that does. *)
  Inductive whole_fails (t : string) (x : err) : Prop :=
  | wf_expression : forall pre u e post last rs, t = assembled (pre ++ (u, e) :: post) last ->
      well_cut (pre ++ (u, e) :: post) last ->
      Forall2 (fun p r => expression_is w sc string_is lookup_is (snd p) r) pre rs ->
      expression_fails t e x -> whole_fails t x.
End Text.

Section Hierarchy.
  Variables (w : world) (sc : scope).
  Variable value_is : value -> option value -> Prop.
  Variable value_fails : value -> err -> Prop.
  (** The key. *)
  Variable r : string.

  (** An entry fails for the key at a location. *)
  Inductive fails (e : entry) (loc : option location) (x : err) : Prop :=
  | fa_hash : forall n, e_function e = Some (mk_fdef KDataHash n) -> hash_fails w e n loc x -> fails e loc x
  | fa_value : forall y n m v, root_is r y -> e_function e = Some (mk_fdef KDataHash n) -> hash_is w e n loc m ->
      mgets y m = Some v -> value_fails v x -> fails e loc x
  | fa_key : forall y n f opts, root_is r y -> e_function e = Some (mk_fdef KLookupKey n) ->
      n <> "environment" -> n <> "scope" -> function_is w e n (Some f) -> options_are e loc opts ->
      (forall t, w_call w t f (ALookupKey opts y) = PPanic x) -> fails e loc x
  | fa_key_load : forall n opts, e_function e = Some (mk_fdef KLookupKey n) ->
      n <> "environment" -> n <> "scope" -> function_fails w e n x -> options_are e loc opts -> fails e loc x
  | fa_dig : forall y ps n f opts, written_key r (PStr y :: ps) -> e_function e = Some (mk_fdef KDataDig n) ->
      function_is w e n (Some f) -> options_are e loc opts ->
      (forall t, w_dig w t f (PStr y :: ps) = Panic x) -> fails e loc x
  | fa_dig_load : forall n opts, e_function e = Some (mk_fdef KDataDig n) ->
      function_fails w e n x -> options_are e loc opts -> fails e loc x.

  (** A location only matters when it exists. *)
  Definition location_fails (e : entry) (l : location) (x : err) : Prop :=
    there l /\ fails e (Some l) x.

  (** The first place that fails, when it is reached: with first all places
      before it have nothing; otherwise they have whatever they have. *)
  Inductive reaches_failure {L} (gives : L -> option value -> Prop) (failing : L -> err -> Prop)
    : strategy -> list L -> err -> Prop :=
  | rf_first : forall pre p post x, Forall (fun y => gives y None) pre -> failing p x ->
      reaches_failure gives failing SFirst (pre ++ p :: post) x
  | rf_merge : forall s pre p post outs x, s <> SFirst -> Forall2 gives pre outs -> failing p x ->
      reaches_failure gives failing s (pre ++ p :: post) x.

  Inductive entry_fails (s : strategy) (e : entry) (x : err) : Prop :=
  | ef_plain : e_locations e = None -> fails e None x -> entry_fails s e x
  | ef_one : forall l, e_locations e = Some [l] -> location_fails e l x -> entry_fails s e x
  | ef_many : forall l1 l2 ls, e_locations e = Some (l1 :: l2 :: ls) ->
      reaches_failure (location_gives w sc value_is r e) (location_fails e) s (l1 :: l2 :: ls) x -> entry_fails s e x.

  Definition hierarchy_fails (s : strategy) (es : list entry) : err -> Prop :=
    reaches_failure (entry_gives w sc value_is r s) (entry_fails s) s es.
End Hierarchy.

(** ** Nested lookups *)

(** While the lookup options are looked up, while the key is looked up with a
    strategy, and when the value that was found is interpolated again. *)
Inductive phase : Type :=
| Options
| Data (s : strategy)
| Result.
Definition strategy_in (p : phase) : option strategy := match p with Data s => Some s | _ => None end.

(** Failures after at most [n] nested steps.  Without a strategy the lookup of a
    key in the result is a nil dereference. *)
Fixpoint fails_at (w : world) (sc : scope) (es : list entry) (p : phase) (n : nat) : question -> err -> Prop :=
  match n with
  | 0 => fun _ _ => False
  | S n =>
      let string_is t := answers w sc es (strategy_in p) n (QStr t) in
      let lookup_is k := answers w sc es (strategy_in p) n (QKey k) in
      let string_fails t := fails_at w sc es p n (QStr t) in
      let key_fails k := fails_at w sc es p n (QKey k) in
      let breaks := value_fails string_is string_fails in
      fun q x =>
        match q with
        | QStr t => whole_fails w sc string_is lookup_is string_fails key_fails t x
        | QKey k =>
            exists r ps, k_parts k = PStr r :: ps /\ r <> "lookup_options" /\
              match p with
              | Options => False
              | Data s =>
                  misspelt r x \/
                  (correct_key r /\
                   (hierarchy_fails w sc (value_is string_is) breaks r s es x \/
                    exists v, hierarchy_gives w sc (value_is string_is) r s es (Some v) /\ breaks v x))
              | Result => misspelt r x \/ (correct_key r /\ x = EErr "runtime error: invalid memory address or nil pointer dereference")
              end
        end
  end.

(** What the strings of a phase stand for, and how they fail. *)
Definition value_in (w : world) (sc : scope) (es : list entry) (p : phase) (n : nat) : value -> option value -> Prop :=
  value_is (fun t => answers w sc es (strategy_in p) n (QStr t)).
Definition fails_in (w : world) (sc : scope) (es : list entry) (p : phase) (n : nat) : value -> err -> Prop :=
  value_fails (fun t => answers w sc es (strategy_in p) n (QStr t)) (fun t => fails_at w sc es p n (QStr t)).

(** ** Lookups *)

(** The name in a merge option that names no strategy. *)
Inductive misnamed : option value -> string -> Prop :=
| mn_name : forall n, misnamed (Some (VStr n)) n
| mn_map : forall m n, mgets "strategy" m = Some (VStr n) -> misnamed (Some (VMap m)) n
| mn_no_name : forall m, (forall n, mgets "strategy" m <> Some (VStr n)) -> misnamed (Some (VMap m)) "".

(** A conversion that names no type: what is under convert_to is not a text, or
    it is a list that does not start with one. *)
Inductive no_type : option entries -> Prop :=
| nt_value : forall l v, mgets "convert_to" l = Some v -> (forall t, v <> VStr t) -> (forall a, v <> VArr a) -> no_type (Some l)
| nt_list : forall l v a, mgets "convert_to" l = Some (VArr (v :: a)) -> (forall t, v <> VStr t) -> no_type (Some l).

(** The lookup of a key fails. *)
Inductive lookup_fails (w : world) (sc : scope) (es : list entry) (n : nat) (k : key) (opts : option entries) (x : err) : Prop :=
(** The lookup options of the whole hierarchy are wanted first, whatever the key. *)
| lf_options : forall r ps, k_parts k = PStr r :: ps -> r <> "lookup_options" ->
    hierarchy_fails w sc (value_in w sc es Options n) (fails_in w sc es Options n) "lookup_options" (SDeep []) es x ->
    lookup_fails w sc es n k opts x
| lf_root : forall r ps all, k_parts k = PStr r :: ps -> r <> "lookup_options" -> all_options w sc es n all ->
    misspelt r x -> lookup_fails w sc es n k opts x
| lf_strategy : forall r ps all lo mo t, k_parts k = PStr r :: ps -> r <> "lookup_options" -> correct_key r ->
    all_options w sc es n all -> options_of all r lo -> merge_option opts lo mo -> (forall s, ~ strategy_is mo s) ->
    misnamed mo t -> x = EErr ("unknown merge strategy '" ++ t ++ "'") -> lookup_fails w sc es n k opts x
| lf_type : forall r ps all lo mo s t a, k_parts k = PStr r :: ps -> r <> "lookup_options" -> correct_key r ->
    all_options w sc es n all -> options_of all r lo -> merge_option opts lo mo -> strategy_is mo s ->
    conversion_is lo (Some (t, a)) -> w_parse_type w t = Panic x -> lookup_fails w sc es n k opts x
| lf_no_type : forall r ps all lo mo s, k_parts k = PStr r :: ps -> r <> "lookup_options" -> correct_key r ->
    all_options w sc es n all -> options_of all r lo -> merge_option opts lo mo -> strategy_is mo s ->
    no_type lo -> x = EErr "interface conversion" -> lookup_fails w sc es n k opts x
| lf_value : forall r ps all lo mo s cv, k_parts k = PStr r :: ps -> r <> "lookup_options" -> correct_key r ->
    all_options w sc es n all -> options_of all r lo -> merge_option opts lo mo -> strategy_is mo s ->
    conversion_is lo cv -> (forall t a, cv = Some (t, a) -> exists ty, w_parse_type w t = Ok ty) ->
    hierarchy_fails w sc (value_in w sc es (Data s) n) (fails_in w sc es (Data s) n) r s es x ->
    lookup_fails w sc es n k opts x
| lf_conversion : forall r ps all lo mo s t a ty v, k_parts k = PStr r :: ps -> r <> "lookup_options" -> correct_key r ->
    all_options w sc es n all -> options_of all r lo -> merge_option opts lo mo -> strategy_is mo s ->
    conversion_is lo (Some (t, a)) -> w_parse_type w t = Ok ty -> ty <> CSensitive \/ a <> None ->
    hierarchy_gives w sc (value_is (fun t => answers w sc es (Some s) n (QStr t))) r s es (Some v) ->
    w_new w ty v (match a with Some l => l | None => [] end) = Panic x -> lookup_fails w sc es n k opts x
| lf_result : forall r ps all lo mo s cv v y, k_parts k = PStr r :: ps -> r <> "lookup_options" -> correct_key r ->
    all_options w sc es n all -> options_of all r lo -> merge_option opts lo mo -> strategy_is mo s ->
    conversion_is lo cv -> hierarchy_gives w sc (value_in w sc es (Data s) n) r s es v ->
    converted w cv v (Some y) -> fails_in w sc es Result n y x -> lookup_fails w sc es n k opts x.
