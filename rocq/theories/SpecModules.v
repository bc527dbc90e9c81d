(** What a lookup must give in a session with modules: several functions are
    asked, among them the configuration of the session and the configurations of
    modules (/repo/provider/muxlookupkey.go:21-52,
    /repo/provider/modulelookupkey.go:25-46,
    /repo/provider/configlookupkey.go:20-39).  There is no state in here: no
    caches, no locks and no explainer. *)

From Coq Require Import String Ascii List ZArith Bool.
From Verif Require Import Str Value Outcome Key Merge Fpath Config State Engine
  SpecKey SpecIpl SpecInterp SpecConfig MergeLookup SpecPath SpecLookup SpecFail SpecMux SpecTop P_Modules.
Import ListNotations.
Open Scope string_scope.
Open Scope list_scope.

(** A configuration file in a scope: the module it belongs to, or no name for the
    configuration of the session, the entries of its hierarchy and what is under
    lookup_options in there. *)
Record site : Type := mk_site {
  si_module : string;
  si_entries : list entry;
  si_options : option value
}.

(** The file at [path] is this. *)
Definition site_is (w : world) (on_disk : string -> bool) (matching : string -> list string) (sc : scope) (n : nat)
           (path : string) (si : site) : Prop :=
  exists file c, (forall t, w_config w t path = file) /\ config_new (w_env w) path file = Ok c /\
    hierarchy_is w on_disk matching sc c (si_entries si) /\ all_options w sc (si_entries si) n (si_options si).

(** The file at [path] cannot be read, or is no configuration. *)
Definition broken (w : world) (path : string) (x : err) : Prop :=
  exists file, (forall t, w_config w t path = file) /\ config_new (w_env w) path file = Panic x.

Section Asked.
  Variables (w : world) (rd : string -> dir_list) (ls : string -> lstat) (sc : scope).
  (** The configuration files. *)
  Variable sites : string -> option site.
  (** The options that are handed on, and the key that is asked for. *)
  Variables (args : entries) (r : string).

  (** No module has the key. *)
  Inductive no_module : Prop :=
  | nm_no_namespace : (forall pre, ~ namespace r pre) -> no_module
  | nm_missing : forall pre, namespace r pre -> in_path rd ls pre (module_dirs w) None -> no_module.

  (** What a function that reads no configuration for the key has for it; it has
      this also when it is asked for lookup options. *)
  Inductive keeps_value : lkfn -> option value -> Prop :=
  | hv_environment : keeps_value LkEnv (environment (w_env w) r)
  | hv_scope : keeps_value LkScope (scope_get sc r)
  | hv_yaml : forall m, (forall t, file_has (w_yaml w t (yaml_path w)) m) -> keeps_value LkYaml (mgets r m)
  | hv_user : forall f v, (forall t, w_call w t (FnTop f) (ALookupKey args r) = PRet v) -> keeps_value (LkUser f) v
  | hv_no_function : keeps_value LkNotFun None
  | hv_no_module : no_module -> keeps_value LkModule None.

  (** The configuration that a function reads for the key: always the same one,
      or the one of the module that the key is in. *)
  Inductive reads_site : lkfn -> site -> Prop :=
  | rs_config : forall si, sites (w_cfgpath w) = Some si -> si_module si = "" -> reads_site LkConfig si
  | rs_module : forall pre file si, namespace r pre -> in_path rd ls pre (module_dirs w) (Some file) ->
      sites file = Some si -> module_name pre (si_module si) -> reads_site LkModule si.

  (** The lookup options that a configuration has for the key: those of a module
      count only for keys that start with the name of the module. *)
  Definition concerns (m x : string) : Prop := m = "" \/ exists rest, x = (m ++ "::" ++ rest)%string.
  Inductive site_options (si : site) : option entries -> Prop :=
  | so_own : forall x lo, root_is r x -> concerns (si_module si) x -> options_for (si_options si) x lo -> site_options si lo
  | so_other : forall x, root_is r x -> ~ concerns (si_module si) x -> site_options si None.

  (** What the functions answer when they are asked for the lookup options of the
      key. *)
  Inductive option_of : lkfn -> option value -> Prop :=
  | oo_site : forall f si lo, reads_site f si -> site_options si lo -> option_of f (option_map VMap lo)
  | oo_other : forall f o, keeps_value f o -> option_of f o.

  (** What they answer when they are asked for data. *)
  Inductive datum_of (value_is : value -> option value -> Prop) (s : strategy) : lkfn -> option value -> Prop :=
  | do_site : forall f si o, reads_site f si -> hierarchy_gives w sc value_is r s (si_entries si) o ->
      datum_of value_is s f o
  | do_other : forall f o, keeps_value f o -> datum_of value_is s f o.

  (** The functions one after the other.  A nested lookup leaves its strategy
      behind, and a configuration that is read afterwards is read with that one
      (finding in C72).  So the values of a configuration that is followed by
      another one have no nested lookups with other strategies, [same], while
      the last one may have any, [free]. *)
  Section Consulted.
    Variables (same free : value -> option value -> Prop) (s : strategy).
    Inductive consulted : list lkfn -> list (option value) -> Prop :=
    | cs_none : consulted [] []
    | cs_more : forall f l o outs, datum_of same s f o -> consulted l outs -> consulted (f :: l) (o :: outs)
    | cs_last : forall f l o outs, datum_of free s f o -> Forall2 keeps_value l outs -> consulted (f :: l) (o :: outs).

    (** The strategy first stops at the first value. *)
    Inductive picked : list lkfn -> option value -> Prop :=
    | pi_first : forall pre f post outs v, s = SFirst -> Forall (fun o => o = None) outs ->
        consulted (pre ++ [f]) (outs ++ [Some v]) -> picked (pre ++ f :: post) (Some v)
    | pi_none : forall l outs, s = SFirst -> Forall (fun o => o = None) outs -> consulted l outs -> picked l None
    | pi_merge : forall l outs, s <> SFirst -> consulted l outs -> picked l (pure_lookup s outs).
  End Consulted.

  (** The module path cannot be searched for a module. *)
  Inductive directory_fails (pre p : string) (x : err) : Prop :=
  | dx_directory : rd p = DirError x -> directory_fails pre p x
  | dx_file : forall l d, rd p = DirEntries l -> first_entry pre l (d, true) ->
      ls (join2 (join2 p d) "hiera.yaml") = LsError x -> directory_fails pre p x.
  Inductive path_fails (pre : string) : list string -> err -> Prop :=
  | px_here : forall p l x, directory_fails pre p x -> path_fails pre (p :: l) x
  | px_next : forall p l x, in_directory rd ls pre p None -> path_fails pre l x -> path_fails pre (p :: l) x.

  (** A function fails for the key, and the broken configuration file that is to
      blame, if it is one. *)
  Inductive stops : lkfn -> option string -> err -> Prop :=
  | sp_yaml : forall x, (forall t, unreadable "YAML hash" (yaml_path w) (w_yaml w t (yaml_path w)) x) -> stops LkYaml None x
  | sp_user : forall f x, (forall t, w_call w t (FnTop f) (ALookupKey args r) = PPanic x) -> stops (LkUser f) None x
  | sp_path : forall pre x, namespace r pre -> path_fails pre (module_dirs w) x -> stops LkModule None x
  | sp_config : forall x, broken w (w_cfgpath w) x -> stops LkConfig (Some (w_cfgpath w)) x
  | sp_module : forall pre file x, namespace r pre -> in_path rd ls pre (module_dirs w) (Some file) ->
      broken w file x -> stops LkModule (Some file) x.
End Asked.

Section Found.
  Variables (w : world) (rd : string -> dir_list) (ls : string -> lstat) (sc : scope) (sites : string -> option site).
  Variable fs : list lkfn.

  (** What is found under the root of a key.  [allowed] says which strategies may
      be used, and [value_is] what values stand for when the nested lookups in
      them use only such. *)
  Definition found_among (allowed : strategy -> Prop)
             (value_is : (strategy -> Prop) -> value -> option value -> Prop) (r : string)
             (opts : option entries) (x : option value) : Prop :=
    let args := match opts with Some o => o | None => [] end in
    exists outs lo mo s c v,
      Forall2 (option_of w rd ls sc sites args r) fs outs /\ map_of (pure_lookup (SDeep []) outs) lo /\
      merge_option opts lo mo /\ strategy_is mo s /\ allowed s /\ conversion_is lo c /\
      picked w rd ls sc sites args r (value_is (fun g => g = s)) (value_is allowed) s fs v /\
      converted w c v x.

  (** The lookup of a key. *)
  Definition key_among (allowed : strategy -> Prop)
             (value_is : (strategy -> Prop) -> value -> option value -> Prop) (k : key)
             (opts : option entries) (o : option value) : Prop :=
    (exists ps, k_parts k = PStr "lookup_options" :: ps /\ o = None) \/
    exists r ps x, k_parts k = PStr r :: ps /\ r <> "lookup_options" /\ correct_key r /\
      found_among allowed value_is r opts x /\ followed (value_is allowed) ps x o.

  (** Answers to questions on the way that need at most [n] nested steps.  A nested
      lookup is a lookup like any other: its own options count. *)
  Fixpoint answers_among (n : nat) (allowed : strategy -> Prop) (q : question) (o : option value) : Prop :=
    match n with
    | 0 => False
    | S n =>
        match q with
        | QStr t => whole_is w sc (fun t => answers_among n allowed (QStr t)) (fun k => answers_among n allowed (QKey k)) t o
        | QKey k => key_among allowed (fun a => value_is (fun t => answers_among n a (QStr t))) k None o
        end
    end.

  (** A lookup by a user. *)
  Definition gives_among (n : nat) (k : key) (opts : option entries) (o : option value) : Prop :=
    key_among (fun _ => True) (fun a => value_is (fun t => answers_among n a (QStr t))) k opts o.

  (** A lookup that comes to nothing: all functions are asked for the lookup
      options of the key, and one fails. *)
  Definition stopped (k : key) (opts : option entries) (file : option string) (x : err) : Prop :=
    exists r ps pre f post outs, k_parts k = PStr r :: ps /\ r <> "lookup_options" /\ correct_key r /\
      fs = pre ++ f :: post /\
      Forall2 (option_of w rd ls sc sites (match opts with Some o => o | None => [] end) r) pre outs /\
      stops w rd ls (match opts with Some o => o | None => [] end) r f file x.
End Found.
