(** Model of /repo/config: config.go, entry.go, function.go, path.go, glob.go,
    uri.go and mappedpaths.go. *)

From Coq Require Import String Ascii List ZArith Bool Arith.
From Verif Require Import Str Value Outcome Fpath.
Import ListNotations.
Open Scope string_scope.
Open Scope bool_scope.

(** ** Types *)

(** api.FunctionKind, /repo/api/function.go:15-25. *)
Inductive fkind : Type := KDataDig | KDataHash | KLookupKey.

(** function, /repo/config/function.go:8-11. *)
Record fdef : Type := mk_fdef { f_kind : fkind; f_name : string }.

(** The four kinds of api.Location: path (/repo/config/path.go:16-20), glob
    (/repo/config/glob.go:16), uri (/repo/config/uri.go:14-17) and mappedPaths
    (/repo/config/mappedpaths.go:16-25). *)
Inductive location : Type :=
| LPath (original resolved : string) (exists_ : bool)
| LGlob (pattern : string)
| LUri (original resolved : string)
| LMapped (source_var key template : string).

(** Exists, /repo/config/path.go:63-65, /repo/config/glob.go:47-49, /repo/config/uri.go:58-60,
    /repo/config/mappedpaths.go:66-68. *)
Definition loc_exists (l : location) : bool :=
  match l with LPath _ _ e => e | LUri _ _ => true | LGlob _ => false | LMapped _ _ _ => false end.

(** Resolved, /repo/config/path.go:86-88, /repo/config/uri.go:79-81, /repo/config/glob.go:74-77,
    /repo/config/mappedpaths.go:114-117. *)
Definition loc_resolved (l : location) : outcome string :=
  match l with
  | LPath _ r _ => Ok r
  | LUri _ r => Ok r
  | LGlob _ => Panic (EErr "resolved requested on a glob")
  | LMapped _ _ _ => Panic (EErr "resolved requested on mapped paths")
  end.

(** entry, /repo/config/entry.go:16-25.  The reference to the configuration is
    replaced by the argument [root] of the functions that use it.  [None] is a
    nil map, function or slice. *)
Record entry : Type := mk_entry {
  e_datadir : string;
  e_plugindir : string;
  e_pluginfile : string;
  e_options : option entries;
  e_function : option fdef;
  e_name : string;
  e_locations : option (list location)
}.

(** Field updates of an entry, as in /repo/config/entry.go:66-169. *)
Definition set_datadir (d : string) (e : entry) : entry :=
  mk_entry d (e_plugindir e) (e_pluginfile e) (e_options e) (e_function e) (e_name e) (e_locations e).
Definition set_plugindir (d : string) (e : entry) : entry :=
  mk_entry (e_datadir e) d (e_pluginfile e) (e_options e) (e_function e) (e_name e) (e_locations e).
Definition set_pluginfile (d : string) (e : entry) : entry :=
  mk_entry (e_datadir e) (e_plugindir e) d (e_options e) (e_function e) (e_name e) (e_locations e).
Definition set_options (o : option entries) (e : entry) : entry :=
  mk_entry (e_datadir e) (e_plugindir e) (e_pluginfile e) o (e_function e) (e_name e) (e_locations e).
Definition set_function (f : option fdef) (e : entry) : entry :=
  mk_entry (e_datadir e) (e_plugindir e) (e_pluginfile e) (e_options e) f (e_name e) (e_locations e).
Definition set_locations (l : option (list location)) (e : entry) : entry :=
  mk_entry (e_datadir e) (e_plugindir e) (e_pluginfile e) (e_options e) (e_function e) (e_name e) l.

(** hieraCfg, /repo/config/config.go:19-25. *)
Record config : Type := mk_config {
  c_root : string;
  c_path : string;
  c_defaults : entry;
  c_hierarchy : list entry;
  c_default_hierarchy : list entry
}.

(** The environment of the process as name and value pairs. *)
Definition environ := list (string * string).

(** os.LookupEnv, used at /repo/config/config.go:128 and :136 and
    /repo/provider/environment.go:29. *)
Fixpoint lookup_env (env : environ) (n : string) : option string :=
  match env with
  | [] => None
  | (k, v) :: r => if String.eqb k n then Some v else lookup_env r n
  end.

(** ** The schema of the configuration file *)

(** The characters of the pattern for option keys,
    /repo/config/config.go:29. *)
Definition is_alpha (c : ascii) : bool :=
  let n := nat_of_ascii c in ((65 <=? n) && (n <=? 90))%nat || ((97 <=? n) && (n <=? 122))%nat.
Definition is_alnum (c : ascii) : bool := is_alpha c || is_digit c.
Definition is_opt_char (c : ascii) : bool := is_alnum c || ceq c "_"%char || ceq c "-"%char.

(** [0-9A-Za-z_-]*[0-9A-Za-z]\z *)
Fixpoint opt_key_rest (s : string) : bool :=
  match s with
  | EmptyString => false
  | String c EmptyString => is_alnum c
  | String c r => is_opt_char c && opt_key_rest r
  end.

(** The pattern for option keys, /repo/config/config.go:29: a letter, then
    optionally a colon (sic, the pattern says (:? and not (?: ) and a text
    accepted by [opt_key_rest]. *)
Definition opt_key_ok (s : string) : bool :=
  match s with
  | EmptyString => false
  | String c EmptyString => is_alpha c
  | String c (String d r) =>
      is_alpha c && (opt_key_rest (String d r) || (ceq d c_colon && opt_key_rest r))
  end.

(** The dgo type data: null, booleans, numbers, strings, and arrays and string
    keyed maps of data. *)
Fixpoint is_data (v : value) : bool :=
  match v with
  | VArr l => forallb is_data l
  | VMap m => forallb (fun e => is_str (fst e) && is_data (snd e)) m
  | VSens _ => false
  | _ => true
  end.

(** rstring, /repo/config/config.go:30. *)
Definition rstring (v : value) : bool :=
  match v with VStr s => negb (String.eqb s "") | _ => false end.

(** options, /repo/config/config.go:29. *)
Definition options_type (v : value) : bool :=
  match v with
  | VMap m => forallb (fun e => match fst e with VStr k => opt_key_ok k | _ => false end && is_data (snd e)) m
  | _ => false
  end.

(** [n]rstring and [n,n]rstring: arrays of rstring of a minimal or exact
    length, /repo/config/config.go:49-54. *)
Definition rstrings (len_ok : nat -> bool) (v : value) : bool :=
  match v with VArr l => len_ok (List.length l) && forallb rstring l | _ => false end.

(** A dgo struct type: every field that is required is there, every field that
    is there has the type given, and there are no other keys. *)
Definition struct_type (fields : list (string * (bool * (value -> bool)))) (v : value) : bool :=
  match v with
  | VMap m =>
      forallb (fun f => match mgets (fst f) m with
                        | Some x => snd (snd f) x
                        | None => negb (fst (snd f))
                        end) fields &&
      forallb (fun e => match fst e with
                        | VStr k => contains_string (map fst fields) k
                        | _ => false
                        end) m
  | _ => false
  end.

(** defaults, /repo/config/config.go:31-38. *)
Definition defaults_type : value -> bool :=
  struct_type
    [("options", (false, options_type)); ("data_dig", (false, rstring)); ("data_hash", (false, rstring));
     ("lookup_key", (false, rstring)); ("datadir", (false, rstring)); ("plugindir", (false, rstring))].

(** entry, /repo/config/config.go:39-55. *)
Definition entry_type : value -> bool :=
  struct_type
    [("name", (true, rstring)); ("options", (false, options_type)); ("data_dig", (false, rstring));
     ("data_hash", (false, rstring)); ("lookup_key", (false, rstring)); ("datadir", (false, rstring));
     ("plugindir", (false, rstring)); ("pluginfile", (false, rstring)); ("path", (false, rstring));
     ("paths", (false, rstrings (Nat.leb 1))); ("glob", (false, rstring)); ("globs", (false, rstrings (Nat.leb 1)));
     ("uri", (false, rstring)); ("uris", (false, rstrings (Nat.leb 1)));
     ("mapped_paths", (false, rstrings (Nat.eqb 3)))].

(** An array of entries. *)
Definition hierarchy_type (v : value) : bool :=
  match v with VArr l => forallb entry_type l | _ => false end.

(** cfgType.Instance, /repo/config/config.go:58-63 and :98. *)
Definition cfg_type : value -> bool :=
  struct_type
    [("version", (true, veq (VInt 5))); ("defaults", (false, defaults_type));
     ("hierarchy", (false, hierarchy_type)); ("default_hierarchy", (false, hierarchy_type))].

(** ** Creating a configuration *)

(** String() of a dgo string; the schema guarantees strings where it is used
    below (/repo/config/config.go:187, :206-236, /repo/config/entry.go:77). *)
Definition as_string (v : value) : outcome string :=
  match v with VStr s => Ok s | _ => Panic bad_assert end.

(** FunctionKeys, LocationKeys and ReservedOptionKeys,
    /repo/config/entry.go:29-39. *)
Definition function_keys : list string := ["data_dig"; "data_hash"; "lookup_key"].
Definition location_keys : list string := ["path"; "paths"; "glob"; "globs"; "uri"; "uris"; "mapped_paths"].
Definition reserved_keys : list string := ["path"; "uri"].

(** api.FunctionKind(ks), /repo/config/entry.go:77. *)
Definition kind_of (ks : string) : fkind :=
  if String.eqb ks "data_dig" then KDataDig else if String.eqb ks "data_hash" then KDataHash else KLookupKey.

(** The check of option keys, /repo/config/entry.go:67-72. *)
Fixpoint check_reserved (name : string) (m : entries) : outcome unit :=
  match m with
  | [] => Ok tt
  | (k, _) :: r =>
      obind (as_string k) (fun ks =>
        if contains_string reserved_keys ks
        then Panic (EErr ("option key '" ++ ks ++ "' used in hierarchy '" ++ name ++ "' is reserved by Hiera"))
        else check_reserved name r)
  end.

(** entry.initialize, /repo/config/entry.go:61-80. *)
Fixpoint initialize (name : string) (m : entries) (e : entry) : outcome entry :=
  match m with
  | [] => Ok e
  | (k, v) :: r =>
      obind (as_string k) (fun ks =>
        if String.eqb ks "options" then
          match v with
          | VMap o => obind (check_reserved name o) (fun _ => initialize name r (set_options (Some o) e))
          | _ => Panic bad_assert
          end
        else if contains_string function_keys ks then
          match e_function e with
          | Some _ => Panic (EErr ("only one of " ++ join ", " function_keys ++ " can be defined in hierarchy '" ++ name ++ "'"))
          | None => obind (as_string v) (fun n => initialize name r (set_function (Some (mk_fdef (kind_of ks) n)) e))
          end
        else initialize name r e)
  end.

(** The strings of an array, /repo/config/config.go:219-233. *)
Fixpoint strings_of (l : list value) : outcome (list string) :=
  match l with
  | [] => Ok []
  | v :: r => obind (as_string v) (fun s => obind (strings_of r) (fun ss => Ok (s :: ss)))
  end.
Definition array_strings (v : value) : outcome (list string) :=
  match v with VArr l => strings_of l | _ => Panic bad_assert end.

(** NewPath and NewURI, /repo/config/path.go:43-45 and /repo/config/uri.go:38-40. *)
Definition new_path (o : string) : location := LPath o "" false.
Definition new_uri (o : string) : location := LUri o "".

(** The locations made from one of the location keys,
    /repo/config/config.go:215-237. *)
Definition make_locations (ks : string) (v : value) : outcome (list location) :=
  if String.eqb ks "path" then omap (fun s => [new_path s]) (as_string v)
  else if String.eqb ks "paths" then omap (map new_path) (array_strings v)
  else if String.eqb ks "glob" then omap (fun s => [LGlob s]) (as_string v)
  else if String.eqb ks "globs" then omap (map LGlob) (array_strings v)
  else if String.eqb ks "uri" then omap (fun s => [new_uri s]) (as_string v)
  else if String.eqb ks "uris" then omap (map new_uri) (array_strings v)
  else obind (array_strings v) (fun l =>
         match l with
         | a :: b :: c :: _ => Ok [LMapped a b c]
         | _ => Panic (EErr "runtime error: index out of range")
         end).

(** The loop of createEntry, /repo/config/config.go:201-239. *)
Fixpoint entry_fields (name : string) (m : entries) (e : entry) : outcome entry :=
  match m with
  | [] => Ok e
  | (k, v) :: r =>
      obind (as_string k) (fun ks =>
        if String.eqb ks "datadir" then obind (as_string v) (fun s => entry_fields name r (set_datadir s e))
        else if String.eqb ks "plugindir" then obind (as_string v) (fun s => entry_fields name r (set_plugindir s e))
        else if String.eqb ks "pluginfile" then obind (as_string v) (fun s => entry_fields name r (set_pluginfile s e))
        else if contains_string location_keys ks then
          match e_locations e with
          | Some _ => Panic (EErr ("only one of " ++ join ", " location_keys ++ " can be defined in hierarchy '" ++ name ++ "'"))
          | None => obind (make_locations ks v) (fun ls => entry_fields name r (set_locations (Some ls) e))
          end
        else entry_fields name r e)
  end.

(** createEntry, /repo/config/config.go:198-241. *)
Definition create_entry (name : string) (m : entries) : outcome entry :=
  obind (initialize name m (mk_entry "" "" "" None None name None)) (entry_fields name m).

(** createHierarchy, /repo/config/config.go:180-196. *)
Fixpoint create_hierarchy (names : list string) (l : list value) : outcome (list entry) :=
  match l with
  | [] => Ok []
  | VMap m :: r =>
      obind (match mgets "name" m with Some nv => as_string nv | None => Ok "" end) (fun name =>
        if contains_string names name
        then Panic (EErr ("hierarchy name '" ++ name ++ "' defined more than once"))
        else obind (create_entry name m) (fun e =>
               obind (create_hierarchy (name :: names) r) (fun es => Ok (e :: es))))
  | _ :: _ => Panic bad_assert
  end.

(** defaultDataDir and defaultPluginDir, /repo/config/config.go:127-141. *)
Definition default_datadir (env : environ) : string :=
  match lookup_env env "HIERA_DATADIR" with Some d => d | None => "data" end.
Definition default_plugindir (env : environ) : string :=
  match lookup_env env "HIERA_PLUGINDIR" with Some d => d | None => "plugin" end.

(** makeDefaultConfig, /repo/config/config.go:143-150. *)
Definition default_config (env : environ) : entry :=
  mk_entry (default_datadir env) (default_plugindir env) "" None (Some (mk_fdef KDataHash "yaml_data")) "" None.

(** makeDefaultHierarchy, /repo/config/config.go:152-158. *)
Definition default_hierarchy : list entry :=
  [mk_entry "." "" "" None None "Root" (Some [new_path "data.yaml"]);
   mk_entry "" "" "" None None "Common" (Some [new_path "common.yaml"])].

(** createConfig, /repo/config/config.go:105-125. *)
Definition create_config (env : environ) (path : string) (m : entries) : outcome config :=
  obind (match mgets "defaults" m with
         | Some (VMap d) => create_entry "defaults" d
         | Some _ => Panic bad_assert
         | None => Ok (default_config env)
         end) (fun defs =>
  obind (match mgets "hierarchy" m with
         | Some (VArr l) => create_hierarchy [] l
         | Some _ => Panic bad_assert
         | None => Ok default_hierarchy
         end) (fun h =>
  obind (match mgets "default_hierarchy" m with
         | Some (VArr l) => create_hierarchy [] l
         | Some _ => Panic bad_assert
         | None => Ok []
         end) (fun dh =>
  Ok (mk_config (dir path) path defs h dh)))).

(** What reading and parsing the configuration file gives: the two library
    calls at /repo/config/config.go:78 and :93. *)
Inductive cfg_file : Type :=
| CfMissing
| CfError (e : err)
| CfYaml (v : value).

(** New, /repo/config/config.go:77-103.  The text of the schema error is left
    out. *)
Definition config_new (env : environ) (path : string) (content : cfg_file) : outcome config :=
  match content with
  | CfMissing => Ok (mk_config (dir path) "" (default_config env) default_hierarchy [])
  | CfError e => Panic e
  | CfYaml (VMap m) =>
      if cfg_type (VMap m) then create_config env path m
      else Panic (EErr "the configuration does not match the schema")
  | CfYaml _ => Panic bad_assert
  end.

(** ** Resolving an entry *)

Section Resolve.
  Context {S : Type}.
  Open Scope monad_scope.
  (** InterpolateString(s, false), Interpolate(v, false) and
      InterpolateInScope(s, false) of the invocation. *)
  Variable interp_string : string -> M S (option value * bool).
  Variable interp_value : value -> M S (option value).
  Variable in_scope : string -> M S (option value).
  (** DoWithScope(&scopeWithVar{ic.Scope(), key, value}, doer),
      /repo/config/mappedpaths.go:104. *)
  Variable with_var : string -> value -> M S location -> M S location.
  (** os.Stat(path) succeeds; doublestar.Glob(pattern). *)
  Variable stat : string -> M S bool.
  Variable glob : string -> M S (list string).
  (** String() of a value; nil has no String. *)
  Variable show : value -> string.
  Variable env : environ.
  (** The root of the configuration, e.cfg.root. *)
  Variable root : string.

  (** r.String() of a possibly nil result. *)
  Definition show_opt (o : option value) : M S string :=
    match o with Some v => ret (show v) | None => panic nil_deref end.

  (** function.Resolve, /repo/config/function.go:22-27. *)
  Definition function_resolve (f : fdef) : M S fdef :=
    r <- interp_string (f_name f) ;;
    if snd r then n <- show_opt (fst r) ;; ret (mk_fdef (f_kind f) n) else ret f.

  (** resolveFunction, /repo/config/entry.go:96-110.  The third case cannot
      happen: the defaults are resolved first and then have a function. *)
  Definition resolve_function (defaults : option entry) (e : entry) : M S entry :=
    f <- match e_function e with
         | None => match defaults with
                   | None => ret (Some (mk_fdef KDataHash "yaml_data"))
                   | Some d => ret (e_function d)
                   end
         | Some f => f' <- function_resolve f ;; ret (Some f')
         end ;;
    match f with
    | None => panic (EErr ("one of " ++ join ", " function_keys ++ " must be defined in hierarchy '" ++ e_name e ++ "'"))
    | Some _ => ret (set_function f e)
    end.

  (** Interpolate a directory, /repo/config/entry.go:121-123 and :135-137. *)
  Definition interp_dir (d : string) : M S string :=
    r <- interp_string d ;; if snd r then show_opt (fst r) else ret d.

  (** resolveDataDir, /repo/config/entry.go:112-125.  It resolves the function
      once more. *)
  Definition resolve_datadir (defaults : option entry) (e0 : entry) : M S entry :=
    e <- resolve_function defaults e0 ;;
    if String.eqb (e_datadir e) "" then
      ret (set_datadir (match defaults with None => default_datadir env | Some d => e_datadir d end) e)
    else
      d <- interp_dir (e_datadir e) ;; ret (set_datadir d e).

  (** resolvePluginDir, /repo/config/entry.go:127-142. *)
  Definition resolve_plugindir (defaults : option entry) (e : entry) : M S entry :=
    d <- (if String.eqb (e_plugindir e) "" then
            ret (match defaults with None => default_plugindir env | Some d => e_plugindir d end)
          else interp_dir (e_plugindir e)) ;;
    ret (set_plugindir (if is_abs d then d else join2 root d) e).

  (** resolveOptions, /repo/config/entry.go:144-155. *)
  Definition resolve_options (defaults : option entry) (e : entry) : M S entry :=
    o <- match e_options e with
         | None => ret (match defaults with Some d => e_options d | None => None end)
         | Some [] => ret (Some [])
         | Some m =>
             r <- interp_value (VMap m) ;;
             match r with
             | Some (VMap m') => ret (Some m')
             | _ => panic bad_assert
             end
         end ;;
    ret (set_options (Some (match o with Some m => m | None => [] end)) e).

  (** The elements mapped over, /repo/config/mappedpaths.go:91-100. *)
  Definition mapped_vars (v : option value) : list value :=
    match v with
    | Some (VStr s) => [VStr s]
    | Some (VArr l) => l
    | _ => []
    end.

  (** The loop of mappedPaths.Resolve, /repo/config/mappedpaths.go:103-110. *)
  Fixpoint resolve_mapped (data_root key template : string) (l : list value) : M S (list location) :=
    match l with
    | [] => ret []
    | mv :: r =>
        p <- with_var key mv
               (x <- interp_string template ;;
                s <- show_opt (fst x) ;;
                ok <- stat (join2 data_root s) ;;
                ret (LPath template (join2 data_root s) ok)) ;;
        ps <- resolve_mapped data_root key template r ;;
        ret (p :: ps)
    end.

  (** Location.Resolve: /repo/config/path.go:75-80, /repo/config/glob.go:63-72, /repo/config/uri.go:74-77 and
      /repo/config/mappedpaths.go:90-112, all in /repo/config. *)
  Definition resolve_location (data_root : string) (l : location) : M S (list location) :=
    match l with
    | LPath o _ _ =>
        x <- interp_string o ;;
        s <- show_opt (fst x) ;;
        ok <- stat (join2 data_root s) ;;
        ret [LPath o (join2 data_root s) ok]
    | LGlob p =>
        x <- interp_string p ;;
        s <- show_opt (fst x) ;;
        ms <- glob (join2 data_root s) ;;
        ret (map (fun m => LPath p m true) ms)
    | LUri o _ =>
        x <- interp_string o ;;
        s <- show_opt (fst x) ;;
        ret [LUri o s]
    | LMapped src key template =>
        v <- in_scope src ;;
        resolve_mapped data_root key template (mapped_vars v)
    end.

  (** The loop of resolveLocations, /repo/config/entry.go:165-168. *)
  Fixpoint resolve_all (data_root : string) (ls : list location) : M S (list location) :=
    match ls with
    | [] => ret []
    | l :: r => a <- resolve_location data_root l ;; b <- resolve_all data_root r ;; ret (a ++ b)%list
    end.

  (** resolveLocations, /repo/config/entry.go:157-171. *)
  Definition resolve_locations (e : entry) : M S entry :=
    let data_root := if is_abs (e_datadir e) then e_datadir e else join2 root (e_datadir e) in
    match e_locations e with
    | None => ret e
    | Some ls => ne <- resolve_all data_root ls ;; ret (set_locations (Some ne) e)
    end.

  (** entry.Resolve, /repo/config/entry.go:173-184. *)
  Definition entry_resolve (defaults : option entry) (e : entry) : M S entry :=
    e <- resolve_function defaults e ;;
    e <- resolve_datadir defaults e ;;
    e <- resolve_plugindir defaults e ;;
    e <- resolve_options defaults e ;;
    resolve_locations e.
End Resolve.
