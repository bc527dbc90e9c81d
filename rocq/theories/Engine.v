(** Model of the lookup engine: /repo/session/interpolate.go,
    /repo/session/invocation.go, /repo/session/resolvedconfig.go,
    LoadFunction of /repo/session/session.go, the providers of /repo/internal and
    the functions of /repo/provider. *)

From Coq Require Import String List ZArith Bool Arith.
From Verif Require Import Str Value Outcome Key Merge Fpath Loader Config Ipl Explain State.
Import ListNotations.
Open Scope string_scope.
Open Scope bool_scope.

(** A call that may lead back to itself: InterpolateString
    (/repo/session/interpolate.go:115), Lookup (/repo/session/invocation.go:243)
    and MuxLookupKey (/repo/provider/muxlookupkey.go:21). *)
Inductive req : Type :=
| RStr (s : string) (allow : bool)
| RLookup (k : key) (opts : option entries)
| RMux (opts : entries) (key : string).

(** Result of a call: a possibly nil value and the changed flag of
    InterpolateString. *)
Definition res : Type := option value * bool.

(** FullName of a provider, /repo/internal/datadigprovider.go:54-56,
    /repo/internal/datahashprovider.go:103-105 and /repo/internal/lookupkeyprovider.go:61-63. *)
Definition full_name (f : fdef) : string :=
  (match f_kind f with KDataDig => "data_dig" | KDataHash => "data_hash" | KLookupKey => "lookup_key" end)
  ++ " function '" ++ f_name f ++ "'".

(** optionsWithLocation, /repo/internal/datahashprovider.go:113-115. *)
Definition options_with_location (opts : entries) (loc : string) : entries :=
  mmerge opts [(VStr "path", VStr loc)].

(** A dgo.Map or nil out of a value. *)
Definition as_map (v : option value) : option entries :=
  match v with Some (VMap m) => Some m | _ => None end.

(** LookupOptions, /repo/session/resolvedconfig.go:54-62. *)
Definition lookup_options (c : rconfig) (k : key) : outcome (option entries) :=
  obind (root k) (fun r =>
    match rc_luopts c with
    | Some m =>
        if String.eqb (rc_module c) "" || has_prefix (rc_module c ++ "::") r
        then Ok (as_map (mgets r m)) else Ok None
    | None => Ok None
    end).

(** The strategy selected by SetMergeStrategy from the merge option,
    /repo/session/invocation.go:168-180: name and options. *)
Definition merge_spec (opts : option value) : string * option entries :=
  match opts with
  | Some (VStr n) => (n, None)
  | Some (VMap m) =>
      match mgets "strategy" m with
      | Some (VStr n) => (n, Some (mwithout (VStr "strategy") m))
      | _ => ("", None)
      end
  | _ => ("first", None)
  end.

(** The type text and the arguments in lookup option convert_to,
    /repo/session/invocation.go:125-148; the text must be a string (:151). *)
Definition conversion (lo : option entries) : option (value * option (list value)) :=
  match lo with
  | None => None
  | Some m =>
      match mgets "convert_to" m with
      | None => None
      | Some (VArr []) => None
      | Some (VArr [t]) => Some (t, None)
      | Some (VArr (t :: a)) => Some (t, Some a)
      | Some t => Some (t, None)
      end
  end.

(** em.Put over os.Environ, /repo/provider/environment.go:18-25. *)
Definition env_map (env : environ) : entries :=
  fold_left (fun m e => if String.eqb (fst e) "" then m else mput (VStr (fst e)) (VStr (snd e)) m) env [].

(** Environment, /repo/provider/environment.go:16-34. *)
Definition environment (env : environ) (k : string) : option value :=
  if String.eqb k "env" then Some (VMap (env_map env))
  else match strip_prefix "env::" k with
       | Some n => if String.eqb n "" then None
                   else match lookup_env env n with Some v => Some (VStr v) | None => None end
       | None => None
       end.

(** The path of a plugin, /repo/session/session.go:164-182 (not on Windows). *)
Definition plugin_path (cwd : string) (e : entry) (n : string) : string :=
  let file := if String.eqb (e_pluginfile e) "" then n else e_pluginfile e in
  if is_abs file then clean file
  else let p := clean (join2 (e_plugindir e) file) in
       if is_abs p then clean p else join2 cwd p.

(** The entry of a directory that is the module looked for,
    /repo/provider/modulelookupkey.go:91-97: the first one with the name,
    disregarding case. *)
Definition find_module (l : list (string * bool)) (name : string) : option (string * bool) :=
  find (fun e => equal_fold (fst e) name) l.

Section Engine.
  Open Scope monad_scope.
  Variable w : world.
  (** The calls that may lead back. *)
  Variable rec : req -> M st res.

  (** String() of a value.  The text of null, floats, arrays, maps and
      sensitive values is left to the world. *)
  Definition vstring (v : value) : string :=
    match v with
    | VStr s => s
    | VInt z => show_int z
    | VBool true => "true"
    | VBool false => "false"
    | _ => w_show w v
    end.

  (** Ask the world. *)
  Definition ask {A} (e : event) (f : list event -> A) : M st A :=
    t <- run_op (OAsk e) ;; ret (f t).

  (** *** Interpolation *)

  (** doInterpolate, /repo/session/interpolate.go:32-69. *)
  Fixpoint do_interp (allow : bool) (v : value) : M st res :=
    match v with
    | VStr s => rec (RStr s allow)
    | VArr l =>
        r <- (fix each (l : list value) : M st (list value * bool) :=
                match l with
                | [] => ret ([], false)
                | x :: t =>
                    p <- do_interp allow x ;;
                    q <- each t ;;
                    ret ((if snd p then nil_to_null (fst p) else x) :: fst q, snd p || snd q)
                end) l ;;
        ret (Some (VArr (if snd r then fst r else l)), snd r)
    | VMap m =>
        r <- (fix each (m : entries) (cp : entries) : M st (entries * bool) :=
                match m with
                | [] => ret (cp, false)
                | (k, v) :: t =>
                    p <- do_interp allow k ;;
                    q <- do_interp allow v ;;
                    r <- each t (mput (nil_to_null (fst p)) (nil_to_null (fst q)) cp) ;;
                    ret (fst r, snd p || snd q || snd r)
                end) m [] ;;
        ret (Some (VMap (if snd r then fst r else m)), snd r)
    | _ => ret (Some v, false)
    end.

  (** Interpolate, /repo/session/interpolate.go:25-30. *)
  Definition interpolate (allow : bool) (v : value) : M st (option value) :=
    r <- do_interp allow v ;; ret (if snd r then fst r else Some v).

  (** One step of Dig, /repo/api/key.go:84-108. *)
  Definition dig_step (p : part) (v : option value) : M st (option value) :=
    run_scoped (SNode (NSegment p) "")
      (match (match v with Some x => dig_part p x | None => None end) with
       | Some x => run_op (OReport (RFound (part_string p) (Some x))) ;;; ret (Some x)
       | None => run_op (OReport (RNotFound (part_string p))) ;;; ret None
       end).

  (** The loop of Dig, /repo/api/key.go:82-112. *)
  Fixpoint dig_loop (ps : list part) (v : option value) : M st (option value) :=
    match ps with
    | [] => ret v
    | p :: r => x <- dig_step p v ;; match x with Some _ => dig_loop r x | None => ret None end
    end.

  (** Dig, /repo/api/key.go:75-115. *)
  Definition dig_in (k : key) (v : option value) : M st (option value) :=
    match tl (k_parts k) with
    | [] => ret v
    | ps => run_scoped (SNode (NSubLookup k) "") (dig_loop ps v)
    end.

  (** InterpolateInScope, /repo/session/interpolate.go:161-168. *)
  Definition in_scope (allow : bool) (expr : string) : M st (option value) :=
    k <- lift (new_key expr) ;;
    r <- lift (root k) ;;
    sc <- run_op OScope ;;
    match scope_get sc r with
    | Some v => x <- do_interp allow v ;; dig_in k (fst x)
    | None => ret None
    end.

  (** The text of a possibly nil value, /repo/session/interpolate.go:137-140 and
      :147-150. *)
  Definition text_of (v : option value) : string :=
    match v with Some x => vstring x | None => "" end.

  (** The callback of ReplaceAllStringFunc over the pieces of [str],
      /repo/session/interpolate.go:123-152.  [acc] is the text produced, [m] and
      [result] the variables methodKey and result. *)
  Fixpoint istr_loop (str : string) (allow : bool) (ts : list token)
           (acc : string) (m : ipl_method) (result : option value) : M st (string * ipl_method * option value) :=
    match ts with
    | [] => ret (acc, m, result)
    | TLit l :: r => istr_loop str allow r (acc ++ l) m result
    | TExpr e :: r =>
        let expr := trim_space e in
        if empty_interpolation expr then istr_loop str allow r acc m result
        else
          md <- lift (method_and_data expr allow) ;;
          if is_alias (fst md) && negb (String.eqb ("%{" ++ e ++ "}") str) then panic alias_misplaced
          else
            match fst md with
            | MLiteral => istr_loop str allow r (acc ++ snd md) MLiteral result
            | MScope =>
                v <- in_scope allow (snd md) ;;
                istr_loop str allow r (acc ++ text_of v) MScope result
            | MLookup =>
                k <- lift (new_key (snd md)) ;;
                v <- rec (RLookup k None) ;;
                istr_loop str allow r (acc ++ text_of (fst v)) MLookup result
            | al =>
                k <- lift (new_key (snd md)) ;;
                v <- rec (RLookup k None) ;;
                istr_loop str allow r acc al (fst v)
            end
    end.

  (** InterpolateString, /repo/session/interpolate.go:115-158. *)
  Definition istr (s : string) (allow : bool) : M st res :=
    if negb (contains "%{" s) then ret (Some (VStr s), false)
    else
      v <- run_scoped (SNode (NInterpolate s) "")
             (x <- istr_loop s allow (tokens s) "" MScope None ;;
              match x with
              | (acc, m, result) =>
                  ret (match result, m with
                       | None, MStrictAlias => None
                       | None, _ => Some (VStr acc)
                       | Some v, _ => Some v
                       end)
              end) ;;
      ret (v, true).

  (** *** User functions *)

  (** A user function running with the current invocation,
      /repo/session/serverctx.go:14-55. *)
  Fixpoint run_prog (p : prog) : M st (option value) :=
    match p with
    | PRet v => ret v
    | PPanic e => panic e
    | PInterpolate v k => x <- interpolate true v ;; run_prog (k x)
    | PLookup key o k => ky <- lift (new_key key) ;; x <- rec (RLookup ky o) ;; run_prog (k (fst x))
    | PCache key v k => old <- run_op (OCached key) ;; run_op (OCache key v) ;;; run_prog (k old)
    | PCached key k => x <- run_op (OCached key) ;; run_prog (k x)
    | PScope key k => sc <- run_op OScope ;; run_prog (k (scope_get sc key))
    | PMode k => m <- run_op OMode ;; run_prog (k m)
    | PExplain t k => run_op (OReport (RText t)) ;;; run_prog k
    end.

  (** Call a user function. *)
  Definition call_fn (f : fnref) (a : args) : M st (option value) :=
    p <- ask (EvCall f a) (fun t => w_call w t f a) ;; run_prog p.

  (** LoadFunction, /repo/session/session.go:156-194. *)
  Definition load_function (e : entry) (n : string) : M st (option fnref) :=
    here <- ask (EvFun n) (fun t => w_fun w t n) ;;
    if here then ret (Some (FnSession n))
    else
      match loader_path (plugin_path (w_cwd w) e n) with
      | None => ret None
      | Some path =>
          o <- ask (EvPlugin path n) (fun t => w_plugin w t path n) ;;
          found <- lift o ;;
          ret (if (found : bool) then Some (FnPlugin path n) else None)
      end.

  (** *** Providers *)

  (** The options passed to a provider function,
      /repo/internal/datahashprovider.go:78-82. *)
  Definition entry_options (e : entry) : entries := match e_options e with Some o => o | None => [] end.
  Definition provider_options (e : entry) (loc : option location) : M st entries :=
    match loc with
    | None => ret (entry_options e)
    | Some l => r <- lift (loc_resolved l) ;; ret (options_with_location (entry_options e) r)
    end.

  (** loadFunction of the three providers,
      /repo/internal/datahashprovider.go:50-74, /repo/internal/lookupkeyprovider.go:44-59,
      /repo/internal/datadigprovider.go:43-52. *)
  Definition load_provider (e : entry) (f : fdef) : M st loaded :=
    let n := f_name f in
    let other :=
      x <- load_function e n ;;
      match x with
      | Some r => ret (LdFn r)
      | None => run_op (OReport (RText ("unresolved function '" ++ n ++ "'"))) ;;; ret LdNone
      end in
    match f_kind f with
    | KDataHash =>
        if String.eqb n "yaml_data" then ret LdYaml else if String.eqb n "json_data" then ret LdJson else other
    | KLookupKey =>
        if String.eqb n "environment" then ret LdEnv else if String.eqb n "scope" then ret LdScope else other
    | KDataDig => other
    end.

  (** providerFunction, /repo/internal/datahashprovider.go:43-48,
      /repo/internal/lookupkeyprovider.go:37-42, /repo/internal/datadigprovider.go:36-41. *)
  Definition provider_function (id : nat) (e : entry) (f : fdef) : M st loaded :=
    x <- run_op (OFn id) ;;
    match x with
    | Some l => ret l
    | None => l <- load_provider e f ;; run_op (OSetFn id l) ;;; ret l
    end.

  (** YamlData and JSONData, /repo/provider/yamldata.go:16-37 and
      /repo/provider/jsondata.go:15-33. *)
  Definition file_data (json : bool) (opts : entries) : M st entries :=
    match mgets "path" opts with
    | None => panic (EErr "missing required provider option 'path'")
    | Some pv =>
        let p := vstring pv in
        c <- (if json then ask (EvJson p) (fun t => w_json w t p) else ask (EvYaml p) (fun t => w_yaml w t p)) ;;
        match c with
        | DfMissing => ret []
        | DfError e => panic e
        | DfValue (VMap m) => ret m
        | DfValue _ =>
            panic (EErr ("file '" ++ p ++ "' does not contain a " ++ (if json then "JSON object" else "YAML hash")))
        end
    end.

  (** Call the function of a data_hash provider,
      /repo/internal/datahashprovider.go:52-73. *)
  Definition call_hash (l : loaded) (opts : entries) : M st entries :=
    match l with
    | LdYaml => file_data false opts
    | LdJson => file_data true opts
    | LdFn f => v <- call_fn f (ADataHash opts) ;;
                ret (match v with Some (VMap m) => m | _ => [] end)
    | _ => ret []
    end.

  (** The part of dataHash that holds the lock,
      /repo/internal/datahashprovider.go:92-100: [m] is the call of the function
      at :98. *)
  Definition fill (id : nat) (k : string) (m : M st entries) : M st entries :=
    run_scoped (SLocked id)
      (h <- run_op (OHash id k) ;;
       match h with
       | Some m => ret m
       | None => x <- m ;; run_op (OPutHash id k x) ;;; ret x
       end).

  (** dataHash, /repo/internal/datahashprovider.go:76-101. *)
  Definition data_hash (id : nat) (e : entry) (f : fdef) (loc : option location) : M st entries :=
    k <- match loc with None => ret "" | Some l => lift (loc_resolved l) end ;;
    opts <- provider_options e loc ;;
    h <- run_scoped (SLocked id) (run_op (OHash id k)) ;;
    match h with
    | Some m => ret m
    | None => fill id k (l <- provider_function id e f ;; call_hash l opts)
    end.

  (** ScopeLookupKey, /repo/provider/scopelookupkey.go:10-16. *)
  Definition scope_lookup (k : string) : M st (option value) :=
    sc <- run_op OScope ;; ret (scope_get sc k).

  (** Call the function of a lookup_key provider,
      /repo/internal/lookupkeyprovider.go:44-59. *)
  Definition call_key (l : loaded) (opts : entries) (k : string) : M st (option value) :=
    match l with
    | LdEnv => ret (environment (w_env w) k)
    | LdScope => scope_lookup k
    | LdFn f => call_fn f (ALookupKey opts k)
    | _ => ret None
    end.

  (** Call the function of a data_dig provider,
      /repo/internal/datadigprovider.go:43-52.  The function gets the parts of
      the key and, instead of its options, the invocation (:47); what it could
      do with the invocation is left out. *)
  Definition call_dig (l : loaded) (ps : list part) : M st (option value) :=
    match l with
    | LdFn f => o <- ask (EvDig f ps) (fun t => w_dig w t f ps) ;; lift o
    | _ => ret None
    end.

  (** ReportFound or ReportNotFound. *)
  Definition report_found (k : string) (v : option value) : M st unit :=
    match v with
    | Some x => run_op (OReport (RFound k (Some x)))
    | None => run_op (OReport (RNotFound k))
    end.

  (** LookupKey of the three providers, /repo/internal/datahashprovider.go:25-41,
      /repo/internal/lookupkeyprovider.go:22-35, /repo/internal/datadigprovider.go:21-34. *)
  Definition provider_lookup (k : key) (p : provider) (loc : option location) : M st (option value) :=
    let e := p_entry p in
    match e_function e with
    | None => panic nil_deref
    | Some f =>
        match f_kind f with
        | KDataHash =>
            r <- lift (root k) ;;
            h <- data_hash (p_id p) e f loc ;;
            v <- match mgets r h with None => ret None | Some v => interpolate true v end ;;
            report_found r v ;;; ret v
        | KLookupKey =>
            r <- lift (root k) ;;
            opts <- provider_options e loc ;;
            l <- provider_function (p_id p) e f ;;
            v <- call_key l opts r ;;
            report_found r v ;;; ret v
        | KDataDig =>
            opts <- provider_options e loc ;;
            l <- provider_function (p_id p) e f ;;
            v <- call_dig l (k_parts k) ;;
            match v with
            | Some x => report_found (k_source k) v ;;; ret (Some (bury k x))
            | None => report_found (k_source k) None ;;; ret None
            end
        end
    end.

  (** *** Merging over the hierarchy *)

  (** WithMerge and ReportMergeResult, /repo/session/invocation.go:345-352 and
      :434-438. *)
  Definition with_merge (s : strategy) (m : M st (option value)) : M st (option value) :=
    run_scoped (SNode (NMerge s) "") m.
  Definition report_result (v : value) : M st unit := run_op (OReport (RMergeResult v)).
  Definition merging {L} (s : strategy) (vs : list L) (f : L -> M st (option value)) : M st (option value) :=
    merge_lookup with_merge report_result f s vs.

  (** invokeWithLocation, /repo/session/invocation.go:230-241. *)
  Definition invoke (k : key) (p : provider) (l : location) : M st (option value) :=
    run_scoped (SNode (NLocation l) "")
      (if loc_exists l then provider_lookup k p (Some l)
       else run_op (OReport RLocationNotFound) ;;; ret None).

  (** MergeLocations, /repo/session/invocation.go:211-228. *)
  Definition merge_locations (k : key) (s : strategy) (p : provider) : M st (option value) :=
    match e_function (p_entry p) with
    | None => panic nil_deref
    | Some f =>
        run_scoped (SNode (NProvider (full_name f)) "")
          (match e_locations (p_entry p) with
           | None => provider_lookup k p None
           | Some [] => ret None
           | Some [l] => invoke k p l
           | Some ls => merging s ls (invoke k p)
           end)
    end.

  (** MergeHierarchy, /repo/session/invocation.go:204-209.  A nil strategy gives
      a nil dereference. *)
  Definition merge_hierarchy (k : key) (ps : list provider) (s : option strategy) : M st (option value) :=
    match s with
    | None => panic nil_deref
    | Some s => merging s ps (merge_locations k s)
    end.

  (** *** Configurations *)

  (** A provider for an entry: CreateProvider,
      /repo/session/resolvedconfig.go:23-32. *)
  Definition create_provider (e : entry) : M st provider :=
    match e_function e with
    | None => panic nil_deref
    | Some _ => id <- run_op OAlloc ;; ret (mk_provider id e)
    end.

  (** entry.Resolve with what it uses of the invocation and the world. *)
  Definition resolve_entry (root : string) (defaults : option entry) (e : entry) : M st entry :=
    entry_resolve (fun s => rec (RStr s false))
                  (interpolate false)
                  (in_scope false)
                  (fun k v m => sc <- run_op OScope ;; run_scoped (SScope (ScVar sc k v)) m)
                  (fun p => ask (EvStat p) (fun t => w_stat w t p))
                  (fun p => ask (EvGlob p) (fun t => w_glob w t p))
                  vstring (w_env w) root defaults e.

  (** The loop of CreateProviders, /repo/session/resolvedconfig.go:87-89. *)
  Fixpoint create_each (root : string) (defaults : entry) (es : list entry) : M st (list provider) :=
    match es with
    | [] => ret []
    | e :: r =>
        e' <- resolve_entry root (Some defaults) e ;;
        p <- create_provider e' ;;
        ps <- create_each root defaults r ;;
        ret (p :: ps)
    end.

  (** CreateProviders, /repo/session/resolvedconfig.go:84-91. *)
  Definition create_providers (c : config) (es : list entry) : M st (list provider) :=
    d <- resolve_entry (c_root c) None (c_defaults c) ;;
    create_each (c_root c) d es.

  (** Resolve, /repo/session/resolvedconfig.go:36-40 and :64-82. *)
  Definition resolve_config (c : config) (module : string) : M st rconfig :=
    pd <- run_scoped SConfig
            (ps <- create_providers c (c_hierarchy c) ;;
             ds <- create_providers c (c_default_hierarchy c) ;;
             ret (ps, ds)) ;;
    k <- lift (new_key "lookup_options") ;;
    v <- run_scoped SLookup
           (run_scoped (SNode NLookup (k_source k))
              (merging (SDeep []) (fst pd) (merge_locations k (SDeep [])))) ;;
    ret (mk_rconfig c (fst pd) (snd pd) (as_map v) module).

  (** Loading a configuration the first time,
      /repo/session/invocation.go:85-106. *)
  Definition load_config (path : string) : M st config :=
    run_op (OSetShared path ShLocked) ;;;
    f <- ask (EvConfig path) (fun t => w_config w t path) ;;
    c <- lift (config_new (w_env w) path f) ;;
    run_op (OSetShared path (ShLoaded c)) ;;;
    ret c.

  (** The configuration in the shared cache, loaded when it is not there,
      /repo/session/invocation.go:76-107.  With one goroutine, waiting for a
      lock left behind by a failed load blocks for ever. *)
  Definition shared_config (path : string) : M st config :=
    sh <- run_op (OShared path) ;;
    match sh with
    | Some (ShLoaded c) => ret c
    | Some ShLocked => hang
    | None => load_config path
    end.

  (** Config, /repo/session/invocation.go:66-111. *)
  Definition get_config (path0 module : string) : M st rconfig :=
    let path := if String.eqb path0 "" then w_cfgpath w else path0 in
    x <- run_op (OConfig path) ;;
    match x with
    | Some rc => ret rc
    | None =>
        c <- shared_config path ;;
        rc <- resolve_config c module ;;
        run_op (OSetConfig path rc) ;;;
        ret rc
    end.

  (** *** Lookup options *)

  (** SetMergeStrategy, /repo/session/invocation.go:157-183. *)
  Definition set_merge (cli : option value) (lo : option entries) : M st unit :=
    opts <- match cli, lo with
            | Some v, _ => run_op (OReport (RMergeSource "CLI option")) ;;; ret (Some v)
            | None, Some m =>
                match mgets "merge" m with
                | Some v => run_op (OReport (RMergeSource """lookup_options"" hash")) ;;; ret (Some v)
                | None => ret None
                end
            | None, None => ret None
            end ;;
    run_op (OSetLuOpts lo) ;;;
    s <- lift (get_strategy (fst (merge_spec opts)) (snd (merge_spec opts))) ;;
    run_op (OSetStrat s).

  (** extractConversion, /repo/session/invocation.go:125-155. *)
  Definition extract_conversion : M st (option (ctype * option (list value))) :=
    lo <- run_op OLuOpts ;;
    match conversion lo with
    | None => ret None
    | Some (VStr t, a) => ty <- lift (w_parse_type w t) ;; ret (Some (ty, a))
    | Some _ => panic bad_assert
    end.

  (** vf.New(convertToType, v), /repo/session/invocation.go:195-200. *)
  Definition convert (ty : ctype) (a : option (list value)) (v : value) : outcome value :=
    match ty, a with
    | CSensitive, None => Ok (VSens v)
    | _, _ => w_new w ty v (match a with Some l => l | None => [] end)
    end.

  (** LookupAndConvertData, /repo/session/invocation.go:185-202. *)
  Definition lookup_and_convert (fn : M st (option value)) : M st (option value) :=
    c <- extract_conversion ;;
    v <- match c with
         | Some (CSensitive, _) => run_scoped SRedacted fn
         | _ => fn
         end ;;
    match v, c with
    | Some x, Some (ty, a) => y <- lift (convert ty a x) ;; ret (Some y)
    | _, _ => ret v
    end.

  (** *** The functions that can be the top provider *)

  (** ConfigLookupKeyAt, /repo/provider/configlookupkey.go:20-39. *)
  Definition config_lookup_at (opts : entries) (path key module : string) : M st (option value) :=
    cfg <- get_config path module ;;
    k <- lift (new_key key) ;;
    mode <- run_op OMode ;;
    match mode with
    | MdLookup => lo <- lift (lookup_options cfg k) ;; ret (option_map VMap lo)
    | MdData => s <- run_op OStrat ;; merge_hierarchy k (rc_providers cfg) s
    | MdTop =>
        run_scoped SData
          (run_scoped (SNode NLookup (k_source k))
             (lo <- lift (lookup_options cfg k) ;;
              set_merge (mgets "merge" opts) lo ;;;
              lookup_and_convert
                (s <- run_op OStrat ;; merge_hierarchy k (rc_providers cfg) s)))
    end.

  (** loadModule, /repo/provider/modulelookupkey.go:75-112: the path of the
      configuration file of the module. *)
  Definition load_module (path name : string) : M st (option string) :=
    d <- ask (EvReadDir path) (fun t => w_readdir w t path) ;;
    match d with
    | DirMissing => ret None
    | DirError e => panic e
    | DirEntries l =>
        match find_module l name with
        | Some (fn, true) =>
            let cp := join2 (join2 path fn) "hiera.yaml" in
            f <- ask (EvLstat cp) (fun t => w_lstat w t cp) ;;
            match f with
            | LsMissing => ret None
            | LsError e => panic e
            | LsFound true => ret None
            | LsFound false => ret (Some cp)
            end
        | _ => ret None
        end
    end.

  (** The loop of loadModuleProvider, /repo/provider/modulelookupkey.go:64-69. *)
  Fixpoint load_from (paths : list string) (name : string) : M st (option string) :=
    match paths with
    | [] => ret None
    | p :: r => x <- load_module p name ;; match x with Some _ => ret x | None => load_from r name end
    end.

  (** The configuration file of a module, from moduleProviders or from
      loadModuleProvider, /repo/provider/modulelookupkey.go:29-35 and :61-73. *)
  Definition module_config (name : string) : M st (option string) :=
    known <- run_op (OMod name) ;;
    match known with
    | Some c => ret c
    | None =>
        c <- match w_modpath w with Some mp => load_from (split_list mp) name | None => ret None end ;;
        run_op (OSetMod name c) ;;;
        ret c
    end.

  (** ModuleLookupKey, /repo/provider/modulelookupkey.go:25-46. *)
  Definition module_lookup (opts : entries) (key : string) : M st (option value) :=
    match split_at "::" key with
    | Some (EmptyString, _) => ret None
    | Some (m, _) =>
        let name := to_lower m in
        cp <- module_config name ;;
        run_scoped (SNode (NModule name) "")
          (match cp with
           | None => run_op (OReport RModuleNotFound) ;;; ret None
           | Some c => config_lookup_at opts c key name
           end)
    | None => ret None
    end.

  (** YamlLookupKey, /repo/provider/yamllookupkey.go:16-29. *)
  Definition yaml_lookup (key : string) : M st (option value) :=
    c <- run_op (OCached "yaml::data") ;;
    data <- match c with
            | Some d => ret d
            | None =>
                m <- file_data false [(VStr "path", nil_to_null (w_yamlpath w))] ;;
                run_op (OCache "yaml::data" (VMap m)) ;;;
                ret (VMap m)
            end ;;
    match data with
    | VMap m => ret (mgets key m)
    | _ => panic nil_deref
    end.

  (** Call the top provider or a function of the array used by
      MuxLookupKey. *)
  Definition call_lk (f : lkfn) (opts : entries) (key : string) : M st (option value) :=
    match f with
    | LkConfig => config_lookup_at opts (w_cfgpath w) key ""
    | LkEnv => ret (environment (w_env w) key)
    | LkModule => module_lookup opts key
    | LkYaml => yaml_lookup key
    | LkScope => scope_lookup key
    | LkMux => r <- rec (RMux opts key) ;; ret (fst r)
    | LkUser n => call_fn (FnTop n) (ALookupKey opts key)
    | LkNotFun => ret None
    end.

  (** MuxLookupKey, /repo/provider/muxlookupkey.go:21-52. *)
  Definition mux_lookup (opts : entries) (key : string) : M st (option value) :=
    match w_mux w with
    | None => ret None
    | Some fs =>
        lo <- run_scoped SLookup (merging (SDeep []) fs (fun f => call_lk f opts key)) ;;
        run_scoped SData
          (k <- lift (new_key key) ;;
           run_scoped (SNode NLookup (k_source k))
             (set_merge (mgets "merge" opts) (as_map lo) ;;;
              lookup_and_convert
                (s <- run_op OStrat ;;
                 match s with
                 | None => panic nil_deref
                 | Some s => merging s fs (fun f => call_lk f opts key)
                 end)))
    end.

  (** Lookup, /repo/session/invocation.go:243-259. *)
  Definition lookup (k : key) (opts : option entries) : M st (option value) :=
    r <- lift (root k) ;;
    if String.eqb r "lookup_options" then
      run_scoped (SNode NInvalid (k_source k))
        (run_op (OReport (RNotFound (k_source k))) ;;; ret None)
    else
      v <- call_lk (w_top w) (match opts with Some o => o | None => [] end) r ;;
      match v with
      | None => ret None
      | Some x => run_scoped SData (y <- interpolate true x ;; dig_in k y)
      end.

  (** One call. *)
  Definition body (r : req) : M st res :=
    match r with
    | RStr s allow => istr s allow
    | RLookup k opts => v <- lookup k opts ;; ret (v, true)
    | RMux opts key => v <- mux_lookup opts key ;; ret (v, true)
    end.
End Engine.

(** The engine with at most [n] nested calls; the outcome [NoFuel] says that
    this was not enough. *)
Fixpoint run (w : world) (n : nat) (r : req) : M st res :=
  match n with
  | 0 => nofuel
  | S n => body w (run w n) r
  end.

(** Lookup of a key with a number of nested calls. *)
Definition run_lookup (w : world) (n : nat) (k : key) (opts : option entries) : M st (option value) :=
  bind (run w n (RLookup k opts)) (fun r => ret (fst r)).
