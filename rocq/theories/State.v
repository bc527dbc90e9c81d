(** The state of a lookup and the operations the engine is built from:
    /repo/session/invocation.go, the session caches of /repo/session/session.go
    and the fields of the providers in /repo/internal. *)

From Coq Require Import String List ZArith Bool Arith.
From Verif Require Import Str Value Outcome Key Merge Fpath Config Ipl Explain.
Import ListNotations.
Open Scope string_scope.
Open Scope bool_scope.

(** ** Scopes *)

(** dgo.Keyed as used for scopes: a map, a nestedScope
    (/repo/session/invocation.go:44-47) or a scopeWithVar
    (/repo/config/mappedpaths.go:119-123).  Simplification: scopes of other Go
    types given by the caller are taken to be maps. *)
Inductive scope : Type :=
| ScMap (m : entries)
| ScNest (parent : scope) (m : entries)
| ScVar (s : scope) (k : string) (v : value).

(** Get: dgo map, nestedScope.Get (/repo/session/invocation.go:59-64) and
    scopeWithVar.Get (/repo/config/mappedpaths.go:125-130). *)
Fixpoint scope_get (sc : scope) (k : string) : option value :=
  match sc with
  | ScMap m => mgets k m
  | ScNest p m => match mgets k m with Some v => Some v | None => scope_get p k end
  | ScVar s k' v => if String.eqb k' k then Some v else scope_get s k
  end.

(** ** The outside world *)

(** A function found by LoadFunction, /repo/session/session.go:156-194, or a
    user function installed as (part of) the top provider. *)
Inductive fnref : Type :=
| FnSession (name : string)
| FnPlugin (path name : string)
| FnTop (name : string).

(** The arguments of a data_hash function (/repo/internal/datahashprovider.go:62)
    and of a lookup_key function (/repo/internal/lookupkeyprovider.go:54); the
    options come with the provider context. *)
Inductive args : Type :=
| ADataHash (opts : entries)
| ALookupKey (opts : entries) (root : string).

(** The top provider or an element of the array in session option
    hiera::lookup::providers (/repo/provider/muxlookupkey.go:28-40): one of the
    functions of /repo/provider, a user function, or no function at all. *)
Inductive lkfn : Type :=
| LkConfig
| LkEnv
| LkModule
| LkYaml
| LkScope
| LkMux
| LkUser (name : string)
| LkNotFun.

(** invocationMode, /repo/session/invocation.go:24-30. *)
Inductive imode : Type := MdTop | MdLookup | MdData.

(** What a user function does: it can return a value, panic, and call the
    methods of its server context (/repo/session/serverctx.go:14-55) and of the
    invocation found there.  Simplification: CacheAll and CachedEntries, and
    use of the invocation after the function returned, are left out. *)
Inductive prog : Type :=
| PRet (v : option value)
| PPanic (e : err)
| PInterpolate (v : value) (k : option value -> prog)
| PLookup (key : string) (opts : option entries) (k : option value -> prog)
| PCache (key : string) (v : value) (k : option value -> prog)
| PCached (key : string) (k : option value -> prog)
| PScope (key : string) (k : option value -> prog)
| PMode (k : imode -> prog)
| PExplain (text : string) (k : prog).

(** What the program asks of the world, in order: file system, loader and
    function calls.  The answers may depend on everything asked before. *)
Inductive event : Type :=
| EvStat (p : string)
| EvGlob (p : string)
| EvConfig (p : string)
| EvYaml (p : string)
| EvJson (p : string)
| EvReadDir (p : string)
| EvLstat (p : string)
| EvFun (n : string)
| EvPlugin (p n : string)
| EvCall (f : fnref) (a : args)
| EvDig (f : fnref) (ps : list part).

(** Reading and parsing a data file (/repo/provider/yamldata.go:22-32 and
    /repo/provider/jsondata.go:21-28): missing, some error with its text, or a value. *)
Inductive data_file : Type :=
| DfMissing
| DfError (e : err)
| DfValue (v : value).

(** Reading a directory (/repo/provider/modulelookupkey.go:76-89): name and
    whether it is a directory, in the order Readdir gives. *)
Inductive dir_list : Type :=
| DirMissing
| DirError (e : err)
| DirEntries (l : list (string * bool)).

(** os.Lstat, /repo/provider/modulelookupkey.go:99-108. *)
Inductive lstat : Type :=
| LsMissing
| LsError (e : err)
| LsFound (is_dir : bool).

(** A type parsed by the dialect, /repo/session/invocation.go:151: the type
    Sensitive or another one, known by its text. *)
Inductive ctype : Type :=
| CSensitive
| CType (text : string).

(** Everything outside the code of /repo: the file system, the environment, the
    loader with the plugins, user functions, the dgo library functions that are
    not modelled, and the session options. *)
Record world : Type := mk_world {
  w_stat : list event -> string -> bool;
  w_glob : list event -> string -> list string;
  w_config : list event -> string -> cfg_file;
  w_yaml : list event -> string -> data_file;
  w_json : list event -> string -> data_file;
  w_readdir : list event -> string -> dir_list;
  w_lstat : list event -> string -> lstat;
  w_fun : list event -> string -> bool;
  w_plugin : list event -> string -> string -> outcome bool;
  w_call : list event -> fnref -> args -> prog;
  w_dig : list event -> fnref -> list part -> outcome (option value);
  w_env : environ;
  w_cwd : string;
  w_show : value -> string;
  w_parse_type : string -> outcome ctype;
  w_new : ctype -> value -> list value -> outcome value;
  w_top : lkfn;
  w_cfgpath : string;
  w_mux : option (list lkfn);
  w_modpath : option string;
  w_yamlpath : option value
}.

(** ** The state *)

(** ivContext, /repo/session/invocation.go:32-42, without the session and the
    shared configs map.  [iv_expl] tells whether the explainer is not nil. *)
Record iv : Type := mk_iv {
  iv_names : list string;
  iv_scope : scope;
  iv_luopts : option entries;
  iv_strat : option strategy;
  iv_expl : bool;
  iv_mode : imode;
  iv_redacted : bool
}.

(** A data provider: its identity and its hierarchy entry,
    /repo/internal/datadigprovider.go:12-15, /repo/internal/datahashprovider.go:14-19 and
    /repo/internal/lookupkeyprovider.go:13-16. *)
Record provider : Type := mk_provider { p_id : nat; p_entry : entry }.

(** resolvedConfig, /repo/session/resolvedconfig.go:13-19. *)
Record rconfig : Type := mk_rconfig {
  rc_config : config;
  rc_providers : list provider;
  rc_defaults : list provider;
  rc_luopts : option entries;
  rc_module : string
}.

(** A loaded provider function, /repo/internal/datahashprovider.go:50-74,
    /repo/internal/lookupkeyprovider.go:44-59 and /repo/internal/datadigprovider.go:43-52. *)
Inductive loaded : Type :=
| LdYaml
| LdJson
| LdEnv
| LdScope
| LdFn (f : fnref)
| LdNone.

(** The mutable fields of a provider; [ps_locked] is the write lock
    hashesLock, /repo/internal/datahashprovider.go:18. *)
Record pstate : Type := mk_pstate {
  ps_fn : option loaded;
  ps_hashes : list (string * entries);
  ps_locked : bool
}.
Definition new_pstate : pstate := mk_pstate None [] false.

(** What the shared cache holds for a configuration path,
    /repo/session/invocation.go:76-107: a loaded configuration, or only a lock
    left by a load that did not finish. *)
Inductive shared : Type :=
| ShLoaded (c : config)
| ShLocked.

(** The state of a session running one invocation.  [s_iv] is the ivContext in
    use; [s_ex] the explainer it may point to; [s_configs] the map shared by
    all copies of the ivContext; [s_shared] the shared cache; [s_tpc] the top
    provider cache and [s_mods] the module providers kept there
    (/repo/provider/modulelookupkey.go:48-57). *)
Record st : Type := mk_st {
  s_iv : iv;
  s_ex : explainer;
  s_configs : list (string * rconfig);
  s_shared : list (string * shared);
  s_tpc : list (string * value);
  s_mods : list (string * option string);
  s_provs : nat -> pstate;
  s_next : nat;
  s_trace : list event
}.

(** Lookup and update in an association list. *)
Fixpoint aget {A} (k : string) (l : list (string * A)) : option A :=
  match l with
  | [] => None
  | (k', a) :: r => if String.eqb k k' then Some a else aget k r
  end.
Definition aput {A} (k : string) (a : A) (l : list (string * A)) : list (string * A) := (k, a) :: l.

(** Updates of the fields of an ivContext, /repo/session/invocation.go:272-289 and
    :381-420, and of the state. *)
Definition iv_with_scope (sc : scope) (i : iv) : iv :=
  mk_iv (iv_names i) sc (iv_luopts i) (iv_strat i) (iv_expl i) (iv_mode i) (iv_redacted i).
Definition iv_with_luopts (o : option entries) (i : iv) : iv :=
  mk_iv (iv_names i) (iv_scope i) o (iv_strat i) (iv_expl i) (iv_mode i) (iv_redacted i).
Definition iv_with_strat (o : option strategy) (i : iv) : iv :=
  mk_iv (iv_names i) (iv_scope i) (iv_luopts i) o (iv_expl i) (iv_mode i) (iv_redacted i).
Definition iv_with_expl (b : bool) (i : iv) : iv :=
  mk_iv (iv_names i) (iv_scope i) (iv_luopts i) (iv_strat i) b (iv_mode i) (iv_redacted i).
Definition iv_with_mode (m : imode) (i : iv) : iv :=
  mk_iv (iv_names i) (iv_scope i) (iv_luopts i) (iv_strat i) (iv_expl i) m (iv_redacted i).
Definition iv_with_redacted (b : bool) (i : iv) : iv :=
  mk_iv (iv_names i) (iv_scope i) (iv_luopts i) (iv_strat i) (iv_expl i) (iv_mode i) b.

Definition with_iv (i : iv) (s : st) : st :=
  mk_st i (s_ex s) (s_configs s) (s_shared s) (s_tpc s) (s_mods s) (s_provs s) (s_next s) (s_trace s).
Definition with_ex (x : explainer) (s : st) : st :=
  mk_st (s_iv s) x (s_configs s) (s_shared s) (s_tpc s) (s_mods s) (s_provs s) (s_next s) (s_trace s).
Definition with_configs (c : list (string * rconfig)) (s : st) : st :=
  mk_st (s_iv s) (s_ex s) c (s_shared s) (s_tpc s) (s_mods s) (s_provs s) (s_next s) (s_trace s).
Definition with_shared (c : list (string * shared)) (s : st) : st :=
  mk_st (s_iv s) (s_ex s) (s_configs s) c (s_tpc s) (s_mods s) (s_provs s) (s_next s) (s_trace s).
Definition with_tpc (c : list (string * value)) (s : st) : st :=
  mk_st (s_iv s) (s_ex s) (s_configs s) (s_shared s) c (s_mods s) (s_provs s) (s_next s) (s_trace s).
Definition with_mods (c : list (string * option string)) (s : st) : st :=
  mk_st (s_iv s) (s_ex s) (s_configs s) (s_shared s) (s_tpc s) c (s_provs s) (s_next s) (s_trace s).
Definition with_prov (id : nat) (p : pstate) (s : st) : st :=
  mk_st (s_iv s) (s_ex s) (s_configs s) (s_shared s) (s_tpc s) (s_mods s)
        (fun n => if Nat.eqb n id then p else s_provs s n) (s_next s) (s_trace s).
Definition with_next (n : nat) (s : st) : st :=
  mk_st (s_iv s) (s_ex s) (s_configs s) (s_shared s) (s_tpc s) (s_mods s) (s_provs s) n (s_trace s).
Definition with_trace (t : list event) (s : st) : st :=
  mk_st (s_iv s) (s_ex s) (s_configs s) (s_shared s) (s_tpc s) (s_mods s) (s_provs s) (s_next s) t.

(** newInvocation, /repo/session/invocation.go:49-57. *)
Definition new_iv (sc : scope) (explain : bool) : iv := mk_iv [] sc None None explain MdTop false.

(** A new session with one invocation: New and Invocation,
    /repo/session/session.go:92-102 and :134-142.  [x] is the explainer given,
    if any; without one the field of the state is not used. *)
Definition init_st (sc : scope) (x : option explainer) : st :=
  mk_st (new_iv sc (match x with Some _ => true | None => false end))
        (match x with Some x => x | None => new_explainer false false end)
        [] [] [] [] (fun _ => new_pstate) 0 [].

(** ** Basic operations *)

(** The operations that read or write one piece of the state.  Each is used by
    the engine at the lines given there. *)
Inductive op : Type -> Type :=
| OScope : op scope                                (* Scope, /repo/session/invocation.go:291-293 *)
| OMode : op imode                                 (* /repo/session/invocation.go:117-123 *)
| OStrat : op (option strategy)                    (* MergeStrategy, /repo/session/invocation.go:406-408 *)
| OLuOpts : op (option entries)                    (* /repo/session/invocation.go:126 *)
| OSetLuOpts (o : option entries) : op unit        (* /repo/session/invocation.go:181 *)
| OSetStrat (s : strategy) : op unit               (* /repo/session/invocation.go:182 *)
| OAsk (e : event) : op (list event)               (* a question to the world *)
| OConfig (p : string) : op (option rconfig)       (* /repo/session/invocation.go:72 *)
| OSetConfig (p : string) (c : rconfig) : op unit  (* /repo/session/invocation.go:79 and :109 *)
| OShared (p : string) : op (option shared)        (* /repo/session/invocation.go:77 and :89 *)
| OSetShared (p : string) (c : shared) : op unit   (* /repo/session/invocation.go:89 and :105 *)
| OCached (k : string) : op (option value)         (* /repo/session/serverctx.go:39-44 *)
| OCache (k : string) (v : value) : op unit        (* /repo/session/serverctx.go:22-30 *)
| OMod (k : string) : op (option (option string))  (* /repo/provider/modulelookupkey.go:31 *)
| OSetMod (k : string) (c : option string) : op unit (* /repo/provider/modulelookupkey.go:71 *)
| OAlloc : op nat                                  (* a new provider, /repo/session/resolvedconfig.go:23-32 *)
| OFn (id : nat) : op (option loaded)              (* providerFunc *)
| OSetFn (id : nat) (f : loaded) : op unit
| OHash (id : nat) (k : string) : op (option entries)  (* hashes, /repo/internal/datahashprovider.go:86 and :95 *)
| OPutHash (id : nat) (k : string) (h : entries) : op unit (* /repo/internal/datahashprovider.go:99 *)
| OReport (r : report) : op unit.                  (* /repo/session/invocation.go:422-462 *)

(** The calls of [op] at the lines given there. *)
Definition run_op {A} (o : op A) : M st A :=
  match o in op T return M st T with
  | OScope => fun s => (Ok (iv_scope (s_iv s)), s)
  | OMode => fun s => (Ok (iv_mode (s_iv s)), s)
  | OStrat => fun s => (Ok (iv_strat (s_iv s)), s)
  | OLuOpts => fun s => (Ok (iv_luopts (s_iv s)), s)
  | OSetLuOpts o => fun s => (Ok tt, with_iv (iv_with_luopts o (s_iv s)) s)
  | OSetStrat g => fun s => (Ok tt, with_iv (iv_with_strat (Some g) (s_iv s)) s)
  | OAsk e => fun s => (Ok (s_trace s), with_trace (s_trace s ++ [e])%list s)
  | OConfig p => fun s => (Ok (aget p (s_configs s)), s)
  | OSetConfig p c => fun s => (Ok tt, with_configs (aput p c (s_configs s)) s)
  | OShared p => fun s => (Ok (aget p (s_shared s)), s)
  | OSetShared p c => fun s => (Ok tt, with_shared (aput p c (s_shared s)) s)
  | OCached k => fun s => (Ok (aget k (s_tpc s)), s)
  | OCache k v => fun s => (Ok tt, with_tpc (aput k v (s_tpc s)) s)
  | OMod k => fun s => (Ok (aget k (s_mods s)), s)
  | OSetMod k c => fun s => (Ok tt, with_mods (aput k c (s_mods s)) s)
  | OAlloc => fun s => (Ok (s_next s), with_next (S (s_next s)) (with_prov (s_next s) new_pstate s))
  | OFn id => fun s => (Ok (ps_fn (s_provs s id)), s)
  | OSetFn id f => fun s =>
      let p := s_provs s id in (Ok tt, with_prov id (mk_pstate (Some f) (ps_hashes p) (ps_locked p)) s)
  | OHash id k => fun s => (Ok (aget k (ps_hashes (s_provs s id))), s)
  | OPutHash id k h => fun s =>
      let p := s_provs s id in (Ok tt, with_prov id (mk_pstate (ps_fn p) (aput k h (ps_hashes p)) (ps_locked p)) s)
  | OReport r => fun s =>
      if iv_expl (s_iv s)
      then match xaccept r (s_ex s) with
           | Some x => (Ok tt, with_ex x s)
           | None => (Panic nil_deref, s)
           end
      else (Ok tt, s)
  end.

(** The operations that run something else. *)
Inductive scoped : Type :=
| SNode (k : nkind) (init : string)   (* WithDataProvider .. WithSubLookup, /repo/session/invocation.go:300-379 *)
| SData                               (* ForData, /repo/session/invocation.go:390-400 *)
| SLookup                             (* ForLookupOptions, /repo/session/invocation.go:410-420 *)
| SConfig                             (* ForConfig, /repo/session/invocation.go:381-388 *)
| SScope (sc : scope)                 (* DoWithScope, /repo/session/invocation.go:284-289 *)
| SRedacted                           (* DoRedacted, /repo/session/invocation.go:272-282 *)
| SLocked (id : nat).                 (* hashesLock, /repo/internal/datahashprovider.go:85-93 *)

(** Run with a changed copy of the ivContext; the original is in use again
    afterwards, whatever happens. *)
Definition with_copy {A} (f : iv -> iv) (m : M st A) : M st A := fun s =>
  let (o, s') := m (with_iv (f (s_iv s)) s) in (o, with_iv (s_iv s) s').

(** The calls of [scoped] at the lines given there. *)
Definition run_scoped {A} (sc : scoped) (m : M st A) : M st A :=
  match sc with
  | SNode k init => fun s =>
      if iv_expl (s_iv s) then
        match xpush k init (s_ex s) with
        | None => (Panic nil_deref, with_ex (xpop (s_ex s)) s)
        | Some x => let (o, s') := m (with_ex x s) in (o, with_ex (xpop (s_ex s')) s')
        end
      else m s
  | SData => fun s =>
      match iv_mode (s_iv s) with
      | MdData => m s
      | _ => with_copy (fun i => iv_with_mode MdData (iv_with_expl (iv_expl i && negb (x_only (s_ex s))) i)) m s
      end
  | SLookup => fun s =>
      match iv_mode (s_iv s) with
      | MdLookup => m s
      | _ => with_copy (fun i => iv_with_mode MdLookup
                                   (iv_with_expl (iv_expl i && (x_options (s_ex s) || x_only (s_ex s))) i)) m s
      end
  | SConfig => fun s =>
      if iv_expl (s_iv s) then with_copy (iv_with_expl false) m s else m s
  | SScope sc => fun s =>
      match m (with_iv (iv_with_scope sc (s_iv s)) s) with
      | (Ok a, s') => (Ok a, with_iv (iv_with_scope (iv_scope (s_iv s)) (s_iv s')) s')
      | (o, s') => (o, s')
      end
  | SRedacted => fun s =>
      if iv_redacted (s_iv s) then m s
      else let (o, s') := m (with_iv (iv_with_redacted true (s_iv s)) s) in
           (o, with_iv (iv_with_redacted false (s_iv s')) s')
  | SLocked id => fun s =>
      let p := s_provs s id in
      if ps_locked p then (Hang, s)
      else let (o, s') := m (with_prov id (mk_pstate (ps_fn p) (ps_hashes p) true) s) in
           let p' := s_provs s' id in
           (o, with_prov id (mk_pstate (ps_fn p') (ps_hashes p') false) s')
  end.

#[global] Arguments run_op : simpl never.
#[global] Arguments run_scoped : simpl never.
