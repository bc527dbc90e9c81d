(** Concrete worlds used by the examples and by the witnesses of refuted
    statements.  Not a model of code in /repo. *)

From Coq Require Import String List ZArith Bool Arith.
From Verif Require Import Str Value Outcome Key Merge Config State Engine.
Import ListNotations.
Open Scope string_scope.

(** A world with the given configuration files and YAML data files; a file is
    found by os.Stat when it is one of these.  No plugins, no modules, no user
    functions. *)
Definition file_world (cfgs data : list (string * value)) : world :=
  mk_world
    (fun _ p => match aget p data with Some _ => true | None => false end)
    (fun _ _ => [])
    (fun _ p => match aget p cfgs with Some v => CfYaml v | None => CfMissing end)
    (fun _ p => match aget p data with Some v => DfValue v | None => DfMissing end)
    (fun _ p => match aget p data with Some v => DfValue v | None => DfMissing end)
    (fun _ _ => DirMissing)
    (fun _ _ => LsMissing)
    (fun _ _ => false)
    (fun _ _ _ => Ok false)
    (fun _ _ _ => PRet None)
    (fun _ _ _ => Ok None)
    [] "/work"
    (fun _ => "?")
    (fun t => if String.eqb t "sensitive" then Ok CSensitive else Ok (CType t))
    (fun _ v _ => Ok v)
    LkConfig "/h/hiera.yaml" None None None.

(** The same world with other top provider settings. *)
Definition with_top (top : lkfn) (mux : option (list lkfn)) (w : world) : world :=
  mk_world (w_stat w) (w_glob w) (w_config w) (w_yaml w) (w_json w) (w_readdir w) (w_lstat w) (w_fun w)
           (w_plugin w) (w_call w) (w_dig w) (w_env w) (w_cwd w) (w_show w) (w_parse_type w) (w_new w)
           top (w_cfgpath w) mux (w_modpath w) (w_yamlpath w).

(** The same world with user functions. *)
Definition with_funs (fns : list (string * (args -> prog))) (w : world) : world :=
  mk_world (w_stat w) (w_glob w) (w_config w) (w_yaml w) (w_json w) (w_readdir w) (w_lstat w)
           (fun _ n => match aget n fns with Some _ => true | None => false end)
           (w_plugin w)
           (fun _ f a => match f with
                         | FnSession n | FnTop n => match aget n fns with Some p => p a | None => PRet None end
                         | FnPlugin _ _ => PRet None
                         end)
           (w_dig w) (w_env w) (w_cwd w) (w_show w) (w_parse_type w) (w_new w)
           (w_top w) (w_cfgpath w) (w_mux w) (w_modpath w) (w_yamlpath w).

(** The same world with another environment. *)
Definition with_env (env : environ) (w : world) : world :=
  mk_world (w_stat w) (w_glob w) (w_config w) (w_yaml w) (w_json w) (w_readdir w) (w_lstat w) (w_fun w)
           (w_plugin w) (w_call w) (w_dig w) env (w_cwd w) (w_show w) (w_parse_type w) (w_new w)
           (w_top w) (w_cfgpath w) (w_mux w) (w_modpath w) (w_yamlpath w).

(** The same world with a parser of types and conversions. *)
Definition with_types (parse : string -> outcome ctype) (conv : ctype -> value -> list value -> outcome value) (w : world) : world :=
  mk_world (w_stat w) (w_glob w) (w_config w) (w_yaml w) (w_json w) (w_readdir w) (w_lstat w) (w_fun w)
           (w_plugin w) (w_call w) (w_dig w) (w_env w) (w_cwd w) (w_show w) parse conv
           (w_top w) (w_cfgpath w) (w_mux w) (w_modpath w) (w_yamlpath w).

(** The same world with module directories on the module path "/mods". *)
Definition with_modules (dirs : list string) (w : world) : world :=
  mk_world (w_stat w) (w_glob w) (w_config w) (w_yaml w) (w_json w)
           (fun _ p => if String.eqb p "/mods" then DirEntries (map (fun d => (d, true)) dirs) else DirMissing)
           (fun t p => match w_config w t p with CfMissing => LsMissing | _ => LsFound false end)
           (w_fun w) (w_plugin w) (w_call w) (w_dig w) (w_env w) (w_cwd w) (w_show w) (w_parse_type w) (w_new w)
           (w_top w) (w_cfgpath w) (w_mux w) (Some "/mods") (w_yamlpath w).

(** String keyed map. *)
Definition vmap (l : list (string * value)) : value := VMap (map (fun e => (VStr (fst e), snd e)) l).

(** A configuration with one yaml_data level per name; level n reads
    data/n.yaml. *)
Definition levels (ns : list string) : value :=
  vmap [("version", VInt 5);
        ("hierarchy", VArr (map (fun n => vmap [("name", VStr n); ("path", VStr (n ++ ".yaml"))]) ns))].

(** The outcome of looking up a key text in a fresh session. *)
Definition look (w : world) (n : nat) (sc : entries) (k : string) (opts : option entries) : outcome (option value) :=
  match new_key k with
  | Ok ky => fst (run_lookup w n ky opts (init_st (ScMap sc) None))
  | o => recast o
  end.
