(** When a configuration file is accepted and what the configuration then is. *)

From Coq Require Import String Ascii List ZArith Bool.
From Verif Require Import Str Value Fpath Config SpecKey.
Import ListNotations.
Open Scope string_scope.
Open Scope list_scope.

(** ** The schema *)

Definition letter (c : ascii) : Prop := In c (list_ascii_of_string "ABCDEFGHIJKLMNOPQRSTUVWXYZabcdefghijklmnopqrstuvwxyz").
Definition digit (c : ascii) : Prop := In c (list_ascii_of_string "0123456789").

(** The name of an option: one letter, or a letter, then possibly a colon, then
    letters, digits, underscores and dashes of which the last is a letter or a
    digit. *)
Definition option_name (t : string) : Prop :=
  exists c r, t = String c r /\ letter c /\
    (r = "" \/
     exists colon body last, (colon = "" \/ colon = ":") /\ r = (colon ++ body ++ str1 last)%string /\
       (letter last \/ digit last) /\
       forall x, occurs x body -> letter x \/ digit x \/ x = "_"%char \/ x = "-"%char).

(** Data: no sensitive values, and only strings as keys. *)
Inductive plain_data : value -> Prop :=
| pd_nil : plain_data VNil
| pd_bool : forall b, plain_data (VBool b)
| pd_int : forall z, plain_data (VInt z)
| pd_float : forall z, plain_data (VFloat z)
| pd_str : forall t, plain_data (VStr t)
| pd_arr : forall l, Forall plain_data l -> plain_data (VArr l)
| pd_map : forall m, Forall (fun e => (exists t, fst e = VStr t) /\ plain_data (snd e)) m -> plain_data (VMap m).

Definition text (v : value) : Prop := exists t, v = VStr t /\ t <> "".
Definition options_map (v : value) : Prop :=
  exists m, v = VMap m /\ forall k x, In (k, x) m -> (exists t, k = VStr t /\ option_name t) /\ plain_data x.
Definition texts (v : value) : Prop := exists l, v = VArr l /\ l <> [] /\ Forall text l.
Definition three_texts (v : value) : Prop := exists a b c, v = VArr [a; b; c] /\ text a /\ text b /\ text c.

(** A map that has no other keys, and values as described under them. *)
Definition only_keys (ks : list string) (m : entries) : Prop := forall k x, In (k, x) m -> exists t, k = VStr t /\ In t ks.
Definition may_have (k : string) (P : value -> Prop) (m : entries) : Prop := forall v, mgets k m = Some v -> P v.
Definition must_have (k : string) (P : value -> Prop) (m : entries) : Prop := exists v, mgets k m = Some v /\ P v.

Record defaults_section (m : entries) : Prop := mk_defaults_section {
  ds_keys : only_keys ["options"; "data_dig"; "data_hash"; "lookup_key"; "datadir"; "plugindir"] m;
  ds_options : may_have "options" options_map m;
  ds_dig : may_have "data_dig" text m;
  ds_hash : may_have "data_hash" text m;
  ds_key : may_have "lookup_key" text m;
  ds_datadir : may_have "datadir" text m;
  ds_plugindir : may_have "plugindir" text m
}.

Record entry_section (m : entries) : Prop := mk_entry_section {
  es_keys : only_keys ["name"; "options"; "data_dig"; "data_hash"; "lookup_key"; "datadir"; "plugindir"; "pluginfile";
                       "path"; "paths"; "glob"; "globs"; "uri"; "uris"; "mapped_paths"] m;
  es_name : must_have "name" text m;
  es_options : may_have "options" options_map m;
  es_dig : may_have "data_dig" text m;
  es_hash : may_have "data_hash" text m;
  es_key : may_have "lookup_key" text m;
  es_datadir : may_have "datadir" text m;
  es_plugindir : may_have "plugindir" text m;
  es_pluginfile : may_have "pluginfile" text m;
  es_path : may_have "path" text m;
  es_paths : may_have "paths" texts m;
  es_glob : may_have "glob" text m;
  es_globs : may_have "globs" texts m;
  es_uri : may_have "uri" text m;
  es_uris : may_have "uris" texts m;
  es_mapped : may_have "mapped_paths" three_texts m
}.

Definition hierarchy_section (v : value) : Prop :=
  exists l, v = VArr l /\ Forall (fun x => exists m, x = VMap m /\ entry_section m) l.

Record conforms (m : entries) : Prop := mk_conforms {
  cf_keys : only_keys ["version"; "defaults"; "hierarchy"; "default_hierarchy"] m;
  cf_version : mgets "version" m = Some (VInt 5);
  cf_defaults : may_have "defaults" (fun v => exists d, v = VMap d /\ defaults_section d) m;
  cf_hierarchy : may_have "hierarchy" hierarchy_section m;
  cf_default_hierarchy : may_have "default_hierarchy" hierarchy_section m
}.

(** ** The further rules *)

Definition at_most_one (ks : list string) (m : entries) : Prop :=
  forall a b x y, In a ks -> In b ks -> mgets a m = Some x -> mgets b m = Some y -> a = b.

Record entry_fine (m : entries) : Prop := mk_entry_fine {
  ef_function : at_most_one ["data_dig"; "data_hash"; "lookup_key"] m;
  ef_location : at_most_one ["path"; "paths"; "glob"; "globs"; "uri"; "uris"; "mapped_paths"] m;
  ef_options : forall o, mgets "options" m = Some (VMap o) -> mgets "path" o = None /\ mgets "uri" o = None
}.

Definition named (x : value) (n : string) : Prop := exists m, x = VMap m /\ mgets "name" m = Some (VStr n).

Definition hierarchy_fine (l : list value) : Prop :=
  (forall m, In (VMap m) l -> entry_fine m) /\ exists ns, Forall2 named l ns /\ NoDup ns.

Record config_fine (m : entries) : Prop := mk_config_fine {
  cn_defaults : forall d, mgets "defaults" m = Some (VMap d) -> entry_fine d;
  cn_hierarchy : forall l, mgets "hierarchy" m = Some (VArr l) -> hierarchy_fine l;
  cn_default_hierarchy : forall l, mgets "default_hierarchy" m = Some (VArr l) -> hierarchy_fine l
}.

(** ** The contents *)

(** The text under a key, or nothing. *)
Definition text_of_key (k : string) (m : entries) (t : string) : Prop :=
  mgets k m = Some (VStr t) \/ mgets k m = None /\ t = "".

Inductive function_of (m : entries) : option fdef -> Prop :=
| fo_dig : forall n, mgets "data_dig" m = Some (VStr n) -> function_of m (Some (mk_fdef KDataDig n))
| fo_hash : forall n, mgets "data_hash" m = Some (VStr n) -> function_of m (Some (mk_fdef KDataHash n))
| fo_key : forall n, mgets "lookup_key" m = Some (VStr n) -> function_of m (Some (mk_fdef KLookupKey n))
| fo_none : mgets "data_dig" m = None -> mgets "data_hash" m = None -> mgets "lookup_key" m = None -> function_of m None.

Inductive locations_of (m : entries) : option (list location) -> Prop :=
| lo_path : forall t, mgets "path" m = Some (VStr t) -> locations_of m (Some [LPath t "" false])
| lo_paths : forall ts, mgets "paths" m = Some (VArr (map VStr ts)) -> locations_of m (Some (map (fun t => LPath t "" false) ts))
| lo_glob : forall t, mgets "glob" m = Some (VStr t) -> locations_of m (Some [LGlob t])
| lo_globs : forall ts, mgets "globs" m = Some (VArr (map VStr ts)) -> locations_of m (Some (map LGlob ts))
| lo_uri : forall t, mgets "uri" m = Some (VStr t) -> locations_of m (Some [LUri t ""])
| lo_uris : forall ts, mgets "uris" m = Some (VArr (map VStr ts)) -> locations_of m (Some (map (fun t => LUri t "") ts))
| lo_mapped : forall a b c, mgets "mapped_paths" m = Some (VArr [VStr a; VStr b; VStr c]) -> locations_of m (Some [LMapped a b c])
| lo_none : (forall k, In k ["path"; "paths"; "glob"; "globs"; "uri"; "uris"; "mapped_paths"] -> mgets k m = None) ->
    locations_of m None.

Record entry_of (name : string) (m : entries) (e : entry) : Prop := mk_entry_of {
  eo_name : e_name e = name;
  eo_datadir : text_of_key "datadir" m (e_datadir e);
  eo_plugindir : text_of_key "plugindir" m (e_plugindir e);
  eo_pluginfile : text_of_key "pluginfile" m (e_pluginfile e);
  eo_options : match mgets "options" m with
               | Some (VMap o) => e_options e = Some o
               | _ => e_options e = None
               end;
  eo_function : function_of m (e_function e);
  eo_locations : locations_of m (e_locations e)
}.

(** The entries of a hierarchy, in order. *)
Definition entries_of (l : list value) (es : list entry) : Prop :=
  Forall2 (fun x e => exists m n, x = VMap m /\ mgets "name" m = Some (VStr n) /\ entry_of n m e) l es.

(** The value of an environment variable, or else a default. *)
Definition env_or (env : environ) (n d t : string) : Prop :=
  match lookup_env env n with Some v => t = v | None => t = d end.

Record config_of (env : environ) (path : string) (m : entries) (c : config) : Prop := mk_config_of {
  co_root : c_root c = dir path;
  co_path : c_path c = path;
  co_defaults : match mgets "defaults" m with
                | Some (VMap d) => entry_of "defaults" d (c_defaults c)
                | _ => exists dd pd, env_or env "HIERA_DATADIR" "data" dd /\ env_or env "HIERA_PLUGINDIR" "plugin" pd /\
                       c_defaults c = mk_entry dd pd "" None (Some (mk_fdef KDataHash "yaml_data")) "" None
                end;
  co_hierarchy : match mgets "hierarchy" m with
                 | Some (VArr l) => entries_of l (c_hierarchy c)
                 | _ => c_hierarchy c = [mk_entry "." "" "" None None "Root" (Some [LPath "data.yaml" "" false]);
                                         mk_entry "" "" "" None None "Common" (Some [LPath "common.yaml" "" false])]
                 end;
  co_default_hierarchy : match mgets "default_hierarchy" m with
                         | Some (VArr l) => entries_of l (c_default_hierarchy c)
                         | _ => c_default_hierarchy c = []
                         end
}.
