(** The tests of /repo, run on the model.

    Each example gives the model the files, options and scope of a test in
    /repo and shows that it comes to the result which that test expects of the
    program.  These are tests, not proofs about the program: they show that the
    definitions which the theorems are about agree with the program wherever its
    authors wrote down what it does.

    Left out are /repo/lookup/lookup_test.go:58-68 (binary output), :169-181 (how
    the YAML library writes long strings; the same lookup with JSON is here),
    :252-301 (the text that the YAML library makes of an explanation) and :494-504
    (commented out). *)

From Coq Require Import String Ascii List ZArith Bool DecimalString.
From Verif Require Import Str Value Outcome Key Merge Fpath Config Explain State Engine Session New Api Cmd Text.
From Verif Require Import Worlds.
Import ListNotations.
Open Scope string_scope.
Open Scope list_scope.

(** ** What the libraries do, as far as the tests need it *)

(** Not a model of code in /repo: the text of an integer. *)
Definition decimal (z : Z) : string := NilZero.string_of_int (Z.to_int z).

(** Not a model of code in /repo: texts with commas between. *)
Definition commas (l : list string) : string := String.concat "," l.

(** Not a model of code in /repo: String() of dgo for a value inside another
    one, with quotes around strings. *)
Fixpoint dgo_inner (v : value) : string :=
  match v with
  | VNil => "null"
  | VBool b => if b then "true" else "false"
  | VInt z => decimal z
  | VFloat _ => "?"
  | VStr s => """" ++ s ++ """"
  | VArr l => "{" ++ commas (map dgo_inner l) ++ "}"
  | VMap m => "{" ++ commas (map (fun e => dgo_inner (fst e) ++ ":" ++ dgo_inner (snd e))%string m) ++ "}"
  | VSens _ => "sensitive [value redacted]"
  end%string.

(** Not a model of code in /repo: String() of dgo. *)
Definition dgo_text (v : value) : string := match v with VStr s => s | _ => dgo_inner v end.

(** Not a model of code in /repo: the JSON library. *)
Fixpoint json_text (v : value) : string :=
  match v with
  | VArr l => "[" ++ commas (map json_text l) ++ "]"
  | VMap m => "{" ++ commas (map (fun e => json_text (fst e) ++ ":" ++ json_text (snd e))%string m) ++ "}"
  | _ => dgo_inner v
  end%string.

(** Not a model of code in /repo: what the YAML library writes for the values in
    the tests: strings, flat arrays and flat maps, and sensitive values as rich
    data. *)
Definition starts_plain (s : string) : bool :=
  match s with String c _ => is_alpha c | EmptyString => false end.
Definition yaml_scalar (v : value) : string :=
  match v with
  | VStr s => if starts_plain s then s else if has_prefix "{" s then ("'" ++ s ++ "'")%string else ("""" ++ s ++ """")%string
  | _ => dgo_inner v
  end.
Definition yaml_text (v : value) : string :=
  match v with
  | VArr l => String.concat "" (map (fun x => "- " ++ yaml_scalar x ++ str1 c_nl)%string l)
  | VMap m => String.concat "" (map (fun e => dgo_text (fst e) ++ ": " ++ yaml_scalar (snd e) ++ str1 c_nl)%string m)
  | VSens x => ("__type: sensitive" ++ str1 c_nl ++ "__value: " ++ yaml_scalar x ++ str1 c_nl)%string
  | _ => (yaml_scalar v ++ str1 c_nl)%string
  end.

(** Not a model of code in /repo: AppendValue of the indenter of dgo. *)
Fixpoint indented (v : value) (lvl : nat) : string :=
  match v with
  | VMap m =>
      "{" ++ commas (map (fun e => new_line (S lvl) "" ++ dgo_inner (fst e) ++ ": " ++ indented (snd e) (S lvl)) m)
          ++ new_line lvl "" ++ "}"
  | VArr l => "{" ++ commas (map (fun x => new_line (S lvl) "" ++ indented x (S lvl)) l) ++ new_line lvl "" ++ "}"
  | _ => dgo_inner v
  end%string.
Definition append_value (lvl : nat) (v : option value) : string :=
  match v with Some v => indented v lvl | None => "null" end.

(** Lines, each ended. *)
Definition lines (l : list string) : string := String.concat "" (map (fun s => s ++ str1 c_nl)%string l).
(** Lines, with line breaks between. *)
Definition joined (l : list string) : string := String.concat (str1 c_nl) l.

(** Not a model of code in /repo: a world with files below the current
    directory "/t", known by their names from there. *)
Definition rel (p : string) : string := if has_prefix "/t/" p then substring 3 (String.length p - 3) p else p.
Definition test_world (cfgs yaml json : list (string * value)) (globs : list (string * list string)) (modules : list (string * bool))
  (fns : list (string * (args -> prog))) (plugins : list (string * (args -> prog)))
  (top : lkfn) (cfgpath : string) (mux : option (list lkfn)) (modpath : option string) (yamlpath : option value) : world :=
  mk_world
    (fun _ p => match aget (rel p) (yaml ++ json) with Some _ => true | None => false end)
    (fun _ p => match aget (rel p) globs with Some l => l | None => [] end)
    (fun _ p => match aget (rel p) cfgs with Some v => CfYaml v | None => CfMissing end)
    (fun _ p => match aget (rel p) yaml with Some v => DfValue v | None => DfMissing end)
    (fun _ p => match aget (rel p) json with Some v => DfValue v | None => DfMissing end)
    (fun _ p => if String.eqb p "testdata/modules" then DirEntries modules else DirMissing)
    (fun _ p => match aget (rel p) cfgs with Some _ => LsFound false | None => LsMissing end)
    (fun _ n => match aget n fns with Some _ => true | None => false end)
    (fun _ p n => Ok (String.eqb (rel p) "plugin/hieratestplugin" && match aget n plugins with Some _ => true | None => false end))
    (fun _ f a => match f with
                  | FnSession n | FnTop n => match aget n fns with Some p => p a | None => PRet None end
                  | FnPlugin _ n => match aget n plugins with Some p => p a | None => PRet None end
                  end)
    (fun _ _ _ => Ok None)
    [] "/t" dgo_text
    (fun t => if String.eqb t "sensitive" || String.eqb t "Sensitive" then Ok CSensitive else Ok (CType t))
    (fun _ v _ => Ok v)
    top cfgpath mux modpath yamlpath.

(** hiera.Lookup, /repo/hiera/hiera.go:60-69: Lookup2 with one name and any
    type. *)
Definition hiera_lookup2 (w : world) (names : list string) (dflt : option value) (opts : option entries) : M st (option value) :=
  lookup2 (T := unit) (fun _ _ => true) (fun _ v => Ok v) (engine_ask w 30 opts) names (Some tt) dflt None None None.
(** One lookup in a new session with a scope. *)
Definition hiera_lookup (w : world) (sc : entries) (k : string) (dflt : option value) (opts : option entries) : outcome (option value) :=
  fst (hiera_lookup2 w [k] dflt opts (init_st (ScMap sc) None)).
(** The same, and the text of the explanation. *)
Definition hiera_explain (w : world) (sc : entries) (options only : bool) (k : string) : outcome (option value) * outcome string :=
  let (o, s) := hiera_lookup2 w [k] None None (init_st (ScMap sc) (Some (new_explainer options only))) in
  (o, explainer_text append_value (s_ex s)).

Definition str (s : string) : outcome (option value) := Ok (Some (VStr s)).
Definition smap (l : list (string * string)) : value := vmap (map (fun e => (fst e, VStr (snd e))) l).
Definition strs (l : list string) : value := VArr (map VStr l).

(** ** Keys: /repo/api/key_test.go *)

Definition parts_of (k : string) : outcome (list part) := omap k_parts (new_key k).

(** /repo/api/key_test.go:12-62. *)
Example key_test_parts :
  parts_of "simple" = Ok [PStr "simple"] /\
  parts_of "a.b.c" = Ok [PStr "a"; PStr "b"; PStr "c"] /\
  parts_of "a.3" = Ok [PStr "a"; PInt 3] /\
  parts_of "'a.b.c'" = Ok [PStr "a.b.c"] /\
  parts_of """a.b.c""" = Ok [PStr "a.b.c"] /\
  parts_of "a.'b.c'" = Ok [PStr "a"; PStr "b.c"] /\
  parts_of "a.'b.c'.d" = Ok [PStr "a"; PStr "b.c"; PStr "d"] /\
  parts_of "a.b.'c""d""e'" = Ok [PStr "a"; PStr "b"; PStr "c""d""e"] /\
  parts_of "a.b.""c'd'e""" = Ok [PStr "a"; PStr "b"; PStr "c'd'e"].
Proof. vm_compute. tauto. Qed.

(** /repo/api/key_test.go:64-86. *)
Example key_test_errors :
  parts_of "a.b.""c" = Panic (EErr "unterminated quote in key 'a.b.""c'") /\
  parts_of "" = Panic (EErr "key '' contains an empty segment") /\
  parts_of "a..b" = Panic (EErr "key 'a..b' contains an empty segment") /\
  parts_of "a." = Panic (EErr "key 'a.' contains an empty segment") /\
  parts_of ".b" = Panic (EErr "key '.b' contains an empty segment") /\
  parts_of "1.a" = Panic (EErr "key '1.a' first segment cannot be an index").
Proof. vm_compute. tauto. Qed.

(** /repo/api/key_test.go:88-101. *)
Example key_test_bury :
  obind (new_key "a.b.c") (fun k => Ok (bury k (VStr "x"))) = Ok (vmap [("b", vmap [("c", VStr "x")])]) /\
  obind (new_key "a.3") (fun k => Ok (bury k (VStr "x"))) = Ok (VMap [(VInt 3, VStr "x")]) /\
  obind (new_key "a") (fun k => Ok (bury k (VStr "x"))) = Ok (VStr "x").
Proof. vm_compute. tauto. Qed.

(** ** Interpolation and digging: /repo/hiera/hiera_test.go *)

(** /repo/hiera/testdata/sample_data.yaml. *)
Definition sample_data : value := vmap
  [("first", VStr "value of first");
   ("array", strs ["one"; "two"; "three"]);
   ("hash", vmap [("int", VInt 1); ("string", VStr "one"); ("array", strs ["two"; "%{hiera('first')}"])]);
   ("second", VStr "includes '%{lookup('first')}'");
   ("ipAlias", VStr "%{alias('array')}");
   ("ipBadAlias", VStr "x %{alias('array')}");
   ("ipScope", VStr "hello %{world}");
   ("ipScope2", VStr "hello %{scope('world')}");
   ("ipLiteral", VStr "some %{literal('literal')} text");
   ("ipBad", VStr "hello %{bad('world')}");
   ("empty1", VStr "Start%{}End");
   ("empty2", VStr "Start%{''}End");
   ("empty3", VStr "Start%{""""}End");
   ("empty4", VStr "Start%{::}End");
   ("empty5", VStr "Start%{'::'}End");
   ("empty6", VStr "Start%{""::""}End")].
Definition sample_path : value := VStr "./testdata/sample_data.yaml".
Definition sample_w : world :=
  test_world [] [("./testdata/sample_data.yaml", sample_data)] [] [] [] [] [] LkYaml "" None None (Some sample_path).
Definition sample_opts : option entries := Some [(VStr "path", sample_path)].
Definition sample (k : string) : outcome (option value) := hiera_lookup sample_w [] k None None.
Definition sample' (k : string) (dflt : option value) : outcome (option value) := hiera_lookup sample_w [] k dflt sample_opts.

(** /repo/hiera/hiera_test.go:20-44. *)
Example hiera_test_found :
  sample "first" = str "value of first" /\
  sample "array.1" = str "two" /\
  sample "hash.array.1" = str "value of first" /\
  sample "second" = str "includes 'value of first'".
Proof. vm_compute. tauto. Qed.

(** /repo/hiera/hiera_test.go:46-54. *)
Example hiera_test_scope :
  hiera_lookup sample_w [(VStr "world", VStr "cruel world")] "ipScope" None None = str "hello cruel world" /\
  hiera_lookup sample_w [(VStr "world", VStr "cruel world")] "ipScope2" None None = str "hello cruel world".
Proof. vm_compute. tauto. Qed.

(** /repo/hiera/hiera_test.go:56-65. *)
Example hiera_test_empty :
  map sample ["empty1"; "empty2"; "empty3"; "empty4"; "empty5"; "empty6"] = repeat (str "StartEnd") 6.
Proof. vm_compute. reflexivity. Qed.

(** /repo/hiera/hiera_test.go:67-93. *)
Example hiera_test_methods :
  sample' "ipLiteral" None = str "some literal text" /\
  sample' "ipAlias" None = Ok (Some (strs ["one"; "two"; "three"])) /\
  sample' "ipBadAlias" None =
    Panic (EErr "'alias'/'strict_alias' interpolation is only permitted if the expression is equal to the entire string") /\
  sample' "ipBad" None = Panic (EErr "unknown interpolation method 'bad'").
Proof. vm_compute. tauto. Qed.

(** /repo/hiera/hiera_test.go:95-129. *)
Example hiera_test_not_found :
  let d := Some (VStr "default value") in
  sample' "nonexistent" None = Ok None /\
  sample' "nonexistent" d = Ok d /\
  sample' "array.3" d = Ok d /\
  sample' "hash.float" d = Ok d /\
  sample' "hash.int.v" None = Ok None /\
  sample' "hash.int.3" None = Ok None.
Proof. vm_compute. tauto. Qed.

(** /repo/hiera/hiera_test.go:131-159. *)
Example hiera_test_lookup2 :
  let look2 names d := fst (hiera_lookup2 sample_w names d sample_opts (init_st (ScMap []) None)) in
  look2 ["first"; "second"] None = str "value of first" /\
  look2 ["non existing"; "second"] None = str "includes 'value of first'" /\
  look2 ["non existing"; "not there"] None = Ok None /\
  look2 ["non existing"; "not there"] (Some (VStr "default value")) = str "default value" /\
  sample' "hash.array.0" None = str "two".
Proof. vm_compute. tauto. Qed.

(** /repo/hiera/hiera_test.go:161-181. *)
Definition map_provider (a : args) : prog :=
  match a with
  | ALookupKey _ k => PRet (aget k [("a", VStr "value of a"); ("b", VStr "value of b")])
  | _ => PRet None
  end.
Example hiera_test_map_provider :
  let w := test_world [] [] [] [] [] [("tp", map_provider)] [] (LkUser "tp") "" None None None in
  hiera_lookup w [] "a" None None = str "value of a" /\ hiera_lookup w [] "b" None None = str "value of b".
Proof. vm_compute. tauto. Qed.

(** ** Configurations and merging: /repo/api/config_test.go *)

(** The path of the configuration that a session gets with these options, as
    ConfigLookupKey uses it. *)
Definition cfg_at (env : environ) (options : entries) : string :=
  match obind (new_session dgo_text env (Ok "/t") (Some options)) (config_path dgo_text) with Ok p => p | _ => "?" end.
Definition opt (k v : string) : value * value := (VStr k, VStr v).

(** /repo/api/config_test.go:14-30. *)
Example config_test_default :
  let first := vmap [("first", VStr "value of first")] in
  let w name file := test_world [] [(file, first)] [] [] [] [] [] LkConfig (cfg_at [] [opt "Hiera::Root" ("/t/testdata/" ++ name)]) None None None in
  hiera_lookup (w "defaultconfig" "testdata/defaultconfig/data/common.yaml") [] "first" None None = str "value of first" /\
  hiera_lookup (w "defaultlyraconfig" "testdata/defaultlyraconfig/data.yaml") [] "first" None None = str "value of first".
Proof. vm_compute. tauto. Qed.

(** /repo/api/testdata/explicit. *)
Definition explicit_cfg : value := vmap
  [("version", VInt 5);
   ("hierarchy", VArr [smap [("name", "Test 1"); ("data_hash", "yaml_data"); ("datadir", "hiera_data"); ("path", "data.yaml")];
                       smap [("name", "Test 2"); ("data_hash", "json_data"); ("datadir", "hiera_data"); ("path", "data2.json")]])].
Definition explicit_data : value := vmap
  [("first", VStr "value of first");
   ("hash", vmap [("one", VInt 1); ("two", VStr "two"); ("three", smap [("a", "A"); ("c", "C")])]);
   ("array", strs ["one"; "two"; "three"]);
   ("sense", VStr "Don't reveal this");
   ("lookup_options", vmap [("hash", smap [("merge", "deep")]); ("sense", smap [("convert_to", "sensitive")])])].
Definition explicit_data2 : value := vmap
  [("first", VStr "second value of first");
   ("hash", vmap [("one", VStr "overwritten one"); ("three", smap [("a", "overwritten A"); ("b", "B"); ("c", "overwritten C")])]);
   ("array", strs ["three"; "four"; "five"])].
Definition explicit_w : world :=
  test_world [("testdata/explicit/hiera.yaml", explicit_cfg)]
    [("testdata/explicit/hiera_data/data.yaml", explicit_data)] [("testdata/explicit/hiera_data/data2.json", explicit_data2)]
    [] [] [] [] LkConfig (cfg_at [] [opt "Hiera::Root" "/t/testdata/explicit"]) None None None.
Definition explicit (k merge : string) : outcome string :=
  omap (fun v => match v with Some v => dgo_text v | None => "" end)
    (hiera_lookup explicit_w [] k None (if String.eqb merge "" then None else Some [opt "merge" merge])).

(** /repo/api/config_test.go:32-54. *)
Example config_test_explicit :
  explicit "first" "first" = Ok "value of first" /\
  explicit "hash" "hash" = Ok "{""one"":1,""three"":{""a"":""A"",""c"":""C""},""two"":""two""}" /\
  explicit "hash" "" = Ok "{""one"":1,""two"":""two"",""three"":{""a"":""A"",""c"":""C"",""b"":""B""}}" /\
  explicit "array" "unique" = Ok "{""one"",""two"",""three"",""four"",""five""}" /\
  explicit "sense" "" = Ok "sensitive [value redacted]".
Proof. vm_compute. tauto. Qed.

(** ** The examples for users: /repo/examples *)

(** /repo/examples/testdata. *)
Definition version_5 : value := vmap [("version", VInt 5)].
Definition examples_cfgs : list (string * value) :=
  [("testdata/hiera.yaml", version_5);
   ("testdata/hiera_env.yaml", version_5);
   ("testdata/special.yaml", vmap [("version", VInt 5); ("defaults", smap [("datadir", "special")])]);
   ("testdata/custom.yaml",
     vmap [("version", VInt 5);
           ("hierarchy", VArr [vmap [("name", VStr "Custom"); ("lookup_key", VStr "customLK");
                                     ("options", smap [("a", "option a"); ("b", "option b")])]])]);
   ("testdata/merge.yaml",
     vmap [("version", VInt 5);
           ("hierarchy", VArr [smap [("name", "First"); ("path", "merge1.yaml")];
                               smap [("name", "Second"); ("path", "merge2.yaml")]])]);
   ("testdata/modules/one/hiera.yaml", version_5);
   ("testdata/modules/two/hiera.yaml", version_5)].
Definition examples_data : list (string * value) :=
  [("testdata/data/common.yaml",
     vmap [("hello", VStr "yaml data says hello"); ("ipl_a", VStr "interpolate <%{a}>");
           ("ipl_c", VStr "x = %{c.x}, y = %{c.y}"); ("one::merge", smap [("a", "value of one::merge a")])]);
   ("testdata/special/common.yaml", smap [("hello", "yaml special data says hello")]);
   ("testdata/data/merge1.yaml", vmap [("m", smap [("a", "first value of a"); ("c", "first value of c")])]);
   ("testdata/data/merge2.yaml",
     vmap [("m", smap [("a", "second value of a"); ("b", "second value of b")]);
           ("m2", smap [("a", "third value of a"); ("b", "third value of b")])]);
   ("testdata/modules/one/data/common.yaml",
     vmap [("one::a", VStr "value of one::a"); ("one::merge", smap [("b", "value of one::merge b")]);
           ("one::ipl_c", VStr "x = %{c.x}, y = %{c.y}"); ("two::a", VStr "value of two::a in module one");
           ("lookup_options", vmap [("one::merge", smap [("merge", "deep")])])]);
   ("testdata/modules/two/data/common.yaml", smap [("two::a", "value of two::a")]);
   ("testdata/modules/three/data/common.yaml", smap [("three::a", "value of three::a")])].
(** /repo/examples/config_test.go:16-20 and /repo/examples/customfunc_test.go:15-18. *)
Definition say_hello (a : args) : prog :=
  match a with ALookupKey _ k => PRet (Some (VStr (k ++ " world"))) | _ => PRet None end.
Definition custom_lk (a : args) : prog :=
  match a with ALookupKey o k => PRet (mgets k o) | _ => PRet None end.
Definition examples_w (top : lkfn) (mux : option (list lkfn)) (modpath : option string) (env : environ) (options : entries) : world :=
  test_world examples_cfgs examples_data [] [] [("one", true); ("two", true); ("three", true)]
    [("sayHello", say_hello); ("customLK", custom_lk)] [] top (cfg_at env options) mux modpath None.
Definition root_opt : value * value := opt "Hiera::Root" "testdata".

(** /repo/examples/config_test.go:29-63. *)
Example examples_hardwired :
  hiera_lookup (examples_w (LkUser "sayHello") None None [] []) [] "hello" None None = str "hello world" /\
  hiera_lookup (examples_w LkMux (Some [LkUser "sayHello"]) None [] []) [] "hello" None None = str "hello world".
Proof. vm_compute. tauto. Qed.

(** /repo/examples/config_test.go:79-137. *)
Example examples_config :
  let hello env options := hiera_lookup (examples_w LkConfig None None env options) [] "hello" None None in
  hello [] [root_opt] = str "yaml data says hello" /\
  hello [] [opt "Hiera::Config" "testdata/hiera.yaml"] = str "yaml data says hello" /\
  hello [("HIERA_CONFIGFILE", "hiera_env.yaml")] [root_opt] = str "yaml data says hello" /\
  hello [] [root_opt; opt "Hiera::ConfigFileName" "special.yaml"] = str "yaml special data says hello".
Proof. vm_compute. tauto. Qed.

(** /repo/examples/config_test.go:139-160. *)
Example examples_yaml_and_semi_hardwired :
  let w := examples_w LkMux (Some [LkConfig; LkUser "sayHello"]) None [] [root_opt] in
  hiera_lookup w [] "hello" None None = str "yaml data says hello" /\
  hiera_lookup w [] "howdy" None None = str "howdy world".
Proof. vm_compute. tauto. Qed.

(** /repo/examples/customfunc_test.go:20-41. *)
Example examples_custom :
  hiera_lookup (examples_w LkConfig None None [] [root_opt; opt "Hiera::ConfigFileName" "custom.yaml"]) [] "a" None None = str "option a".
Proof. vm_compute. reflexivity. Qed.

(** /repo/examples/merge_test.go:14-36. *)
Example examples_merge_default :
  let w := examples_w LkConfig None None [] [opt "Hiera::Config" "testdata/merge.yaml"] in
  hiera_lookup w [] "m.a" None None = str "first value of a" /\
  hiera_lookup w [] "m.b" None None = Ok None /\
  hiera_lookup w [] "m.c" None None = str "first value of c".
Proof. vm_compute. tauto. Qed.

(** /repo/examples/merge_test.go:38-85. *)
Example examples_merge_deep :
  let w := examples_w LkConfig None None [] [opt "Hiera::Config" "testdata/merge.yaml"] in
  let opts := Some [opt "merge" "deep"] in
  let full := smap [("a", "first value of a"); ("b", "second value of b"); ("c", "first value of c")] in
  let full2 := smap [("a", "first value of a"); ("b", "third value of b"); ("c", "first value of c")] in
  hiera_lookup w [] "m.a" None opts = str "first value of a" /\
  hiera_lookup w [] "m.b" None opts = str "second value of b" /\
  hiera_lookup w [] "m.c" None opts = str "first value of c" /\
  omap (option_map (veq full)) (hiera_lookup w [] "m" None opts) = Ok (Some true) /\
  omap (option_map (veq full2))
    (obind (hiera_lookup w [] "m" None None) (fun m => obind (hiera_lookup w [] "m2" None None) (fun m2 =>
       match m, m2 with
       | Some x, Some y => Ok (if snd (deep x y) then Some (fst (deep x y)) else None)
       | _, _ => Ok None
       end))) = Ok (Some true).
Proof. vm_compute. tauto. Qed.

(** /repo/examples/module_test.go:15-66. *)
Example examples_modules :
  let w path := examples_w LkMux (Some [LkConfig; LkModule]) (Some path) [] [root_opt] in
  let v := w "testdata/modules" in
  hiera_lookup v [] "hello" None None = str "yaml data says hello" /\
  hiera_lookup v [] "one::a" None None = str "value of one::a" /\
  omap (option_map dgo_text) (hiera_lookup v [] "one::merge" None None)
    = Ok (Some "{""a"":""value of one::merge a"",""b"":""value of one::merge b""}") /\
  hiera_lookup v [] "three::a" None None = Ok None /\
  hiera_lookup (w "testdata/nomodules") [] "one::a" None None = Ok None.
Proof. vm_compute. tauto. Qed.

(** The scope of /repo/examples/scope_test.go:17-21. *)
Definition examples_scope : entries :=
  [(VStr "a", VStr "the ""a"" string"); (VStr "b", VInt 42); (VStr "c", vmap [("x", VInt 10); ("y", VInt 20)])].

(** /repo/examples/scope_test.go:13-35. *)
Example examples_scope_test :
  let w := examples_w LkConfig None None [] [root_opt] in
  hiera_lookup w examples_scope "ipl_a" None None = str "interpolate <the ""a"" string>" /\
  hiera_lookup w examples_scope "ipl_c" None None = str "x = 10, y = 20".
Proof. vm_compute. tauto. Qed.

(** /repo/examples/explain_test.go:16-56. *)
Example examples_explain :
  hiera_explain (examples_w LkModule None (Some "testdata/modules") [] [root_opt])
    [(VStr "c", vmap [("x", VInt 10); ("y", VInt 20)])] false false "one::ipl_c" =
  (str "x = 10, y = 20",
   Ok (joined
     ["Searching for ""one::ipl_c""";
      "  data_hash function 'yaml_data'";
      "    Path ""testdata/modules/one/data.yaml""";
      "      Original path: ""data.yaml""";
      "      path not found";
      "  data_hash function 'yaml_data'";
      "    Path ""testdata/modules/one/data/common.yaml""";
      "      Original path: ""common.yaml""";
      "      Interpolation on ""x = %{c.x}, y = %{c.y}""";
      "        Sub key: ""x""";
      "          Found key: ""x"" value: 10";
      "        Sub key: ""y""";
      "          Found key: ""y"" value: 20";
      "      Found key: ""one::ipl_c"" value: ""x = 10, y = 20"""])).
Proof. vm_compute. reflexivity. Qed.

(** /repo/examples/explain_test.go:58-106. *)
Example examples_explain_with_options :
  hiera_explain (examples_w LkConfig None None [] [root_opt]) examples_scope true false "ipl_c" =
  (str "x = 10, y = 20",
   Ok (joined
     ["Searching for ""lookup_options""";
      "  Merge strategy ""deep merge strategy""";
      "    data_hash function 'yaml_data'";
      "      Path ""testdata/data.yaml""";
      "        Original path: ""data.yaml""";
      "        path not found";
      "    data_hash function 'yaml_data'";
      "      Path ""testdata/data/common.yaml""";
      "        Original path: ""common.yaml""";
      "        No such key: ""lookup_options""";
      "Searching for ""ipl_c""";
      "  data_hash function 'yaml_data'";
      "    Path ""testdata/data.yaml""";
      "      Original path: ""data.yaml""";
      "      path not found";
      "  data_hash function 'yaml_data'";
      "    Path ""testdata/data/common.yaml""";
      "      Original path: ""common.yaml""";
      "      Interpolation on ""x = %{c.x}, y = %{c.y}""";
      "        Sub key: ""x""";
      "          Found key: ""x"" value: 10";
      "        Sub key: ""y""";
      "          Found key: ""y"" value: 20";
      "      Found key: ""ipl_c"" value: ""x = 10, y = 20"""])).
Proof. vm_compute. reflexivity. Qed.

(** /repo/examples/explain_test.go:108-143. *)
Example examples_explain_only_options :
  hiera_explain (examples_w LkConfig None None [] [root_opt]) examples_scope true true "ipl_c" =
  (str "x = 10, y = 20",
   Ok (joined
     ["Searching for ""lookup_options""";
      "  Merge strategy ""deep merge strategy""";
      "    data_hash function 'yaml_data'";
      "      Path ""testdata/data.yaml""";
      "        Original path: ""data.yaml""";
      "        path not found";
      "    data_hash function 'yaml_data'";
      "      Path ""testdata/data/common.yaml""";
      "        Original path: ""common.yaml""";
      "        No such key: ""lookup_options"""])).
Proof. vm_compute. reflexivity. Qed.

(** ** The cache of a provider: /repo/session/serverctx_test.go *)

(** /repo/session/serverctx_test.go:15-25; what the function prints is given
    with the value. *)
Definition caching_provider (a : args) : prog :=
  match a with
  | ALookupKey _ k =>
      PCached k (fun v => match v with
        | Some v => PRet (Some (VArr [VStr ("Returning cached value for " ++ k)%string; v]))
        | None =>
            PInterpolate (VStr ("value for %{" ++ k ++ "}")%string) (fun v =>
            match v with
            | Some v => PCache k v (fun _ => PRet (Some (VArr [VStr ("Creating and caching value for " ++ k)%string; v])))
            | None => PRet None
            end)
        end)
  | _ => PRet None
  end.
(** /repo/session/serverctx_test.go:14-47. *)
Example serverctx_test_cached_value :
  let w := test_world [] [] [] [] [] [("tp", caching_provider)] [] (LkUser "tp") "" None None None in
  let ask k := hiera_lookup2 w [k] None None in
  fst (bind (ask "a") (fun a => bind (ask "b") (fun b => bind (ask "a") (fun c => bind (ask "b") (fun d => ret [a; b; c; d]))))
         (init_st (ScMap [opt "a" "scope 'a'"; opt "b" "scope 'b'"]) None))
  = Ok (map Some
     [strs ["Creating and caching value for a"; "value for scope 'a'"];
      strs ["Creating and caching value for b"; "value for scope 'b'"];
      strs ["Returning cached value for a"; "value for scope 'a'"];
      strs ["Returning cached value for b"; "value for scope 'b'"]]).
Proof. vm_compute. reflexivity. Qed.

(** ** The lookup command: /repo/lookup/lookup_test.go *)

(** /repo/lookup/testdata/*.yaml. *)
Definition yaml_level (name path : string) : value := smap [("name", name); ("path", path)].
Definition plugin_level (name kind f : string) (options : list (string * value)) : value :=
  vmap ([("name", VStr name); (kind, VStr f); ("pluginfile", VStr "hieratestplugin")]
        ++ match options with [] => [] | _ => [("options", vmap options)] end).
Definition cfg (datadir : string) (hierarchy : list value) : value :=
  vmap ([("version", VInt 5)]
        ++ (if String.eqb datadir "" then [] else [("defaults", smap [("datadir", datadir); ("data_hash", "yaml_data")])])
        ++ [("hierarchy", VArr hierarchy)]).
Definition lookup_cfgs : list (string * value) :=
  [("hiera.yaml", cfg "hiera" [yaml_level "Common" "common.yaml"; yaml_level "Stuff" "named_%{data_file}.yaml"]);
   ("fact_directly_hiera.yaml", cfg "" [smap [("name", "Scope"); ("lookup_key", "scope")]; yaml_level "Common" "common.yaml"]);
   ("empty_map_hiera.yaml",
     vmap [("version", VInt 5); ("defaults", smap [("datadir", "hiera")]); ("hierarchy", VArr [yaml_level "empty" "empty_map.yaml"])]);
   ("glob_hiera.yaml",
     cfg "glob" [smap [("name", "Glob string"); ("glob", "expansion/{%{facts.glob_string}}/*.yaml")]; yaml_level "Common" "common.yaml"]);
   ("lookup_key_plugin_hiera.yaml",
     cfg "" [plugin_level "Plugin" "lookup_key" "test_lookup_key" [("a", VStr "option a"); ("b", VStr "option b")]]);
   ("data_hash_plugin_hiera.yaml",
     cfg "" [plugin_level "Plugin 1" "data_hash" "test_data_hash" [("the_hash", smap [("a", "value a"); ("b", "value b")])];
             plugin_level "Plugin 2" "data_hash" "test_data_hash" [("the_hash", smap [("c", "value c")])]]);
   ("dedup_hiera.yaml",
     vmap [("version", VInt 5); ("defaults", smap [("datadir", "dedup")]);
           ("hierarchy", VArr [plugin_level "first" "data_hash" "test_tf_simulation" []; yaml_level "second" "second.yaml"])]);
   ("panic_plugin_hiera.yaml", cfg "" [plugin_level "Plugin" "data_hash" "test_panic" []])].

(** /repo/lookup/testdata/hiera, glob and dedup. *)
Definition lookup_data : list (string * value) :=
  [("hiera/common.yaml", vmap
     [("interpolate_a", VStr "This is %{a}");
      ("hash", vmap [("one", VInt 1); ("two", VStr "two"); ("three", smap [("a", "A"); ("c", "C")])]);
      ("array", strs ["one"; "two"; "three"]);
      ("sense", VStr "Don't reveal this");
      ("nullentry", vmap [("nv", VNil)]);
      ("lookup_array", VStr "%{lookup(""array"")}");
      ("alias_array", VStr "%{alias(""array"")}");
      ("strict_alias_array", VStr "%{strict_alias(""array"")}");
      ("lookup_nothing", VStr "%{lookup(""nothing"")}");
      ("alias_nothing", VStr "%{alias(""nothing"")}");
      ("strict_alias_nothing", VStr "%{strict_alias(""nothing"")}");
      ("lookup_options", vmap [("hash", smap [("merge", "deep")]); ("sense", smap [("convert_to", "Sensitive")])]);
      ("simple", VStr "value");
      ("stringkey", VStr "stringvalue");
      ("intkey", VInt 1)]);
   ("hiera/named_by_fact.yaml", vmap
     [("interpolate_ca", VStr "This is %{c.a}");
      ("hash", vmap [("one", VStr "overwritten one");
                     ("three", smap [("a", "overwritten A"); ("b", "B"); ("c", "overwritten C")])])]);
   ("hiera/empty_map.yaml", vmap
     [("empty_map", vmap []); ("empty_sub_map", vmap [("x", VStr "the x"); ("empty", vmap [])]);
      ("empty_sub_map_in_array", VArr [vmap []])]);
   ("glob/common.yaml", smap [("a", "common a")]);
   ("glob/expansion/a/fragment.yaml", smap [("a", "fragment a")]);
   ("dedup/second.yaml", smap [("dns_resource_group_name", "%{strict_alias('root.dns_resource_group_name')}")])].

(** /repo/lookup/testdata/facts.yaml and glob_facts.yaml. *)
Definition lookup_facts (p : string) : var_file :=
  if String.eqb p "facts.yaml" then
    VfMap [opt "a" "value of a"; opt "b" "value of b"; (VStr "c", smap [("a", "value of c.a"); ("b", "value of c.b")]);
           opt "data_file" "by_fact"; opt "the_fact" "value of the_fact"]
  else if String.eqb p "glob_facts.yaml" then VfMap [opt "glob_string" "a,b"]
  else VfError "no such file".

(** The functions of the plugin, /repo/lookup/testdata/hieratestplugin/hieratestplugin.go:25-86,
    as the server sees them. *)
Definition sample_hash (a : args) : prog :=
  match a with
  | ADataHash o =>
      match mgets "the_hash" o with
      | Some (VMap h) =>
          PRet (Some (VMap match mgets "c" h with
                           | Some _ => mput (VStr "d") (VStr "interpolate c is %{lookup(""c"")}") h
                           | None => h
                           end))
      | _ => PPanic EOther
      end
  | _ => PRet None
  end.
Definition test_plugins : list (string * (args -> prog)) :=
  [("test_lookup_key", custom_lk);
   ("test_data_hash", sample_hash);
   ("test_panic", fun _ => PPanic (EErr "500 Internal Server Error: dit dit dit daah daah daah dit dit dit"));
   ("test_tf_simulation",
     fun _ => PRet (Some (vmap [("root", vmap [("dns_resource_group_name", VStr "cbuk-shared-sharedproduction-dns-uksouth")])])))].

(** Not a model of code in /repo: the types of the tests. *)
Definition test_inst (t : string) (v : option value) : bool :=
  match v with
  | Some (VStr _) => negb (String.eqb t "int")
  | Some (VInt _) => negb (String.eqb t "string" || String.eqb t "String")
  | _ => true
  end.
Definition test_conv (t : string) (v : option value) : outcome (option value) :=
  match v with
  | Some (VStr s) =>
      if String.eqb t "int" && String.eqb s "23" then Ok (Some (VInt 23))
      else Panic (EErr ("the value '" ++ s ++ "' cannot be converted to an " ++ t))
  | _ => Panic EOther
  end.
Definition test_struct (t : string) : option (list (string * string)) :=
  if String.eqb t "{""stringkey"":string,""intkey"":int}" then Some [("stringkey", "string"); ("intkey", "int")]
  else if String.eqb t "{""stringkey"":int,""intkey"":int}" then Some [("stringkey", "int"); ("intkey", "int")]
  else None.
Definition long_string : value := VStr "a string longer than 20 characters in length".
Definition test_parse (s : string) : outcome value :=
  if String.eqb s "{ x: ""a"", y: 9 }" then Ok (vmap [("x", VStr "a"); ("y", VInt 9)])
  else if String.eqb s "{a:""the option value""}" then Ok (smap [("a", "the option value")])
  else if has_prefix "{ x: ""a string" s then Ok (vmap [("x", long_string); ("y", long_string)])
  else Panic (EErr "not in the tests").

(** session.New and Invocation for the command: the world in which its lookups
    run. *)
Definition test_new (options : entries) (top : lkfn) (mux : list lkfn) : M string world := fun s =>
  (obind (new_session dgo_text [] (Ok "/t") (Some options)) (fun ss =>
   obind (config_path dgo_text ss) (fun p =>
   Ok (test_world lookup_cfgs lookup_data []
         [("glob/expansion/{a,b}/*.yaml", ["glob/expansion/a/fragment.yaml"]);
          ("/t/glob/expansion/{a,b}/*.yaml", ["/t/glob/expansion/a/fragment.yaml"])]
         [] [] test_plugins top p (Some mux) None None))), s).
Definition test_look (w : world) (opts : command_options) (args : list string) : M string (bool * string) := fun s =>
  (fst (lookup_and_render test_inst test_conv "any" (fun t => Ok t) test_struct test_parse lookup_facts VfEmpty
          (engine_invoke (ScMap [])) (engine_ask w 30)
          (render (fun v => Ok (json_text v)) (fun v => Ok (yaml_text v)) (fun _ => Panic EOther) dgo_text)
          (fun _ s => (omap (fun t => t ++ str1 c_nl)%string (explainer_text append_value (s_ex s)), s))
          opts args (init_st (ScMap []) None)), s).
(** cli.ExecuteLookup, /repo/cli/hiera.go:56-64: what is written, and the
    error. *)
Definition execute_lookup (opts : command_options) (dialect config : string) (args : list string) : outcome (option err) * string :=
  cmd_lookup test_new (fun _ => ret tt) test_look (fun t s => (Ok tt, (s ++ t)%string)) opts dialect config args "".
Definition wrote (l : list string) : outcome (option err) * string := (Ok None, lines l).
Definition failed (m : string) : outcome (option err) * string := (Ok (Some (EErr m)), "").

(** The options of the command: [--type], [--default], [--render-as] and
    [--all]. *)
Definition flags (type : string) (default : option string) (render_as : string) (all : bool) : command_options :=
  mk_command type "" default [] [] [] render_as false false all.
Definition plain : command_options := flags "" None "" false.
(** [--facts], [--vars] and [--var]. *)
Definition given (facts vars : list string) (var : list string) : command_options :=
  mk_command "" "" None facts vars var "" false false false.
(** [--explain], [--explain-options] and [--facts facts.yaml]. *)
Definition explaining (data options : bool) : command_options :=
  mk_command "" "" None ["facts.yaml"] [] [] "" data options false.

(** /repo/lookup/lookup_test.go:16-56. *)
Example lookup_test_defaults :
  execute_lookup (flags "int" (Some "23") "" false) "dgo" "" ["foo"] = wrote ["23"] /\
  execute_lookup (flags "String" (Some "23") "" false) "pcore" "" ["foo"] = wrote ["""23"""] /\
  execute_lookup plain "pcore" "" ["foo"] = wrote [] /\
  execute_lookup (flags "" (Some "") "" false) "pcore" "" ["foo"] = wrote [""""""] /\
  execute_lookup (flags "map[string](string|int)" (Some "{ x: ""a"", y: 9 }") "" false) "dgo" "" ["foo"] = wrote ["x: a"; "y: 9"] /\
  execute_lookup (flags "map[string](string|int)" (Some "{ x: ""a"", y: 9 }") "json" false) "dgo" "" ["foo"]
    = wrote ["{""x"":""a"",""y"":9}"] /\
  execute_lookup (flags "" (Some "xyz") "s" false) "pcore" "" ["foo"] = wrote ["xyz"].
Proof. vm_compute. tauto. Qed.

(** /repo/lookup/lookup_test.go:70-108. *)
Example lookup_test_variables :
  execute_lookup (given ["facts.yaml"] [] []) "pcore" "" ["interpolate_a"] = wrote ["This is value of a"] /\
  execute_lookup (given ["facts.yaml"] [] []) "pcore" "" ["interpolate_ca"] = wrote ["This is value of c.a"] /\
  execute_lookup (given [] ["facts.yaml"] []) "pcore" "" ["interpolate_ca"] = wrote ["This is value of c.a"] /\
  execute_lookup (given [] [] ["c={a:""the option value""}"; "data_file: by_fact"]) "dgo" "" ["interpolate_ca"]
    = wrote ["This is the option value"] /\
  execute_lookup (given ["facts.yaml"] [] []) "pcore" "fact_directly_hiera.yaml" ["the_fact"] = wrote ["value of the_fact"].
Proof. vm_compute. tauto. Qed.

(** /repo/lookup/lookup_test.go:110-167. *)
Example lookup_test_values :
  execute_lookup plain "pcore" "" ["nullentry"] = wrote ["nv: null"] /\
  execute_lookup (flags "" None "json" false) "pcore" "empty_map_hiera.yaml" ["empty_map"] = wrote ["{}"] /\
  execute_lookup (flags "" None "json" false) "pcore" "empty_map_hiera.yaml" ["empty_sub_map"]
    = wrote ["{""x"":""the x"",""empty"":{}}"] /\
  execute_lookup (flags "" None "json" false) "pcore" "empty_map_hiera.yaml" ["empty_sub_map_in_array"] = wrote ["[{}]"] /\
  execute_lookup (flags "" None "s" false) "pcore" "" ["sense"] = wrote ["sensitive [value redacted]"] /\
  execute_lookup plain "pcore" "" ["sense"] = wrote ["__type: sensitive"; "__value: Don't reveal this"] /\
  execute_lookup (flags "" (Some "{ x: ""a string longer than 20 characters in length"", y: ""a string longer than 20 characters in length"" }") "json" false)
    "dgo" "" ["non-existent"]
    = wrote ["{""x"":""a string longer than 20 characters in length"",""y"":""a string longer than 20 characters in length""}"].
Proof. vm_compute. tauto. Qed.

(** /repo/lookup/lookup_test.go:183-229. *)
Example lookup_test_methods :
  execute_lookup plain "pcore" "" ["lookup_array"] = wrote ["'{""one"",""two"",""three""}'"] /\
  execute_lookup plain "pcore" "" ["alias_array"] = wrote ["- one"; "- two"; "- three"] /\
  execute_lookup plain "pcore" "" ["strict_alias_array"] = wrote ["- one"; "- two"; "- three"] /\
  execute_lookup plain "pcore" "" ["lookup_nothing"] = wrote [""""""] /\
  execute_lookup plain "pcore" "" ["alias_nothing"] = wrote [""""""] /\
  execute_lookup plain "pcore" "" ["strict_alias_nothing"] = wrote [].
Proof. vm_compute. tauto. Qed.

(** /repo/lookup/lookup_test.go:231-250. *)
Example lookup_test_explain :
  execute_lookup (explaining true false) "pcore" "" ["interpolate_ca"] = wrote
    ["Searching for ""interpolate_ca""";
     "  data_hash function 'yaml_data'";
     "    Path ""/t/hiera/common.yaml""";
     "      Original path: ""common.yaml""";
     "      No such key: ""interpolate_ca""";
     "  data_hash function 'yaml_data'";
     "    Path ""/t/hiera/named_by_fact.yaml""";
     "      Original path: ""named_%{data_file}.yaml""";
     "      Interpolation on ""This is %{c.a}""";
     "        Sub key: ""a""";
     "          Found key: ""a"" value: ""value of c.a""";
     "      Found key: ""interpolate_ca"" value: ""This is value of c.a"""].
Proof. vm_compute. reflexivity. Qed.

(** /repo/lookup/lookup_test.go:303-403. *)
Definition explained_options : list string :=
  ["Searching for ""lookup_options""";
   "  Merge strategy ""deep merge strategy""";
   "    data_hash function 'yaml_data'";
   "      Path ""/t/hiera/common.yaml""";
   "        Original path: ""common.yaml""";
   "        Found key: ""lookup_options"" value: {";
   "          ""hash"": {";
   "            ""merge"": ""deep""";
   "          },";
   "          ""sense"": {";
   "            ""convert_to"": ""Sensitive""";
   "          }";
   "        }";
   "    data_hash function 'yaml_data'";
   "      Path ""/t/hiera/named_by_fact.yaml""";
   "        Original path: ""named_%{data_file}.yaml""";
   "        No such key: ""lookup_options""";
   "    Merged result: {";
   "      ""hash"": {";
   "        ""merge"": ""deep""";
   "      },";
   "      ""sense"": {";
   "        ""convert_to"": ""Sensitive""";
   "      }";
   "    }"].
Definition explained_hash : list string :=
  ["Searching for ""hash""";
   "  Using merge options from ""lookup_options"" hash";
   "  Merge strategy ""deep merge strategy""";
   "    data_hash function 'yaml_data'";
   "      Path ""/t/hiera/common.yaml""";
   "        Original path: ""common.yaml""";
   "        Found key: ""hash"" value: {";
   "          ""one"": 1,";
   "          ""two"": ""two"",";
   "          ""three"": {";
   "            ""a"": ""A"",";
   "            ""c"": ""C""";
   "          }";
   "        }";
   "    data_hash function 'yaml_data'";
   "      Path ""/t/hiera/named_by_fact.yaml""";
   "        Original path: ""named_%{data_file}.yaml""";
   "        Found key: ""hash"" value: {";
   "          ""one"": ""overwritten one"",";
   "          ""three"": {";
   "            ""a"": ""overwritten A"",";
   "            ""b"": ""B"",";
   "            ""c"": ""overwritten C""";
   "          }";
   "        }";
   "    Merged result: {";
   "      ""one"": 1,";
   "      ""two"": ""two"",";
   "      ""three"": {";
   "        ""a"": ""A"",";
   "        ""c"": ""C"",";
   "        ""b"": ""B""";
   "      }";
   "    }"].
Example lookup_test_explain_options :
  execute_lookup (explaining false true) "pcore" "" ["hash"] = wrote explained_options /\
  execute_lookup (explaining true true) "pcore" "" ["hash"] = wrote (explained_options ++ explained_hash).
Proof. vm_compute. tauto. Qed.

(** /repo/lookup/lookup_test.go:405-436 and :506-514. *)
Example lookup_test_plugins :
  execute_lookup plain "pcore" "lookup_key_plugin_hiera.yaml" ["a"] = wrote ["option a"] /\
  execute_lookup plain "pcore" "data_hash_plugin_hiera.yaml" ["d"] = wrote ["interpolate c is value c"] /\
  execute_lookup (flags "" None "yaml" false) "dgo" "dedup_hiera.yaml" ["dns_resource_group_name"]
    = wrote ["cbuk-shared-sharedproduction-dns-uksouth"] /\
  execute_lookup plain "pcore" "panic_plugin_hiera.yaml" ["a"]
    = failed "500 Internal Server Error: dit dit dit daah daah daah dit dit dit".
Proof. vm_compute. tauto. Qed.

(** /repo/lookup/lookup_test.go:438-492. *)
Example lookup_test_all :
  execute_lookup (flags "" None "json" true) "pcore" "" ["hash"; "array"]
    = wrote ["{""hash"":{""one"":1,""two"":""two"",""three"":{""a"":""A"",""c"":""C""}},""array"":[""one"",""two"",""three""]}"] /\
  execute_lookup (flags "" None "s" true) "pcore" "" ["simple"] = wrote ["{""simple"":""value""}"] /\
  execute_lookup (flags "" None "s" true) "pcore" "" ["simple"; "not_there"] = wrote ["{""simple"":""value""}"] /\
  execute_lookup (flags "{""stringkey"":string,""intkey"":int}" None "s" true) "dgo" "" ["stringkey"; "intkey"]
    = wrote ["{""stringkey"":""stringvalue"",""intkey"":1}"] /\
  execute_lookup (flags "{""stringkey"":int,""intkey"":int}" None "s" true) "dgo" "" ["stringkey"; "intkey"]
    = failed "the value 'stringvalue' cannot be converted to an int" /\
  execute_lookup (flags "string" None "s" true) "dgo" "" ["stringkey"; "intkey"] = failed "type must be a map".
Proof. vm_compute. tauto. Qed.

(** /repo/lookup/lookup_test.go:516-534. *)
Example lookup_test_glob :
  execute_lookup (given ["glob_facts.yaml"] [] []) "pcore" "glob_hiera.yaml" ["a"] = wrote ["fragment a"] /\
  execute_lookup plain "pcore" "glob_hiera.yaml" ["a"] = wrote ["common a"].
Proof. vm_compute. tauto. Qed.
