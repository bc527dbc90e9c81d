(** Property C38: which configuration files are accepted. *)

From Coq Require Import String Ascii List ZArith Bool Arith Lia.
From Verif Require Import Str Value Outcome Fpath Config Worlds SpecKey SpecSchema ValueFacts SchemaFacts.
Import ListNotations.
Open Scope nat_scope.
Open Scope string_scope.
Open Scope list_scope.

(** A file is accepted exactly when it holds a map that conforms to the schema
    and follows the further rules: unique names, at most one function and one
    kind of locations per entry, no reserved options.  ([wf]: no map has the
    same key twice, as in every dgo map.) *)
Theorem C38_accepted_iff : forall env path v, wf v = true ->
  ((exists c, config_new env path (CfYaml v) = Ok c) <-> exists m, v = VMap m /\ conforms m /\ config_fine m).
Proof.
  intros env path v W. split.
  - intros [c E]. destruct v as [| | | | | |m|]; try discriminate. exists m. cbn [config_new] in E.
    destruct (cfg_type (VMap m)) eqn:T; [ | discriminate ]. apply cfg_spec in T.
    split; [ reflexivity | ]. split; [ exact T | ].
    destruct (create_config_cases env path m W T) as [[F _]|[_ [x Ex]]]; [ exact F | congruence ].
  - intros (m & -> & Hc & Hf). cbn [config_new]. rewrite (proj2 (cfg_spec m) Hc).
    destruct (create_config_cases env path m W Hc) as [[_ (c & E & _)]|[N _]]; [ exists c; exact E | contradiction ].
Qed.
Print Assumptions C38_accepted_iff.

(** Any other file is refused with an error. *)
Theorem C38_else_refused : forall env path v, wf v = true ->
  ~ (exists m, v = VMap m /\ conforms m /\ config_fine m) ->
  exists x, config_new env path (CfYaml v) = Panic x.
Proof.
  intros env path v W N. destruct v as [| | | | | |m|]; cbn [config_new]; try (eexists; reflexivity).
  destruct (cfg_type (VMap m)) eqn:T; [ | eexists; reflexivity ]. apply cfg_spec in T.
  destruct (create_config_cases env path m W T) as [[F _]|[_ E]]; [ | exact E ].
  destruct N. exists m. auto.
Qed.
Print Assumptions C38_else_refused.

(** The configuration then has what the file says, the entries in the order
    given there. *)
Theorem C38_contents : forall env path m c, wf (VMap m) = true ->
  config_new env path (CfYaml (VMap m)) = Ok c -> config_of env path m c.
Proof.
  intros env path m c W E. cbn [config_new] in E. destruct (cfg_type (VMap m)) eqn:T; [ | discriminate ].
  apply cfg_spec in T. destruct (create_config_cases env path m W T) as [[_ (c' & E' & H)]|[_ [x Ex]]]; [ | congruence ].
  rewrite E in E'. injection E' as <-. exact H.
Qed.
Print Assumptions C38_contents.

(** Without a file there is a default configuration. *)
Theorem C38_no_file : forall env path, exists c,
  config_new env path CfMissing = Ok c /\ config_of env path [] (mk_config (c_root c) path (c_defaults c) (c_hierarchy c) (c_default_hierarchy c)).
Proof.
  intros env path. eexists. split; [ reflexivity | ]. constructor; try reflexivity.
  cbn. exists (default_datadir env), (default_plugindir env).
  unfold env_or, default_datadir, default_plugindir.
  split; [ destruct (lookup_env env "HIERA_DATADIR"); reflexivity | ].
  split; [ destruct (lookup_env env "HIERA_PLUGINDIR"); reflexivity | reflexivity ].
Qed.
Print Assumptions C38_no_file.

(** A configuration with every kind of entry. *)
Definition cfg38 : value :=
  vmap [("version", VInt 5);
        ("defaults", vmap [("datadir", VStr "data"); ("lookup_key", VStr "fn"); ("options", vmap [("a", VInt 1)])]);
        ("hierarchy",
         VArr [vmap [("name", VStr "nodes"); ("mapped_paths", VArr [VStr "os"; VStr "o"; VStr "%{o}.yaml"])];
               vmap [("name", VStr "all"); ("globs", VArr [VStr "a/*"; VStr "b/*"]); ("data_hash", VStr "yaml_data")];
               vmap [("name", VStr "net"); ("uri", VStr "http://x"); ("data_dig", VStr "d"); ("options", vmap [("x:y", VNil)])]])].

Example C38_accepted_example :
  wf cfg38 = true /\ exists c, config_new [] "/h/hiera.yaml" (CfYaml cfg38) = Ok c /\ map e_name (c_hierarchy c) = ["nodes"; "all"; "net"].
Proof. split; [ reflexivity | ]. eexists. split; vm_compute; reflexivity. Qed.

Example C38_contents_example : exists m c, cfg38 = VMap m /\ config_of [] "/h/hiera.yaml" m c /\
  map e_function (c_hierarchy c) = [None; Some (mk_fdef KDataHash "yaml_data"); Some (mk_fdef KDataDig "d")].
Proof.
  eexists. eexists. split; [ reflexivity | ].
  split; [ apply C38_contents; [ reflexivity | vm_compute; reflexivity ] | vm_compute; reflexivity ].
Qed.

(** Refused: each breaks one rule. *)
Definition broken38 : list (list (string * value)) :=
  [[("name", VStr "a"); ("path", VStr "x"); ("glob", VStr "y")];
   [("name", VStr "a"); ("data_hash", VStr "x"); ("lookup_key", VStr "y")];
   [("name", VStr "a"); ("options", vmap [("path", VStr "x")])];
   [("name", VStr "a"); ("options", vmap [("1x", VStr "x")])];
   [("name", VStr "a"); ("paths", VArr [])];
   [("name", VStr "b")]; [("path", VStr "x")]; [("name", VStr "a"); ("pathz", VStr "x")]].
Example C38_refused_example : Forall (fun e =>
  exists x, config_new [] "/h/hiera.yaml" (CfYaml (vmap [("version", VInt 5); ("hierarchy", VArr [vmap [("name", VStr "b")]; vmap e])])) = Panic x)
  broken38.
Proof. unfold broken38. repeat (apply Forall_cons || apply Forall_nil); eexists; vm_compute; reflexivity. Qed.

Example C38_else_refused_example :
  let v := vmap [("version", VInt 5); ("hierarchy", VArr [vmap [("name", VStr "b")]; vmap [("name", VStr "b")]])] in
  wf v = true /\ ~ (exists m, v = VMap m /\ conforms m /\ config_fine m).
Proof.
  intro v. split; [ reflexivity | ]. intro H. apply (C38_accepted_iff [] "/h/hiera.yaml" v eq_refl) in H as [c E].
  vm_compute in E. discriminate.
Qed.
