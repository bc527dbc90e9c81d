(** What is looked up in a session whose top provider is a function that reads no
    configuration: the environment, the scope, one YAML file or a function of
    the user. *)

From Coq Require Import String List.
From Verif Require Import Str Value Outcome Key State Engine Session SpecKey SpecIpl SpecInterp SpecMerge SpecLookup SpecFail.
Import ListNotations.
Open Scope string_scope.
Open Scope list_scope.

Section Top.
  Variable w : world.

  (** The path of the YAML file, which is an option of the session. *)
  Definition yaml_path : string := vstring w (match w_yamlpath w with Some v => v | None => VNil end).

  (** What the YAML file is worth: its content when nobody has read it yet, which
      may be anything afterwards, or that it can never be read. *)
  Inductive yaml_source : entries + err -> Prop :=
  | ys_content : forall m, (forall t, ~ In (EvYaml yaml_path) t -> file_has (w_yaml w t yaml_path) m) -> yaml_source (inl m)
  | ys_unreadable : forall x, (forall t, unreadable "YAML hash" yaml_path (w_yaml w t yaml_path) x) -> yaml_source (inr x).

  Variables (sc : scope) (src : entries + err).

  (** The value that the top provider has for a key. *)
  Inductive top_has (opts : entries) (key : string) : lkfn -> option value -> Prop :=
  | th_environment : top_has opts key LkEnv (environment (w_env w) key)
  | th_scope : top_has opts key LkScope (scope_get sc key)
  | th_yaml : forall m, src = inl m -> top_has opts key LkYaml (mgets key m)
  | th_user : forall f v, (forall t, w_call w t (FnTop f) (ALookupKey opts key) = PRet v) -> top_has opts key (LkUser f) v.

  (** The top provider fails for a key. *)
  Inductive top_fails (opts : entries) (key : string) : lkfn -> err -> Prop :=
  | tf_yaml : forall x, src = inr x -> top_fails opts key LkYaml x
  | tf_user : forall f x, (forall t, w_call w t (FnTop f) (ALookupKey opts key) = PPanic x) -> top_fails opts key (LkUser f) x.

  Section Key.
    Variable string_is : string -> option value -> Prop.
    Variable string_fails : string -> err -> Prop.

    (** A key gives what its root has, its expressions replaced, at the place that
        the rest of the key says. No option changes this. *)
    Inductive key_gives (opts : entries) (k : key) : option value -> Prop :=
    | kg_options : forall ps, k_parts k = PStr "lookup_options" :: ps -> key_gives opts k None
    | kg_none : forall r ps, k_parts k = PStr r :: ps -> r <> "lookup_options" ->
        top_has opts r (w_top w) None -> key_gives opts k None
    | kg_value : forall r ps v y o, k_parts k = PStr r :: ps -> r <> "lookup_options" ->
        top_has opts r (w_top w) (Some v) -> value_is string_is v y -> digs ps y o -> key_gives opts k o.

    Inductive key_breaks (opts : entries) (k : key) (x : err) : Prop :=
    | kb_source : forall r ps, k_parts k = PStr r :: ps -> r <> "lookup_options" -> top_fails opts r (w_top w) x -> key_breaks opts k x
    | kb_value : forall r ps v, k_parts k = PStr r :: ps -> r <> "lookup_options" ->
        top_has opts r (w_top w) (Some v) -> value_fails string_is string_fails v x -> key_breaks opts k x.
  End Key.

  (** Texts and nested lookups, which have no options, to the depth n. *)
  Fixpoint top_gives (n : nat) (q : question) (o : option value) : Prop :=
    match n with
    | 0 => False
    | S n =>
        match q with
        | QStr t => whole_is w sc (fun t => top_gives n (QStr t)) (fun k => top_gives n (QKey k)) t o
        | QKey k => key_gives (fun t => top_gives n (QStr t)) [] k o
        end
    end.
  Fixpoint top_breaks (n : nat) (q : question) (x : err) : Prop :=
    match n with
    | 0 => False
    | S n =>
        match q with
        | QStr t => whole_fails w sc (fun t => top_gives n (QStr t)) (fun k => top_gives n (QKey k))
                      (fun t => top_breaks n (QStr t)) (fun k => top_breaks n (QKey k)) t x
        | QKey k => key_breaks (fun t => top_gives n (QStr t)) (fun t => top_breaks n (QStr t)) [] k x
        end
    end.
End Top.

(** The outcome of a request. *)
Definition tells (w : world) (src : entries + err) (n : nat) (q : request) (o : outcome (option value)) : Prop :=
  let opts := match q_opts q with Some l => l | None => [] end in
  match o with
  | Ok v => key_gives w (q_scope q) src (fun t => top_gives w (q_scope q) src n (QStr t)) opts (q_key q) v
  | Panic x => key_breaks w (q_scope q) src (fun t => top_gives w (q_scope q) src n (QStr t))
                 (fun t => top_breaks w (q_scope q) src n (QStr t)) opts (q_key q) x
  | _ => False
  end.

(** Top providers that read no configuration. *)
Inductive plain_top : lkfn -> Prop :=
| pt_environment : plain_top LkEnv
| pt_scope : plain_top LkScope
| pt_yaml : plain_top LkYaml
| pt_user : forall f, plain_top (LkUser f).
