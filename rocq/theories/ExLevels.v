(** Levels for the examples: a configuration made by [levels] and what it is
    resolved to.  Not a model of code in /repo. *)

From Coq Require Import String Ascii List ZArith Bool Arith Lia.
From Verif Require Import Str Value Outcome Key Merge Fpath Config State Engine Worlds
  SpecKey SpecIpl SpecInterp SpecConfig StrFacts ResolveFacts SpecLookup SettledLookup KeyFacts.
Import ListNotations.
Open Scope nat_scope.
Open Scope string_scope.
Open Scope list_scope.

(** The entries and the defaults of [levels], as config_new gives them. *)
Definition level_in (n : string) : entry :=
  mk_entry "" "" "" None None n (Some [LPath (n ++ ".yaml") "" false]).
Definition defaults_in : entry := mk_entry "data" "plugin" "" None (Some (mk_fdef KDataHash "yaml_data")) "" None.
Definition levels_in (ns : list string) : config :=
  mk_config "/h" "/h/hiera.yaml" defaults_in (map level_in ns) [].

(** The same, resolved. *)
Definition yaml_of (n : string) : string := join2 "/h/data" (n ++ ".yaml").
Definition level_out (on_disk : string -> bool) (n : string) : entry :=
  mk_entry "data" "/h/plugin" "" (Some []) (Some (mk_fdef KDataHash "yaml_data")) n
    (Some [LPath (n ++ ".yaml") (yaml_of n) (on_disk (yaml_of n))]).
Definition defaults_out : entry :=
  mk_entry "data" "/h/plugin" "" (Some []) (Some (mk_fdef KDataHash "yaml_data")) "" None.

Lemma level_resolved w od mt sc env : forall ns, forallb (fun n => negb (contains "%{" (n ++ ".yaml"))) ns = true ->
  Forall2 (entry_resolved w od mt sc env "/h" (Some defaults_out)) (map level_in ns) (map (level_out od) ns).
Proof.
  induction ns as [|n ns IH]; intro H; [ constructor | ].
  cbn [forallb] in H. apply andb_true_iff in H as [Hn H]. apply negb_true_iff in Hn.
  cbn [map]. constructor; [ | exact (IH H) ].
  constructor; try reflexivity; cbn.
  + exists (mk_fdef KDataHash "yaml_data"). split; [ reflexivity | ]. split; [ now apply contains_not | reflexivity ].
  + apply dir_inherited.
  + exists "/h/plugin". split; [ apply dir_inherited | reflexivity ].
  + exists [[LPath (n ++ ".yaml") (yaml_of n) (od (yaml_of n))]]. split; [ | reflexivity ].
    constructor; [ | constructor ]. apply loc_path. apply expands_plain. apply contains_not. exact Hn.
Qed.

(** With a default hierarchy. *)
Definition levels_with (ns ds : list string) : config :=
  mk_config "/h" "/h/hiera.yaml" defaults_in (map level_in ns) (map level_in ds).

Lemma levels_with_resolved w od mt sc ns ds :
  forallb (fun n => negb (contains "%{" (n ++ ".yaml"))) (ns ++ ds) = true ->
  hierarchy_is w od mt sc (levels_with ns ds) (map (level_out od) ns).
Proof.
  intros H. rewrite forallb_app in H. apply andb_true_iff in H as [Hn Hd].
  exists defaults_out, (map (level_out od) ds). split; [ | split; apply level_resolved; assumption ].
  constructor; try reflexivity; cbn.
  - exists (mk_fdef KDataHash "yaml_data"). split; [ reflexivity | ]. split; [ now apply contains_not | ].
    split; [ | reflexivity ]. apply expands_plain. now apply contains_not.
  - apply dir_own; [ discriminate | ]. apply expands_plain. now apply contains_not.
  - exists "plugin". split; [ | reflexivity ]. apply dir_own; [ discriminate | ]. apply expands_plain. now apply contains_not.
Qed.

Lemma levels_resolved w od mt sc ns : forallb (fun n => negb (contains "%{" (n ++ ".yaml"))) ns = true ->
  hierarchy_is w od mt sc (levels_in ns) (map (level_out od) ns).
Proof.
  intros H. change (levels_in ns) with (levels_with ns []). apply levels_with_resolved.
  rewrite app_nil_r. exact H.
Qed.

(** A key that is what the parser makes of it. *)
Lemma written_by t ps : new_key t = Ok (mk_key t ps) -> written_key t ps.
Proof. intro H. apply new_key_written in H as (parts & E & H). injection E as <-. exact H. Qed.

Lemma plain_key_by r : new_key r = Ok (mk_key r [PStr r]) -> plain_key r.
Proof. apply written_by. Qed.

(** A path that is followed, and one that is not. *)
Lemma digs_by ps v : digs ps v (match v with Some x => dig_parts ps x | None => None end).
Proof.
  destruct v as [v|]; [ | constructor ]. destruct (dig_parts ps v) as [y|] eqn:E.
  - apply digs_path. apply dig_parts_path. exact E.
  - apply digs_no_path. intros y H. apply dig_parts_path in H. congruence.
Qed.

(** The same in another directory. *)
Definition levels_at (dir : string) (ns : list string) : config :=
  mk_config dir (dir ++ "/hiera.yaml") defaults_in (map level_in ns) [].
Definition yaml_at (dir n : string) : string := join2 (join2 dir "data") (n ++ ".yaml").
Definition level_at (dir : string) (on_disk : string -> bool) (n : string) : entry :=
  mk_entry "data" (join2 dir "plugin") "" (Some []) (Some (mk_fdef KDataHash "yaml_data")) n
    (Some [LPath (n ++ ".yaml") (yaml_at dir n) (on_disk (yaml_at dir n))]).

Lemma levels_at_resolved w od mt sc dir ns : is_abs (join2 dir "plugin") = true ->
  forallb (fun n => negb (contains "%{" (n ++ ".yaml"))) ns = true ->
  hierarchy_is w od mt sc (levels_at dir ns) (map (level_at dir od) ns).
Proof.
  intros B H.
  exists (mk_entry "data" (join2 dir "plugin") "" (Some []) (Some (mk_fdef KDataHash "yaml_data")) "" None), [].
  split; [ | split; [ | constructor ] ].
  - constructor; try reflexivity; cbn.
    + exists (mk_fdef KDataHash "yaml_data"). split; [ reflexivity | ]. split; [ now apply contains_not | ].
      split; [ | reflexivity ]. apply expands_plain. now apply contains_not.
    + apply dir_own; [ discriminate | ]. apply expands_plain. now apply contains_not.
    + exists "plugin". split; [ | reflexivity ]. apply dir_own; [ discriminate | ]. apply expands_plain. now apply contains_not.
  - cbn. induction ns as [|n ns IH]; [ constructor | ].
    cbn [forallb] in H. apply andb_true_iff in H as [Hn H]. apply negb_true_iff in Hn.
    cbn [map]. constructor; [ | exact (IH H) ].
    constructor; try reflexivity; cbn.
    + exists (mk_fdef KDataHash "yaml_data"). split; [ reflexivity | ]. split; [ now apply contains_not | reflexivity ].
    + apply dir_inherited.
    + exists (join2 dir "plugin"). split; [ apply dir_inherited | ]. cbn [e_plugindir]. unfold below. now rewrite B.
    + exists [[LPath (n ++ ".yaml") (yaml_at dir n) (od (yaml_at dir n))]]. split; [ | reflexivity ].
      constructor; [ | constructor ]. apply loc_path. apply expands_plain. apply contains_not. exact Hn.
Qed.
