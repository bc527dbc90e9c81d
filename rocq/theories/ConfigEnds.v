(** Reading a configuration gives one or fails, and what its entries have. *)

From Coq Require Import String Ascii List ZArith Bool Arith Lia.
From Verif Require Import Str Value Outcome Config ValueFacts.
Import ListNotations.
Open Scope string_scope.
Open Scope list_scope.

(** An outcome that is a value or an error. *)
Definition ends {A} (o : outcome A) : Prop := (exists a, o = Ok a) \/ exists x, o = Panic x.

Lemma ends_ok A (a : A) : ends (Ok a).
Proof. left. eexists. reflexivity. Qed.
Lemma ends_panic A x : @ends A (Panic x).
Proof. right. eexists. reflexivity. Qed.
Lemma ends_bind A B (o : outcome A) (f : A -> outcome B) : ends o -> (forall a, ends (f a)) -> ends (obind o f).
Proof. intros [(a & ->)|(x & ->)] H; cbn [obind]; [ apply H | apply ends_panic ]. Qed.
Lemma ends_map A B (o : outcome A) (f : A -> B) : ends o -> ends (omap f o).
Proof. intros [(a & ->)|(x & ->)]; cbn; [ apply ends_ok | apply ends_panic ]. Qed.

Lemma ends_string v : ends (as_string v).
Proof. destruct v; cbn [as_string]; first [ apply ends_ok | apply ends_panic ]. Qed.

Lemma ends_reserved name m : ends (check_reserved name m).
Proof.
  induction m as [|[k v] m IH]; cbn [check_reserved]; [ apply ends_ok | ]. apply ends_bind; [ apply ends_string | ]. intro ks.
  destruct (contains_string reserved_keys ks); [ apply ends_panic | exact IH ].
Qed.
Lemma ends_initialize name : forall m e, ends (initialize name m e).
Proof.
  induction m as [|[k v] m IH]; intro e; cbn [initialize]; [ apply ends_ok | ]. apply ends_bind; [ apply ends_string | ]. intro ks.
  destruct (String.eqb ks "options").
  - destruct v; try apply ends_panic. apply ends_bind; [ apply ends_reserved | intros; apply IH ].
  - destruct (contains_string function_keys ks); [ | apply IH ].
    destruct (e_function e); [ apply ends_panic | ]. apply ends_bind; [ apply ends_string | intros; apply IH ].
Qed.
Lemma ends_strings v : ends (array_strings v).
Proof.
  destruct v; cbn [array_strings]; try apply ends_panic. induction l as [|x l IH]; cbn [strings_of]; [ apply ends_ok | ].
  apply ends_bind; [ apply ends_string | ]. intro s. apply ends_bind; [ exact IH | ]. intro. apply ends_ok.
Qed.
Lemma ends_locations ks v : ends (make_locations ks v).
Proof.
  unfold make_locations.
  repeat match goal with |- context [if ?b then _ else _] => destruct b end;
    try (apply ends_map; first [ apply ends_string | apply ends_strings ]).
  apply ends_bind; [ apply ends_strings | ]. intros [|a [|b [|d l]]]; first [ apply ends_panic | apply ends_ok ].
Qed.
Lemma ends_fields name : forall m e, ends (entry_fields name m e).
Proof.
  induction m as [|[k v] m IH]; intro e; cbn [entry_fields]; [ apply ends_ok | ]. apply ends_bind; [ apply ends_string | ]. intro ks.
  repeat match goal with |- context [if ?b then _ else _] => destruct b end;
    first [ apply ends_panic | apply IH
          | apply ends_bind; [ first [ apply ends_string | apply ends_locations ] | intros; apply IH ] ].
Qed.
Lemma ends_entry name m : ends (create_entry name m).
Proof. unfold create_entry. apply ends_bind; [ apply ends_initialize | intros; apply ends_fields ]. Qed.
Lemma ends_hierarchy : forall l names, ends (create_hierarchy names l).
Proof.
  induction l as [|v l IH]; intro names; cbn [create_hierarchy]; [ apply ends_ok | ]. destruct v; try apply ends_panic.
  apply ends_bind; [ destruct (mgets "name" m); [ apply ends_string | apply ends_ok ] | ]. intro name.
  destruct (contains_string names name); [ apply ends_panic | ].
  apply ends_bind; [ apply ends_entry | ]. intro e. apply ends_bind; [ apply IH | intros; apply ends_ok ].
Qed.

Lemma ends_config env path file : ends (config_new env path file).
Proof.
  destruct file as [|x|v]; cbn [config_new]; [ apply ends_ok | apply ends_panic | ]. destruct v; try apply ends_panic.
  destruct (cfg_type (VMap m)); [ | apply ends_panic ]. unfold create_config. apply ends_bind.
  { destruct (mgets "defaults" m) as [[]|]; first [ apply ends_entry | apply ends_panic | apply ends_ok ]. }
  intro d. apply ends_bind.
  { destruct (mgets "hierarchy" m) as [[]|]; first [ apply ends_hierarchy | apply ends_panic | apply ends_ok ]. }
  intro h. apply ends_bind.
  { destruct (mgets "default_hierarchy" m) as [[]|]; first [ apply ends_hierarchy | apply ends_panic | apply ends_ok ]. }
  intro dh. apply ends_ok.
Qed.

(** ** Options *)

Definition orderly_entry (e : entry) : Prop := forall o, e_options e = Some o -> wf (VMap o) = true.

Lemma obind_ok A B (o : outcome A) (f : A -> outcome B) b : obind o f = Ok b -> exists a, o = Ok a /\ f a = Ok b.
Proof. destruct o; cbn [obind]; try discriminate. eauto. Qed.

Lemma entries_wf m : wf (VMap m) = true -> Forall (fun e => wf (snd e) = true) m.
Proof.
  intro W. cbn [wf] in W. apply andb_true_iff in W as [_ W]. apply Forall_forall. intros e He.
  pose proof (proj1 (forallb_forall _ _) W e He) as K. cbn in K. apply andb_true_iff in K as [_ K]. exact K.
Qed.

Lemma orderly_initialize name : forall m e e', Forall (fun e => wf (snd e) = true) m -> orderly_entry e -> initialize name m e = Ok e' -> orderly_entry e'.
Proof.
  induction m as [|[k v] m IH]; intros e e' W He E; cbn [initialize] in E; [ injection E as <-; exact He | ].
  inversion W as [|? ? Wv Wm]; subst. cbn [snd] in Wv. apply obind_ok in E as (ks & _ & E).
  destruct (String.eqb ks "options").
  - destruct v; try discriminate. apply obind_ok in E as (u & _ & E). apply (IH _ _ Wm) in E; [ exact E | ].
    intros o Eo. cbn [set_options e_options] in Eo. injection Eo as <-. exact Wv.
  - destruct (contains_string function_keys ks); [ | exact (IH _ _ Wm He E) ].
    destruct (e_function e); [ discriminate | ]. apply obind_ok in E as (u & _ & E). apply (IH _ _ Wm) in E; [ exact E | exact He ].
Qed.
Lemma orderly_fields name : forall m e e', orderly_entry e -> entry_fields name m e = Ok e' -> orderly_entry e'.
Proof.
  induction m as [|[k v] m IH]; intros e e' He E; cbn [entry_fields] in E; [ injection E as <-; exact He | ].
  apply obind_ok in E as (ks & _ & E).
  repeat match type of E with context [if ?b then _ else _] => destruct b end;
    try discriminate E; try (apply obind_ok in E as (u & _ & E)); (refine (IH _ _ _ E); exact He).
Qed.
Lemma orderly_create name m e : wf (VMap m) = true -> create_entry name m = Ok e -> orderly_entry e.
Proof.
  intros W E. unfold create_entry in E. apply obind_ok in E as (e1 & E1 & E). refine (orderly_fields _ _ _ _ _ E).
  refine (orderly_initialize _ _ _ _ (entries_wf m W) _ E1). discriminate.
Qed.
Lemma orderly_hierarchy : forall l names es, forallb wf l = true -> create_hierarchy names l = Ok es -> Forall orderly_entry es.
Proof.
  induction l as [|v l IH]; intros names es W E; cbn [create_hierarchy] in E; [ injection E as <-; constructor | ].
  cbn [forallb] in W. apply andb_true_iff in W as [Wv W]. destruct v; try discriminate.
  apply obind_ok in E as (name & _ & E). destruct (contains_string names name); [ discriminate | ].
  apply obind_ok in E as (e & E1 & E). apply obind_ok in E as (es' & E2 & E). injection E as <-.
  constructor; [ exact (orderly_create _ _ _ Wv E1) | exact (IH _ _ W E2) ].
Qed.

Lemma mgets_wf_any k m v : wf (VMap m) = true -> mgets k m = Some v -> wf v = true.
Proof.
  intros W E. apply entries_wf in W. unfold mgets in E. revert E. induction m as [|[k' v'] m IH]; cbn [mget]; [ discriminate | ].
  inversion W as [|? ? Wv Wm]; subst. destruct (veq (VStr k) k'); [ intro E; injection E as <-; exact Wv | exact (IH Wm) ].
Qed.

Lemma orderly_config env path file c : (forall v, file = CfYaml v -> wf v = true) -> config_new env path file = Ok c ->
  forall e, In e (c_defaults c :: c_hierarchy c ++ c_default_hierarchy c) -> orderly_entry e.
Proof.
  intros W E.
  assert (D : Forall orderly_entry default_hierarchy) by (repeat constructor; discriminate).
  assert (Q : orderly_entry (c_defaults c) /\ Forall orderly_entry (c_hierarchy c) /\ Forall orderly_entry (c_default_hierarchy c)).
  { destruct file as [|x|v]; cbn [config_new] in E; [ | discriminate | ].
    - injection E as <-. cbn [c_defaults c_hierarchy c_default_hierarchy]. split; [ discriminate | split; [ exact D | constructor ] ].
    - specialize (W v eq_refl). destruct v; try discriminate. destruct (cfg_type (VMap m)); [ | discriminate ].
      unfold create_config in E. apply obind_ok in E as (d & E1 & E). apply obind_ok in E as (h & E2 & E).
      apply obind_ok in E as (dh & E3 & E). injection E as <-. cbn [c_defaults c_hierarchy c_default_hierarchy]. split; [ | split ].
      + destruct (mgets "defaults" m) as [v|] eqn:Em; [ | injection E1 as <-; discriminate ].
        pose proof (mgets_wf_any _ _ _ W Em) as Wv. destruct v; try discriminate. exact (orderly_create _ _ _ Wv E1).
      + destruct (mgets "hierarchy" m) as [v|] eqn:Em; [ | injection E2 as <-; exact D ].
        pose proof (mgets_wf_any _ _ _ W Em) as Wv. destruct v; try discriminate. exact (orderly_hierarchy _ _ _ Wv E2).
      + destruct (mgets "default_hierarchy" m) as [v|] eqn:Em; [ | injection E3 as <-; constructor ].
        pose proof (mgets_wf_any _ _ _ W Em) as Wv. destruct v; try discriminate. exact (orderly_hierarchy _ _ _ Wv E3). }
  destruct Q as (Q1 & Q2 & Q3). intros e [<-|He]; [ exact Q1 | ]. apply in_app_or in He as [He|He].
  - exact (proj1 (Forall_forall _ _) Q2 e He).
  - exact (proj1 (Forall_forall _ _) Q3 e He).
Qed.
