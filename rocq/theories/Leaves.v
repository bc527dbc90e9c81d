(** What resolving a configuration leaves behind however it ends: used by C43. *)

From Coq Require Import String List ZArith Bool Arith.
From Verif Require Import Str Value Outcome Key Merge Fpath Config Ipl Explain State Engine Meta.
Import ListNotations.
Open Scope bool_scope.

(** Code that leaves the invocation as it was however it ends. *)
Definition still {A} (m : M st A) : Prop := forall s, s_iv (snd (m s)) = s_iv s.

(** The variables that mapped_paths bind. *)
Definition bound_by (l : location) (k : string) : Prop := exists src t, l = LMapped src k t.

Section Left.
  Variable vars : string -> Prop.
  (** The invocation, or it with one of the variables in front of its scope. *)
  Definition left_in (i i' : iv) : Prop :=
    i' = i \/ exists k v, vars k /\ i' = iv_with_scope (ScVar (iv_scope i) k v) i.
  (** Code that leaves the invocation like that, and as it was when it returns. *)
  Definition leaves {A} (m : M st A) : Prop :=
    forall s, left_in (s_iv s) (s_iv (snd (m s))) /\ (forall a, fst (m s) = Ok a -> s_iv (snd (m s)) = s_iv s).

  Lemma leaves_still A (m : M st A) : still m -> leaves m.
  Proof. intros H s. split; [ left; apply H | intros a _; apply H ]. Qed.
  Lemma leaves_bind A B (m : M st A) (f : A -> M st B) : leaves m -> (forall a, leaves (f a)) -> leaves (bind m f).
  Proof.
    intros Hm Hf s. unfold bind. specialize (Hm s). destruct (m s) as [[a|e| |] s1]; cbn [fst snd] in *;
      try (split; [ apply Hm | discriminate ]).
    destruct Hm as [_ Hm]. specialize (Hm a eq_refl). specialize (Hf a s1). rewrite Hm in Hf. exact Hf.
  Qed.
End Left.

(** What code returns, if it returns. *)
Definition lands {A} (P : A -> Prop) (m : M st A) : Prop := forall s a s', m s = (Ok a, s') -> P a.
Lemma lands_ret A (P : A -> Prop) a : P a -> lands P (@ret st A a).
Proof. intros H s b s' E. injection E as <- _. exact H. Qed.
Lemma lands_panic A (P : A -> Prop) e : lands P (@panic st A e).
Proof. intros s b s' E. discriminate E. Qed.
Lemma lands_bind A B (P : B -> Prop) (m : M st A) f : (forall a, lands P (f a)) -> lands P (bind m f).
Proof. intros H s b s' E. apply bind_ok in E as (a & s1 & _ & E). exact (H a _ _ _ E). Qed.
Lemma lands_then A B (Q : A -> Prop) (P : B -> Prop) (m : M st A) f : lands Q m -> (forall a, Q a -> lands P (f a)) -> lands P (bind m f).
Proof. intros Hm H s b s' E. apply bind_ok in E as (a & s1 & E1 & E). exact (H a (Hm _ _ _ E1) _ _ _ E). Qed.
Lemma leaves_then vars A B (Q : A -> Prop) (m : M st A) (f : A -> M st B) :
  leaves vars m -> lands Q m -> (forall a, Q a -> leaves vars (f a)) -> leaves vars (bind m f).
Proof.
  intros Hm Hq Hf s. unfold bind. specialize (Hm s). specialize (Hq s). destruct (m s) as [[a|e| |] s1]; cbn [fst snd] in *;
    try (split; [ apply Hm | discriminate ]).
  destruct Hm as [_ Hm]. specialize (Hm a eq_refl). specialize (Hf a (Hq a s1 eq_refl) s1). rewrite Hm in Hf. exact Hf.
Qed.

Lemma still_lift A (o : outcome A) : still (lift o).
Proof. intro s. reflexivity. Qed.
Lemma still_ret A (a : A) : still (@ret st A a).
Proof. intro s. reflexivity. Qed.
Lemma still_panic A e : still (@panic st A e).
Proof. intro s. reflexivity. Qed.
Lemma still_bind A B (m : M st A) (f : A -> M st B) : still m -> (forall a, still (f a)) -> still (bind m f).
Proof.
  intros Hm Hf s. unfold bind. specialize (Hm s). destruct (m s) as [[a|e| |] s1]; cbn [fst snd] in *; try exact Hm.
  rewrite (Hf a s1). exact Hm.
Qed.
Lemma still_op A (o : op A) : free_op o = true -> still (run_op o).
Proof.
  intros Ho s. destruct o; try discriminate Ho; try reflexivity.
  unfold run_op. destruct (iv_expl (s_iv s)); [ destruct (xaccept r (s_ex s)) | ]; reflexivity.
Qed.
Lemma still_node A k init (m : M st A) : still m -> still (run_scoped (SNode k init) m).
Proof.
  intros Hm s. unfold run_scoped. destruct (iv_expl (s_iv s)); [ | apply Hm ].
  destruct (xpush k init (s_ex s)) as [x|]; [ | reflexivity ].
  specialize (Hm (with_ex x s)). destruct (m _) as [o s1]. exact Hm.
Qed.

Lemma still_lift_bind A B (o : outcome A) (f : A -> M st B) : (forall a, o = Ok a -> still (f a)) -> still (bind (lift o) f).
Proof. intros H s. unfold bind, lift. destruct o as [a|e| |]; try reflexivity. exact (H a eq_refl s). Qed.

Section Still.
  Variable w : world.
  Variable rec : req -> M st res.
  Hypothesis Hq : forall s, still (rec (RStr s false)).

  Ltac step :=
    match goal with
    | |- still (ret _) => apply still_ret
    | |- still (panic _) => apply still_panic
    | |- still (lift _) => apply still_lift
    | |- still (run_op _) => apply still_op; reflexivity
    | |- still (run_scoped (SNode _ _) _) => apply still_node
    | |- still (bind _ _) => apply still_bind; [ | intro ]
    | |- still (if ?b then _ else _) => destruct b
    | |- still (match ?x with _ => _ end) => destruct x
    end.
  Ltac walk := repeat (first [ solve [eauto] | step ]).

  Lemma still_do_interp : forall v, still (do_interp rec false v).
  Proof.
    fix IH 1. intros v.
    destruct v as [|b|z|z|s|l|m|v]; simpl; try (apply still_ret); try (apply Hq).
    - apply still_bind; [ | intro; apply still_ret ].
      induction l as [|x t IHl]; [ apply still_ret | ].
      apply still_bind; [ apply IH | intro p ].
      apply still_bind; [ exact IHl | intro q; apply still_ret ].
    - apply still_bind; [ | intro; apply still_ret ].
      generalize (@nil (value * value)).
      induction m as [|[k v] t IHm]; intro cp; [ apply still_ret | ].
      apply still_bind; [ apply IH | intro p ].
      apply still_bind; [ apply IH | intro q ].
      apply still_bind; [ apply IHm | intro r; apply still_ret ].
  Qed.
  Lemma still_dig_step : forall p v, still (dig_step p v).
  Proof. intros. unfold dig_step. walk. Qed.
  Lemma still_dig_loop : forall ps v, still (dig_loop ps v).
  Proof. pose proof still_dig_step. induction ps as [|p r IH]; intro v; simpl; walk. Qed.
  Lemma still_dig_in : forall k v, still (dig_in k v).
  Proof. intros. pose proof still_dig_loop. unfold dig_in. destruct (tl (k_parts k)); walk. Qed.
  Lemma still_in_scope : forall e, still (in_scope rec false e).
  Proof. intros. pose proof still_do_interp. pose proof still_dig_in. unfold in_scope. walk. Qed.

  Lemma still_istr_loop : forall str ts acc m result, still (istr_loop w rec str false ts acc m result).
  Proof.
    pose proof still_in_scope as Hs.
    intros str. induction ts as [|t r IH]; intros acc m result; simpl; [ apply still_ret | ].
    destruct t as [l|e]; [ apply IH | ].
    destruct (empty_interpolation (trim_space e)); [ apply IH | ].
    apply still_lift_bind. intros [md d] E. apply no_methods in E as [-> ->]. simpl.
    apply still_bind; [ apply Hs | intro; apply IH ].
  Qed.
  Lemma still_istr : forall s, still (istr w rec s false).
  Proof. intros. pose proof still_istr_loop. unfold istr. walk. Qed.
  Lemma still_ask : forall A e (f : list event -> A), free_op (OAsk e) = true -> still (ask e f).
  Proof. intros. unfold ask. apply still_bind; [ apply still_op; assumption | intro; apply still_ret ]. Qed.
  Lemma still_interpolate : forall v, still (interpolate rec false v).
  Proof. intros. pose proof still_do_interp. unfold interpolate. walk. Qed.
End Still.

Lemma still_run : forall w n s, still (run w n (RStr s false)).
Proof.
  intros w. induction n as [|n IH]; intro s; simpl.
  - intro x. reflexivity.
  - apply still_istr. exact IH.
Qed.

Lemma leaves_var (vars : string -> Prop) k v A (m : M st A) : vars k -> still m ->
  leaves vars (bind (run_op OScope) (fun sc => run_scoped (SScope (ScVar sc k v)) m)).
Proof.
  intros Hk Hm s. unfold bind, run_op. cbn iota. unfold run_scoped.
  specialize (Hm (with_iv (iv_with_scope (ScVar (iv_scope (s_iv s)) k v) (s_iv s)) s)).
  destruct (m _) as [[a|e| |] s1]; cbn [fst snd] in *.
  - cbn [s_iv with_iv] in *. rewrite Hm.
    assert (E : iv_with_scope (iv_scope (s_iv s)) (iv_with_scope (ScVar (iv_scope (s_iv s)) k v) (s_iv s)) = s_iv s) by (destruct (s_iv s); reflexivity).
    rewrite E. split; [ left; reflexivity | reflexivity ].
  - split; [ | discriminate ]. right. exists k, v. split; [ exact Hk | exact Hm ].
  - split; [ | discriminate ]. right. exists k, v. split; [ exact Hk | exact Hm ].
  - split; [ | discriminate ]. right. exists k, v. split; [ exact Hk | exact Hm ].
Qed.

Section ResolveEntry.
  Variable w : world.
  Variable rec : req -> M st res.
  Hypothesis Hq : forall s, still (rec (RStr s false)).
  Variable vars : string -> Prop.

  Ltac step :=
    match goal with
    | |- still (ret _) => apply still_ret
    | |- still (panic _) => apply still_panic
    | |- still (lift _) => apply still_lift
    | |- still (run_op _) => apply still_op; reflexivity
    | |- still (ask _ _) => apply still_ask; reflexivity
    | |- still (bind _ _) => apply still_bind; [ | intro ]
    | |- still (if ?b then _ else _) => destruct b
    | |- still (match ?x with _ => _ end) => destruct x
    end.
  Ltac walk := repeat (first [ solve [eauto] | step ]).

  Let is := fun s => rec (RStr s false).
  Let isc := in_scope rec false.
  Let wv := fun k v (m : M st location) => bind (run_op OScope) (fun sc => run_scoped (SScope (ScVar sc k v)) m).
  Let sta := fun p => ask (EvStat p) (fun t => w_stat w t p).
  Let gl := fun p => ask (EvGlob p) (fun t => w_glob w t p).

  Lemma still_show_opt : forall o, still (show_opt (S:=st) (vstring w) o).
  Proof. intros. unfold show_opt. walk. Qed.

  Lemma leaves_mapped : forall dr k t l, vars k -> leaves vars (resolve_mapped is wv sta (vstring w) dr k t l).
  Proof.
    intros dr k t l Hk. pose proof still_show_opt. induction l as [|x r IH]; simpl; [ apply leaves_still, still_ret | ].
    apply leaves_bind; [ apply leaves_var; [ exact Hk | ] | intro; apply leaves_bind; [ exact IH | intro; apply leaves_still, still_ret ] ].
    unfold is, sta. walk.
  Qed.
  Lemma leaves_location : forall dr l, (forall k, bound_by l k -> vars k) -> leaves vars (resolve_location is isc wv sta gl (vstring w) dr l).
  Proof.
    intros dr l Hv. pose proof still_show_opt. unfold resolve_location. destruct l as [o r e|p|o r|src key t].
    - apply leaves_still. unfold is, sta. walk.
    - apply leaves_still. unfold is, gl. walk.
    - apply leaves_still. unfold is. walk.
    - apply leaves_bind; [ apply leaves_still, still_in_scope; exact Hq | intro ]. apply leaves_mapped. apply Hv. exists src, t. reflexivity.
  Qed.
  Lemma leaves_all : forall dr l, (forall x k, In x l -> bound_by x k -> vars k) -> leaves vars (resolve_all is isc wv sta gl (vstring w) dr l).
  Proof.
    intros dr l. induction l as [|x r IH]; intro Hv; simpl; [ apply leaves_still, still_ret | ].
    apply leaves_bind; [ apply leaves_location; intros k; apply Hv; now left | intro ].
    apply leaves_bind; [ apply IH; intros y k Hy; apply Hv; now right | intro; apply leaves_still, still_ret ].
  Qed.

  (** The variables of the mapped_paths of an entry. *)
  Definition entry_binds (e : entry) (k : string) : Prop := exists ls l, e_locations e = Some ls /\ In l ls /\ bound_by l k.

  Lemma leaves_entry : forall rt d e, (forall k, entry_binds e k -> vars k) -> leaves vars (resolve_entry w rec rt d e).
  Proof.
    intros rt d e Hv. pose proof still_show_opt as So. pose proof (still_interpolate rec Hq) as Si. unfold resolve_entry, entry_resolve.
    assert (Keep : forall e', e_locations e' = e_locations e -> leaves vars (resolve_locations is isc wv sta gl (vstring w) rt e')).
    { intros e' E. unfold resolve_locations. destruct (e_locations e') as [ls|] eqn:El; [ | apply leaves_still, still_ret ].
      apply leaves_bind; [ | intro; apply leaves_still, still_ret ]. apply leaves_all. intros x k Hx Hk. apply Hv. exists ls, x. rewrite <- E. auto. }
    assert (Rf : forall e', still (resolve_function is (vstring w) d e')) by (intro e'; unfold resolve_function, function_resolve, is; walk).
    assert (Rd : forall e', still (resolve_datadir is (vstring w) (w_env w) d e')) by (intro e'; unfold resolve_datadir, interp_dir; pose proof (Rf e'); unfold is; walk).
    assert (Rp : forall e', still (resolve_plugindir is (vstring w) (w_env w) rt d e')) by (intro e'; unfold resolve_plugindir, interp_dir, is; walk).
    assert (Ro : forall e', still (resolve_options (interpolate rec false) d e')) by (intro e'; unfold resolve_options; walk).
    assert (Lf : forall e', lands (fun x => e_locations x = e_locations e') (resolve_function is (vstring w) d e')).
    { intro e'. unfold resolve_function. apply lands_bind. intros [f|]; [ apply lands_ret; reflexivity | apply lands_panic ]. }
    assert (Ld : forall e', lands (fun x => e_locations x = e_locations e') (resolve_datadir is (vstring w) (w_env w) d e')).
    { intro e'. unfold resolve_datadir. apply (lands_then _ _ _ _ _ _ (Lf e')). intros e1 E1. destruct (String.eqb (e_datadir e1) "").
      - apply lands_ret. exact E1.
      - apply lands_bind. intro. apply lands_ret. exact E1. }
    assert (Lp : forall e', lands (fun x => e_locations x = e_locations e') (resolve_plugindir is (vstring w) (w_env w) rt d e')).
    { intro e'. unfold resolve_plugindir. apply lands_bind. intro. apply lands_ret. reflexivity. }
    assert (Lo : forall e', lands (fun x => e_locations x = e_locations e') (resolve_options (interpolate rec false) d e')).
    { intro e'. unfold resolve_options. apply lands_bind. intro. apply lands_ret. reflexivity. }
    apply (leaves_then vars _ _ _ _ _ (leaves_still vars _ _ (Rf e)) (Lf e)). intros e1 E1.
    apply (leaves_then vars _ _ _ _ _ (leaves_still vars _ _ (Rd e1)) (Ld e1)). intros e2 E2.
    apply (leaves_then vars _ _ _ _ _ (leaves_still vars _ _ (Rp e2)) (Lp e2)). intros e3 E3.
    apply (leaves_then vars _ _ _ _ _ (leaves_still vars _ _ (Ro e3)) (Lo e3)). intros e4 E4.
    apply Keep. congruence.
  Qed.

  Lemma leaves_each : forall rt d es, (forall e k, In e es -> entry_binds e k -> vars k) -> leaves vars (create_each w rec rt d es).
  Proof.
    intros rt d es. induction es as [|e r IH]; intro Hv; simpl; [ apply leaves_still, still_ret | ].
    apply leaves_bind; [ apply leaves_entry; intro k; apply Hv; now left | intro e' ].
    apply leaves_bind; [ apply leaves_still; unfold create_provider; walk | intro p ].
    apply leaves_bind; [ apply IH; intros x k Hx; apply Hv; now right | intro; apply leaves_still, still_ret ].
  Qed.
  Lemma leaves_providers : forall c es, (forall e k, In e (c_defaults c :: es) -> entry_binds e k -> vars k) -> leaves vars (create_providers w rec c es).
  Proof.
    intros c es Hv. unfold create_providers. apply leaves_bind; [ apply leaves_entry; intro k; apply Hv; now left | intro ].
    apply leaves_each. intros e k He. apply Hv. now right.
  Qed.
End ResolveEntry.
