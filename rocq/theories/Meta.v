(** Relations between runs of the engine that are closed under its operations.
    The engine is built from [ret], [bind], [lift], the operations of [op] and
    those of [scoped] only, so a relation that respects these holds between the
    engine and itself. *)

From Coq Require Import String List ZArith Bool Arith.
From Verif Require Import Str Value Outcome Key Merge Fpath Config Ipl Explain State Engine.
Import ListNotations.
Open Scope bool_scope.

Definition rel : Type := forall A : Type, M st A -> M st A -> Prop.

(** The operations that only one part of the engine uses; the relation is asked
    to respect that part as a whole. *)
Definition free_op {A} (o : op A) : bool :=
  match o with
  | OPutHash _ _ _ => false
  | OSetShared _ _ => false
  | OAsk (EvConfig _) => false
  | OSetLuOpts _ => false
  | OSetStrat _ => false
  | OSetMod _ _ => false
  | _ => true
  end.

(** Code that leaves the ivContext as it was when it returns normally. *)
Definition quiet {A} (m : M st A) : Prop := forall s a s', m s = (Ok a, s') -> s_iv s' = s_iv s.

Record closed (w : world) (R : rel) : Prop := mk_closed {
  c_lift : forall A (o : outcome A), R A (lift o) (lift o);
  c_bind : forall A B (m m' : M st A) (f f' : A -> M st B),
      R A m m' -> (forall a, R B (f a) (f' a)) -> R B (bind m f) (bind m' f');
  c_op : forall A (o : op A), free_op o = true -> R A (run_op o) (run_op o);
  c_scoped : forall A sc (m m' : M st A), sc <> SConfig -> R A m m' -> R A (run_scoped sc m) (run_scoped sc m');
  c_config : forall A (m m' : M st A), quiet m -> quiet m' -> R A m m' ->
      R A (run_scoped SConfig m) (run_scoped SConfig m');
  c_fill : forall id k m m', R _ m m' -> R _ (fill id k m) (fill id k m');
  c_shared : forall p, R _ (shared_config w p) (shared_config w p);
  c_set_merge : forall c l, R _ (set_merge c l) (set_merge c l);
  c_module : forall name, R _ (module_config w name) (module_config w name)
}.

(** ** Quiet code *)

Lemma quiet_lift : forall A (o : outcome A), quiet (lift o).
Proof. intros A o s a s' H. unfold lift in H. injection H as _ <-. reflexivity. Qed.
Lemma quiet_ret : forall A (a : A), quiet (ret a).
Proof. intros. exact (quiet_lift A (Ok a)). Qed.
Lemma quiet_panic : forall A e, quiet (@panic st A e).
Proof. intros. exact (quiet_lift A (Panic e)). Qed.
Lemma quiet_nofuel : forall A, quiet (@nofuel st A).
Proof. intros. exact (quiet_lift A NoFuel). Qed.

Lemma bind_ok : forall S A B (m : M S A) (f : A -> M S B) s b s',
    bind m f s = (Ok b, s') -> exists a s1, m s = (Ok a, s1) /\ f a s1 = (Ok b, s').
Proof.
  unfold bind. intros S A B m f s b s' H. destruct (m s) as [[a|e| |] s1]; try discriminate. eauto.
Qed.

Lemma quiet_bind : forall A B (m : M st A) (f : A -> M st B),
    quiet m -> (forall a, quiet (f a)) -> quiet (bind m f).
Proof.
  intros A B m f Hm Hf s b s' H. apply bind_ok in H as (a & s1 & H1 & H2).
  rewrite (Hf _ _ _ _ H2). exact (Hm _ _ _ H1).
Qed.

Lemma quiet_op : forall A (o : op A), free_op o = true -> quiet (run_op o).
Proof.
  intros A o Ho s a s' H. destruct o; try discriminate Ho; unfold run_op in H;
    try (injection H as _ <-; reflexivity).
  destruct (iv_expl (s_iv s)); [ destruct (xaccept r (s_ex s)) | ]; try discriminate;
    injection H as _ <-; reflexivity.
Qed.

Lemma quiet_copy : forall A f (m : M st A), quiet (with_copy f m).
Proof.
  intros A f m s a s' H. unfold with_copy in H.
  destruct (m _) as [o s1]. injection H as _ <-. reflexivity.
Qed.

Lemma iv_with_scope_back : forall i sc i', i' = iv_with_scope sc i -> iv_with_scope (iv_scope i) i' = i.
Proof. intros [] sc i' ->. reflexivity. Qed.

Lemma quiet_scoped : forall A sc (m : M st A), quiet m -> quiet (run_scoped sc m).
Proof.
  intros A sc m Hm s a s' H. destruct sc; unfold run_scoped in H.
  - destruct (iv_expl (s_iv s)); [ | exact (Hm _ _ _ H) ].
    destruct (xpush k init (s_ex s)); [ | discriminate ].
    destruct (m _) as [o s1] eqn:E. injection H as -> <-. apply Hm in E. exact E.
  - destruct (iv_mode (s_iv s)); [ .. | exact (Hm _ _ _ H) ]; exact (quiet_copy _ _ _ _ _ _ H).
  - destruct (iv_mode (s_iv s)); [ | exact (Hm _ _ _ H) | ]; exact (quiet_copy _ _ _ _ _ _ H).
  - destruct (iv_expl (s_iv s)); [ exact (quiet_copy _ _ _ _ _ _ H) | exact (Hm _ _ _ H) ].
  - destruct (m _) as [[x|e| |] s1] eqn:E; try discriminate. injection H as _ <-. apply Hm in E.
    simpl in *. exact (iv_with_scope_back _ _ _ E).
  - destruct (iv_redacted (s_iv s)) eqn:Er; [ exact (Hm _ _ _ H) | ].
    destruct (m _) as [o s1] eqn:E. injection H as -> <-. apply Hm in E. simpl in *. rewrite E.
    destruct (s_iv s); simpl in *. rewrite Er. reflexivity.
  - destruct (ps_locked _); [ discriminate | ].
    destruct (m _) as [o s1] eqn:E. injection H as -> <-. apply Hm in E. exact E.
Qed.

Section Quiet.
  Variable w : world.
  Variable rec : req -> M st res.
  Hypothesis Hq : forall s, quiet (rec (RStr s false)).

  Ltac step :=
    match goal with
    | |- quiet (ret _) => apply quiet_ret
    | |- quiet (panic _) => apply quiet_panic
    | |- quiet (lift _) => apply quiet_lift
    | |- quiet (run_op _) => apply quiet_op; reflexivity
    | |- quiet (run_scoped _ _) => apply quiet_scoped
    | |- quiet (bind _ _) => apply quiet_bind; [ | intro ]
    | |- quiet (if ?b then _ else _) => destruct b
    | |- quiet (match ?x with _ => _ end) => destruct x
    end.
  Ltac walk := repeat (first [ solve [eauto] | step ]).

  Lemma quiet_do_interp : forall v, quiet (do_interp rec false v).
  Proof.
    fix IH 1. intros v.
    destruct v as [|b|z|z|s|l|m|v]; simpl; try (apply quiet_ret); try (apply Hq).
    - apply quiet_bind; [ | intro; apply quiet_ret ].
      induction l as [|x t IHl]; [ apply quiet_ret | ].
      apply quiet_bind; [ apply IH | intro p ].
      apply quiet_bind; [ exact IHl | intro q; apply quiet_ret ].
    - apply quiet_bind; [ | intro; apply quiet_ret ].
      generalize (@nil (value * value)).
      induction m as [|[k v] t IHm]; intro cp; [ apply quiet_ret | ].
      apply quiet_bind; [ apply IH | intro p ].
      apply quiet_bind; [ apply IH | intro q ].
      apply quiet_bind; [ apply IHm | intro r; apply quiet_ret ].
  Qed.

  Lemma quiet_dig_step : forall p v, quiet (dig_step p v).
  Proof. intros. unfold dig_step. walk. Qed.
  Lemma quiet_dig_loop : forall ps v, quiet (dig_loop ps v).
  Proof. pose proof quiet_dig_step. induction ps as [|p r IH]; intro v; simpl; walk. Qed.
  Lemma quiet_dig_in : forall k v, quiet (dig_in k v).
  Proof. intros. pose proof quiet_dig_loop. unfold dig_in. destruct (tl (k_parts k)); walk. Qed.
  Lemma quiet_in_scope : forall e, quiet (in_scope rec false e).
  Proof. intros. pose proof quiet_do_interp. pose proof quiet_dig_in. unfold in_scope. walk. Qed.

  (** Without methods only the scope is used. *)
  Lemma no_methods : forall e m d, method_and_data e false = Ok (m, d) -> m = MScope /\ d = e.
  Proof.
    unfold method_and_data. intros e m d H. destruct (method_match e) as [[n a]|]; [ discriminate | ].
    injection H as <- <-. auto.
  Qed.

  Lemma quiet_lift_bind : forall A B (o : outcome A) (f : A -> M st B),
      (forall a, o = Ok a -> quiet (f a)) -> quiet (bind (lift o) f).
  Proof.
    intros A B o f H s b s' E. apply bind_ok in E as (a & s1 & E1 & E2).
    unfold lift in E1. injection E1 as -> <-. exact (H a eq_refl _ _ _ E2).
  Qed.

  Lemma quiet_istr_loop : forall str ts acc m result,
      quiet (istr_loop w rec str false ts acc m result).
  Proof.
    pose proof quiet_in_scope as Hs.
    intros str. induction ts as [|t r IH]; intros acc m result; simpl; [ apply quiet_ret | ].
    destruct t as [l|e]; [ apply IH | ].
    destruct (empty_interpolation (trim_space e)); [ apply IH | ].
    apply quiet_lift_bind. intros [md d] E. apply no_methods in E as [-> ->]. simpl.
    apply quiet_bind; [ apply Hs | intro; apply IH ].
  Qed.

  Lemma quiet_istr : forall s, quiet (istr w rec s false).
  Proof. intros. pose proof quiet_istr_loop. unfold istr. walk. Qed.

  Lemma quiet_ask : forall A e (f : list event -> A), free_op (OAsk e) = true -> quiet (ask e f).
  Proof. intros. unfold ask. apply quiet_bind; [ apply quiet_op; assumption | intro; apply quiet_ret ]. Qed.

  Lemma quiet_interpolate : forall v, quiet (interpolate rec false v).
  Proof. intros. pose proof quiet_do_interp. unfold interpolate. walk. Qed.

  Section ResolveEntry.
    Variables (is : string -> M st (option value * bool)) (ivl : value -> M st (option value))
              (isc : string -> M st (option value))
              (wv : string -> value -> M st location -> M st location)
              (sta : string -> M st bool) (gl : string -> M st (list string)).
    Hypothesis H1 : forall s, quiet (is s).
    Hypothesis H2 : forall s, quiet (ivl s).
    Hypothesis H3 : forall s, quiet (isc s).
    Hypothesis H4 : forall k v m, quiet m -> quiet (wv k v m).
    Hypothesis H5 : forall s, quiet (sta s).
    Hypothesis H6 : forall s, quiet (gl s).
    Variables (show : value -> string) (env : environ) (rt : string).

    Lemma quiet_show_opt : forall o, quiet (show_opt (S:=st) show o).
    Proof. intros. unfold show_opt. walk. Qed.
    Lemma quiet_resolve_mapped : forall dr k t l, quiet (resolve_mapped is wv sta show dr k t l).
    Proof.
      intros dr k t. pose proof quiet_show_opt. induction l as [|x r IH]; simpl; [ apply quiet_ret | ].
      apply quiet_bind; [ apply H4 | intro ]; walk.
    Qed.
    Lemma quiet_resolve_location : forall dr l, quiet (resolve_location is isc wv sta gl show dr l).
    Proof. intros. pose proof quiet_show_opt. pose proof quiet_resolve_mapped. unfold resolve_location. destruct l; walk. Qed.
    Lemma quiet_resolve_all : forall dr l, quiet (resolve_all is isc wv sta gl show dr l).
    Proof. intros dr l. pose proof quiet_resolve_location. induction l as [|x r IH]; simpl; walk. Qed.
    Lemma quiet_resolve_function : forall d e, quiet (resolve_function is show d e).
    Proof. intros. pose proof quiet_show_opt. unfold resolve_function, function_resolve. walk. Qed.
    Lemma quiet_entry_resolve : forall d e, quiet (entry_resolve is ivl isc wv sta gl show env rt d e).
    Proof.
      intros. pose proof quiet_resolve_function. pose proof quiet_resolve_all. pose proof quiet_show_opt.
      unfold entry_resolve, resolve_datadir, resolve_plugindir, resolve_options, resolve_locations, interp_dir. walk.
    Qed.
  End ResolveEntry.

  Lemma quiet_resolve_entry : forall rt d e, quiet (resolve_entry w rec rt d e).
  Proof.
    intros. unfold resolve_entry.
    apply quiet_entry_resolve; intros; walk; try (apply quiet_ask; reflexivity);
      [ apply quiet_interpolate | apply quiet_in_scope ].
  Qed.

  Lemma quiet_create_provider : forall e, quiet (create_provider e).
  Proof. intros. unfold create_provider. walk. Qed.

  Lemma quiet_create_each : forall rt d es, quiet (create_each w rec rt d es).
  Proof.
    intros rt d. pose proof quiet_resolve_entry. pose proof quiet_create_provider.
    induction es as [|e r IH]; simpl; walk.
  Qed.

  Lemma quiet_create_providers : forall c es, quiet (create_providers w rec c es).
  Proof. intros. pose proof quiet_resolve_entry. pose proof quiet_create_each. unfold create_providers. walk. Qed.
End Quiet.

Lemma quiet_run : forall w n s, quiet (run w n (RStr s false)).
Proof.
  intros w. induction n as [|n IH]; intro s; simpl.
  - apply quiet_nofuel.
  - apply quiet_istr. exact IH.
Qed.


Section Closed.
  Variable w : world.
  Variable R : rel.
  Variable C : closed w R.

  Lemma c_ret : forall A (a : A), R A (ret a) (ret a).
  Proof. intros A a. exact (c_lift w R C A (Ok a)). Qed.
  Lemma c_panic : forall A e, R A (panic e) (panic e).
  Proof. intros A e. exact (c_lift w R C A (Panic e)). Qed.
  Lemma c_hang : forall A, R A hang hang.
  Proof. intros A. exact (c_lift w R C A Hang). Qed.
  Lemma c_nofuel : forall A, R A nofuel nofuel.
  Proof. intros A. exact (c_lift w R C A NoFuel). Qed.

  Ltac step :=
    match goal with
    | |- R _ (ret _) _ => apply c_ret
    | |- R _ (panic _) _ => apply c_panic
    | |- R _ hang _ => apply c_hang
    | |- R _ nofuel _ => apply c_nofuel
    | |- R _ (lift _) _ => apply (c_lift w R C)
    | |- R _ (run_op _) _ => apply (c_op w R C); reflexivity
    | |- R _ (run_scoped _ _) _ => apply (c_scoped w R C); [ discriminate | ]
    | |- R _ (bind _ _) _ => apply (c_bind w R C); [ | intro ]
    | |- R _ (if ?b then _ else _) _ => destruct b
    | |- R _ (match ?x with _ => _ end) _ => destruct x
    end.
  Ltac walk := repeat (first [ solve [eauto] | step ]).

  Section Merging.
    Variable L : Type.
    Variables f f' : L -> M st (option value).
    Hypothesis Hf : forall l, R _ (f l) (f' l).

    Lemma c_first_loop : forall vs, R _ (first_loop f vs) (first_loop f' vs).
    Proof. induction vs as [|x r IH]; simpl; walk. Qed.

    Lemma c_merge_loop : forall s vs memo, R _ (merge_loop f s memo vs) (merge_loop f' s memo vs).
    Proof. intros s; induction vs as [|x r IH]; intro memo; simpl; walk. Qed.

    Lemma c_report_some : forall v, R _ (report_some report_result v) (report_some report_result v).
    Proof. intros v. unfold report_some, report_result. walk. Qed.

    Lemma c_merging : forall s vs, R _ (merging s vs f) (merging s vs f').
    Proof.
      intros s vs. unfold merging, merge_lookup, with_merge.
      pose proof c_first_loop. pose proof c_merge_loop. pose proof c_report_some.
      destruct s; destruct vs as [|x [|y r]]; walk.
    Qed.
  End Merging.

  Variables rec rec' : req -> M st res.
  Hypothesis Hrec : forall r, R _ (rec r) (rec' r).
  Hypothesis Hq : forall s, quiet (rec (RStr s false)).
  Hypothesis Hq' : forall s, quiet (rec' (RStr s false)).

  Lemma c_ask : forall A e (f : list event -> A), free_op (OAsk e) = true -> R _ (ask e f) (ask e f).
  Proof. intros. unfold ask. apply (c_bind w R C); [ apply (c_op w R C); assumption | intro; apply c_ret ]. Qed.

  Lemma c_do_interp : forall allow v, R _ (do_interp rec allow v) (do_interp rec' allow v).
  Proof.
    intros allow. fix IH 1. intros v.
    destruct v as [|b|z|z|s|l|m|v]; simpl; try (apply c_ret); try (apply Hrec).
    - apply (c_bind w R C); [ | intro; apply c_ret ].
      induction l as [|x t IHl]; [ apply c_ret | ].
      apply (c_bind w R C); [ apply IH | intro p ].
      apply (c_bind w R C); [ exact IHl | intro q; apply c_ret ].
    - apply (c_bind w R C); [ | intro; apply c_ret ].
      generalize (@nil (value * value)).
      induction m as [|[k v] t IHm]; intro cp; [ apply c_ret | ].
      apply (c_bind w R C); [ apply IH | intro p ].
      apply (c_bind w R C); [ apply IH | intro q ].
      apply (c_bind w R C); [ apply IHm | intro r; apply c_ret ].
  Qed.

  Lemma c_interpolate : forall allow v, R _ (interpolate rec allow v) (interpolate rec' allow v).
  Proof. intros. pose proof c_do_interp. unfold interpolate. walk. Qed.

  Lemma c_dig_step : forall p v, R _ (dig_step p v) (dig_step p v).
  Proof. intros. unfold dig_step. walk. Qed.

  Lemma c_dig_loop : forall ps v, R _ (dig_loop ps v) (dig_loop ps v).
  Proof.
    pose proof c_dig_step.
    induction ps as [|p r IH]; intro v; simpl; walk.
  Qed.

  Lemma c_dig_in : forall k v, R _ (dig_in k v) (dig_in k v).
  Proof. intros. pose proof c_dig_loop. unfold dig_in. destruct (tl (k_parts k)); walk. Qed.

  Lemma c_in_scope : forall allow e, R _ (in_scope rec allow e) (in_scope rec' allow e).
  Proof. intros. pose proof c_do_interp. pose proof c_dig_in. unfold in_scope. walk. Qed.

  Lemma c_istr_loop : forall str allow ts acc m result,
      R _ (istr_loop w rec str allow ts acc m result) (istr_loop w rec' str allow ts acc m result).
  Proof.
    pose proof c_in_scope.
    intros str allow. induction ts as [|t r IH]; intros acc m result; simpl; [ apply c_ret | ].
    destruct t as [l|e]; [ apply IH | ].
    destruct (empty_interpolation (trim_space e)); [ apply IH | ].
    apply (c_bind w R C); [ walk | intro md ].
    destruct (is_alias (fst md) && negb (String.eqb ("%{" ++ e ++ "}") str)); [ walk | ].
    destruct (fst md); walk.
  Qed.

  Lemma c_istr : forall s allow, R _ (istr w rec s allow) (istr w rec' s allow).
  Proof. intros. pose proof c_istr_loop. unfold istr. walk. Qed.

  Lemma c_run_prog : forall p, R _ (run_prog rec p) (run_prog rec' p).
  Proof.
    pose proof c_interpolate.
    induction p; simpl; walk.
  Qed.

  Lemma c_call_fn : forall f a, R _ (call_fn w rec f a) (call_fn w rec' f a).
  Proof. intros. pose proof c_ask. pose proof c_run_prog. unfold call_fn. walk. Qed.

  Lemma c_load_function : forall e n, R _ (load_function w e n) (load_function w e n).
  Proof. intros. pose proof c_ask. unfold load_function. walk. Qed.

  Lemma c_provider_options : forall e l, R _ (provider_options e l) (provider_options e l).
  Proof. intros. unfold provider_options. walk. Qed.

  Lemma c_load_provider : forall e f, R _ (load_provider w e f) (load_provider w e f).
  Proof. intros. pose proof c_load_function. unfold load_provider. walk. Qed.

  Lemma c_provider_function : forall i e f, R _ (provider_function w i e f) (provider_function w i e f).
  Proof. intros. pose proof c_load_provider. unfold provider_function. walk. Qed.

  Lemma c_file_data : forall j o, R _ (file_data w j o) (file_data w j o).
  Proof. intros. pose proof c_ask. unfold file_data. walk. Qed.

  Lemma c_call_hash : forall l o, R _ (call_hash w rec l o) (call_hash w rec' l o).
  Proof. intros. pose proof c_file_data. pose proof c_call_fn. unfold call_hash. walk. Qed.

  Lemma c_data_hash : forall i e f l, R _ (data_hash w rec i e f l) (data_hash w rec' i e f l).
  Proof.
    intros. pose proof c_provider_options. pose proof c_provider_function. pose proof c_call_hash.
    unfold data_hash. walk. apply (c_fill w R C). walk.
  Qed.

  Lemma c_scope_lookup : forall k, R _ (scope_lookup k) (scope_lookup k).
  Proof. intros. unfold scope_lookup. walk. Qed.

  Lemma c_call_key : forall l o k, R _ (call_key w rec l o k) (call_key w rec' l o k).
  Proof. intros. pose proof c_scope_lookup. pose proof c_call_fn. unfold call_key. walk. Qed.

  Lemma c_call_dig : forall l p, R _ (call_dig w l p) (call_dig w l p).
  Proof. intros. pose proof c_ask. unfold call_dig. walk. Qed.

  Lemma c_report_found : forall k v, R _ (report_found k v) (report_found k v).
  Proof. intros. unfold report_found. walk. Qed.

  Lemma c_provider_lookup : forall k p l, R _ (provider_lookup w rec k p l) (provider_lookup w rec' k p l).
  Proof.
    intros. pose proof c_data_hash. pose proof c_interpolate. pose proof c_report_found.
    pose proof c_provider_options. pose proof c_provider_function. pose proof c_call_key. pose proof c_call_dig.
    unfold provider_lookup. walk.
  Qed.

  Lemma c_invoke : forall k p l, R _ (invoke w rec k p l) (invoke w rec' k p l).
  Proof. intros. pose proof c_provider_lookup. unfold invoke. walk. Qed.

  Lemma c_merge_locations : forall k s p, R _ (merge_locations w rec k s p) (merge_locations w rec' k s p).
  Proof.
    intros. pose proof c_provider_lookup. pose proof c_invoke. unfold merge_locations.
    destruct (e_function (p_entry p)); [ | walk ].
    apply (c_scoped w R C); [ discriminate | ]. destruct (e_locations (p_entry p)) as [[|x [|y r]]|]; walk.
    apply c_merging. walk.
  Qed.

  Lemma c_merge_hierarchy : forall k ps s, R _ (merge_hierarchy w rec k ps s) (merge_hierarchy w rec' k ps s).
  Proof.
    intros. unfold merge_hierarchy. destruct s; [ | walk ].
    apply c_merging. intro. apply c_merge_locations.
  Qed.

  Lemma c_create_provider : forall e, R _ (create_provider e) (create_provider e).
  Proof. intros. unfold create_provider. walk. Qed.

  Section ResolveEntry.
    Variables (is is' : string -> M st (option value * bool)) (ivl ivl' : value -> M st (option value))
              (isc isc' : string -> M st (option value))
              (wv wv' : string -> value -> M st location -> M st location)
              (sta sta' : string -> M st bool) (gl gl' : string -> M st (list string)).
    Hypothesis H1 : forall s, R _ (is s) (is' s).
    Hypothesis H2 : forall s, R _ (ivl s) (ivl' s).
    Hypothesis H3 : forall s, R _ (isc s) (isc' s).
    Hypothesis H4 : forall k v m m', R _ m m' -> R _ (wv k v m) (wv' k v m').
    Hypothesis H5 : forall s, R _ (sta s) (sta' s).
    Hypothesis H6 : forall s, R _ (gl s) (gl' s).
    Variables (show : value -> string) (env : environ) (rt : string).

    Lemma c_show_opt : forall o, R _ (show_opt (S:=st) show o) (show_opt show o).
    Proof. intros. unfold show_opt. walk. Qed.

    Lemma c_resolve_function : forall d e, R _ (resolve_function is show d e) (resolve_function is' show d e).
    Proof. intros. pose proof c_show_opt. unfold resolve_function, function_resolve. walk. Qed.

    Lemma c_resolve_datadir : forall d e, R _ (resolve_datadir is show env d e) (resolve_datadir is' show env d e).
    Proof. intros. pose proof c_show_opt. pose proof c_resolve_function. unfold resolve_datadir, interp_dir. walk. Qed.

    Lemma c_resolve_plugindir : forall d e, R _ (resolve_plugindir is show env rt d e) (resolve_plugindir is' show env rt d e).
    Proof. intros. pose proof c_show_opt. unfold resolve_plugindir, interp_dir. walk. Qed.

    Lemma c_resolve_options : forall d e, R _ (resolve_options ivl d e) (resolve_options ivl' d e).
    Proof. intros. unfold resolve_options. walk. Qed.

    Lemma c_resolve_mapped : forall dr k t l, R _ (resolve_mapped is wv sta show dr k t l) (resolve_mapped is' wv' sta' show dr k t l).
    Proof.
      intros dr k t. pose proof c_show_opt. induction l as [|x r IH]; simpl; [ apply c_ret | ].
      apply (c_bind w R C); [ apply H4 | intro ]; walk.
    Qed.

    Lemma c_resolve_location : forall dr l,
        R _ (resolve_location is isc wv sta gl show dr l) (resolve_location is' isc' wv' sta' gl' show dr l).
    Proof.
      intros. pose proof c_show_opt. pose proof c_resolve_mapped. unfold resolve_location. destruct l; walk.
    Qed.

    Lemma c_resolve_all : forall dr l,
        R _ (resolve_all is isc wv sta gl show dr l) (resolve_all is' isc' wv' sta' gl' show dr l).
    Proof.
      intros dr l. pose proof c_resolve_location. induction l as [|x r IH]; simpl; walk.
    Qed.

    Lemma c_entry_resolve : forall d e,
        R _ (entry_resolve is ivl isc wv sta gl show env rt d e) (entry_resolve is' ivl' isc' wv' sta' gl' show env rt d e).
    Proof.
      intros. pose proof c_resolve_function. pose proof c_resolve_datadir. pose proof c_resolve_plugindir.
      pose proof c_resolve_options. pose proof c_resolve_all.
      unfold entry_resolve, resolve_locations. walk.
    Qed.
  End ResolveEntry.

  Lemma c_resolve_entry : forall rt d e, R _ (resolve_entry w rec rt d e) (resolve_entry w rec' rt d e).
  Proof.
    intros. unfold resolve_entry. pose proof c_ask.
    apply c_entry_resolve; intros; walk; [ apply c_interpolate | apply c_in_scope ].
  Qed.

  Lemma c_create_each : forall rt d es, R _ (create_each w rec rt d es) (create_each w rec' rt d es).
  Proof.
    intros rt d. pose proof c_resolve_entry. pose proof c_create_provider.
    induction es as [|e r IH]; simpl; walk.
  Qed.

  Lemma c_create_providers : forall c es, R _ (create_providers w rec c es) (create_providers w rec' c es).
  Proof. intros. pose proof c_resolve_entry. pose proof c_create_each. unfold create_providers. walk. Qed.

  Lemma c_resolve_config : forall c m, R _ (resolve_config w rec c m) (resolve_config w rec' c m).
  Proof.
    intros. pose proof c_create_providers. unfold resolve_config.
    apply (c_bind w R C); [ apply (c_config w R C) | intro ]; walk.
    1-2: apply quiet_bind; [ apply quiet_create_providers; assumption | intro ];
      apply quiet_bind; [ apply quiet_create_providers; assumption | intro; apply quiet_ret ].
    apply c_merging. intro. apply c_merge_locations.
  Qed.

  Lemma c_get_config : forall p m, R _ (get_config w rec p m) (get_config w rec' p m).
  Proof. intros. pose proof c_resolve_config. pose proof (c_shared w R C). unfold get_config. walk. Qed.

  Lemma c_extract_conversion : R _ (extract_conversion w) (extract_conversion w).
  Proof. intros. unfold extract_conversion. walk. Qed.

  Lemma c_lookup_and_convert : forall m m', R _ m m' -> R _ (lookup_and_convert w m) (lookup_and_convert w m').
  Proof. intros. pose proof c_extract_conversion. unfold lookup_and_convert. walk. Qed.

  Lemma c_config_lookup_at : forall o p k m, R _ (config_lookup_at w rec o p k m) (config_lookup_at w rec' o p k m).
  Proof.
    intros. pose proof c_get_config. pose proof c_merge_hierarchy. pose proof (c_set_merge w R C).
    unfold config_lookup_at. walk.
    apply c_lookup_and_convert. walk.
  Qed.

  Lemma c_module_lookup : forall o k, R _ (module_lookup w rec o k) (module_lookup w rec' o k).
  Proof. intros. pose proof (c_module w R C). pose proof c_config_lookup_at. unfold module_lookup. walk. Qed.

  Lemma c_yaml_lookup : forall k, R _ (yaml_lookup w k) (yaml_lookup w k).
  Proof. intros. pose proof c_file_data. unfold yaml_lookup. walk. Qed.

  Lemma c_call_lk : forall f o k, R _ (call_lk w rec f o k) (call_lk w rec' f o k).
  Proof.
    intros. pose proof c_config_lookup_at. pose proof c_module_lookup. pose proof c_yaml_lookup.
    pose proof c_scope_lookup. pose proof c_call_fn. unfold call_lk. walk.
  Qed.

  Lemma c_mux_lookup : forall o k, R _ (mux_lookup w rec o k) (mux_lookup w rec' o k).
  Proof.
    intros. pose proof c_call_lk. pose proof (c_set_merge w R C). unfold mux_lookup. walk.
    - apply c_merging. walk.
    - apply c_lookup_and_convert. walk. apply c_merging. walk.
  Qed.

  Lemma c_lookup : forall k o, R _ (lookup w rec k o) (lookup w rec' k o).
  Proof.
    intros. pose proof c_call_lk. pose proof c_interpolate. pose proof c_dig_in. unfold lookup. walk.
  Qed.

  Lemma c_body : forall r, R _ (body w rec r) (body w rec' r).
  Proof.
    intros. pose proof c_istr. pose proof c_lookup. pose proof c_mux_lookup. unfold body. walk.
  Qed.
End Closed.

(** The engine is related to itself. *)
Lemma c_run : forall w (R : rel), closed w R -> forall n r, R _ (run w n r) (run w n r).
Proof.
  intros w R C. induction n as [|n IH]; intro r; simpl.
  - apply (c_nofuel w); assumption.
  - apply c_body; try assumption; intro; apply quiet_run.
Qed.

(** ** Relations that respect every operation *)

Record full (R : rel) : Prop := mk_full {
  f_lift : forall A (o : outcome A), R A (lift o) (lift o);
  f_bind : forall A B (m m' : M st A) (f f' : A -> M st B),
      R A m m' -> (forall a, R B (f a) (f' a)) -> R B (bind m f) (bind m' f');
  f_op : forall A (o : op A), R A (run_op o) (run_op o);
  f_scoped : forall A sc (m m' : M st A), sc <> SConfig -> R A m m' -> R A (run_scoped sc m) (run_scoped sc m');
  f_config : forall A (m m' : M st A), quiet m -> quiet m' -> R A m m' ->
      R A (run_scoped SConfig m) (run_scoped SConfig m')
}.

(** For a relation that respects what looking for a module consists of. *)
Lemma module_by : forall w (R : rel),
  (forall A (o : outcome A), R A (lift o) (lift o)) ->
  (forall A B (m m' : M st A) (f f' : A -> M st B),
     R A m m' -> (forall a, R B (f a) (f' a)) -> R B (bind m f) (bind m' f')) ->
  (forall A (o : op A), free_op o = true -> R A (run_op o) (run_op o)) ->
  (forall name c, R _ (run_op (OSetMod name c)) (run_op (OSetMod name c))) ->
  forall name, R _ (module_config w name) (module_config w name).
Proof.
  intros w R Fl Fb Fo Fm name.
  assert (Fr : forall A (a : A), R A (ret a) (ret a)) by (intros A a; exact (Fl A (Ok a))).
  assert (L : forall p, R _ (load_module w p name) (load_module w p name)).
  { intro p. unfold load_module, ask. apply Fb; [ apply Fb; [ apply Fo; reflexivity | intro; apply Fr ] | intros [|e|l] ];
      [ apply Fr | exact (Fl _ (Panic e)) | ].
    destruct (find_module l name) as [[fn [|]]|]; [ | apply Fr .. ].
    apply Fb; [ apply Fb; [ apply Fo; reflexivity | intro; apply Fr ] | intros [|e|[|]] ]; try apply Fr.
    exact (Fl _ (Panic e)). }
  assert (Ls : forall ps, R _ (load_from w ps name) (load_from w ps name)).
  { induction ps as [|p r IH]; cbn [load_from]; [ apply Fr | ]. apply Fb; [ apply L | intros [x|] ]; [ apply Fr | exact IH ]. }
  unfold module_config. apply Fb; [ apply Fo; reflexivity | intros [c|] ]; [ apply Fr | ].
  apply Fb; [ destruct (w_modpath w); [ apply Ls | apply Fr ] | intro c ].
  apply Fb; [ apply Fm | intro; apply Fr ].
Qed.

Lemma full_closed : forall w R, full R -> closed w R.
Proof.
  intros w R [Fl Fb Fo Fs Fc].
  assert (Fr : forall A (a : A), R A (ret a) (ret a)) by (intros A a; exact (Fl A (Ok a))).
  assert (Fp : forall A e, R A (panic e) (panic e)) by (intros A a; exact (Fl A (Panic a))).
  assert (Fh : forall A, R A hang hang) by (intros A; exact (Fl A Hang)).
  constructor; auto.
  - intros id k m m' H. unfold fill. apply Fs; [ discriminate | ].
    apply Fb; [ apply Fo | intros [h|] ]; [ apply Fr | ].
    apply Fb; [ exact H | intro x ]. apply Fb; [ apply Fo | intro; apply Fr ].
  - intros p. unfold shared_config, load_config, ask.
    apply Fb; [ apply Fo | intros [[c|]|] ]; [ apply Fr | apply Fh | ].
    apply Fb; [ apply Fo | intro ]. apply Fb; [ apply Fb; [ apply Fo | intro; apply Fr ] | intro ].
    apply Fb; [ apply Fl | intro ]. apply Fb; [ apply Fo | intro; apply Fr ].
  - intros c l. unfold set_merge. apply Fb.
    + destruct c; [ apply Fb; [ apply Fo | intro; apply Fr ] | ].
      destruct l; [ destruct (mgets "merge" e); [ apply Fb; [ apply Fo | intro; apply Fr ] | ] | ]; apply Fr.
    + intro. apply Fb; [ apply Fo | intro ]. apply Fb; [ apply Fl | intro ]. apply Fo.
  - apply module_by; auto.
Qed.
