(** What an answer of the engine depends on.  Two worlds with the same settings
    are compared through what the engine asks the first one: when each of these
    questions is answered alike by the second, running there is running here.
    The engine is walked through function by function, with the one world on
    the left and the other one on the right. *)

From Coq Require Import String List ZArith Bool Arith.
From Verif Require Import Str Value Outcome Key Merge Fpath Config Ipl Explain State Engine Session Api.
Import ListNotations.
Open Scope bool_scope.

(** Both worlds answer the question [e] alike, when [t] has been asked before. *)
Definition answer_alike (w v : world) (t : list event) (e : event) : Prop :=
  match e with
  | EvStat p => w_stat v t p = w_stat w t p
  | EvGlob p => w_glob v t p = w_glob w t p
  | EvConfig p => w_config v t p = w_config w t p
  | EvYaml p => w_yaml v t p = w_yaml w t p
  | EvJson p => w_json v t p = w_json w t p
  | EvReadDir p => w_readdir v t p = w_readdir w t p
  | EvLstat p => w_lstat v t p = w_lstat w t p
  | EvFun n => w_fun v t n = w_fun w t n
  | EvPlugin p n => w_plugin v t p n = w_plugin w t p n
  | EvCall f a => w_call v t f a = w_call w t f a
  | EvDig f ps => w_dig v t f ps = w_dig w t f ps
  end.

(** After [t] has been asked, each of the questions [d] in turn is answered alike. *)
Definition alike_on (w v : world) (t d : list event) : Prop :=
  forall d1 e d2, d = (d1 ++ e :: d2)%list -> answer_alike w v (t ++ d1) e.

(** The environment, the directory, the types and the options of both are the same. *)
Record same_settings (w v : world) : Prop := mk_same_settings {
  se_env : w_env v = w_env w;
  se_cwd : w_cwd v = w_cwd w;
  se_show : w_show v = w_show w;
  se_parse : w_parse_type v = w_parse_type w;
  se_new : w_new v = w_new w;
  se_top : w_top v = w_top w;
  se_cfg : w_cfgpath v = w_cfgpath w;
  se_mux : w_mux v = w_mux w;
  se_mod : w_modpath v = w_modpath w;
  se_yaml : w_yamlpath v = w_yamlpath w
}.

(** The settings of the one with the answers of the other. *)
Definition answered_by (w v : world) : world :=
  mk_world (w_stat v) (w_glob v) (w_config v) (w_yaml v) (w_json v) (w_readdir v) (w_lstat v)
           (w_fun v) (w_plugin v) (w_call v) (w_dig v)
           (w_env w) (w_cwd w) (w_show w) (w_parse_type w) (w_new w) (w_top w) (w_cfgpath w)
           (w_mux w) (w_modpath w) (w_yamlpath w).

Lemma answered_same : forall w v, same_settings w v -> answered_by w v = v.
Proof.
  intros w v []. unfold answered_by. destruct v. cbn in *. congruence.
Qed.

Section Walk.
  Variables w v0 : world.
  Notation w' := (answered_by w v0).

  (** Whatever [m] asks, [m'] does the same where the answers are. *)
  Definition follows (A : Type) (m m' : M st A) : Prop := forall s,
    exists d, s_trace (snd (m s)) = (s_trace s ++ d)%list /\
              (alike_on w w' (s_trace s) d -> m' s = m s).
  Notation R := follows.

  Lemma alike_app : forall t d1 d2, alike_on w w' t (d1 ++ d2) -> alike_on w w' t d1 /\ alike_on w w' (t ++ d1) d2.
  Proof.
    intros t d1 d2 H. split.
    - intros a e b E. apply (H a e (b ++ d2)%list). rewrite E, <- app_assoc. reflexivity.
    - intros a e b E. rewrite <- app_assoc. apply (H (d1 ++ a)%list e b). rewrite E, <- app_assoc. reflexivity.
  Qed.

  Lemma l_still : forall A (m m' : M st A), (forall s, s_trace (snd (m s)) = s_trace s /\ m' s = m s) -> R A m m'.
  Proof.
    intros A m m' H s. destruct (H s) as [E F]. exists []. rewrite app_nil_r. split; [ exact E | intro; exact F ].
  Qed.

  Lemma l_lift : forall A (o : outcome A), R A (lift o) (lift o).
  Proof. intros A o. apply l_still. intro s. split; reflexivity. Qed.
  Lemma l_ret : forall A (a : A), R A (ret a) (ret a).
  Proof. intros A a. exact (l_lift A (Ok a)). Qed.
  Lemma l_panic : forall A e, R A (panic e) (panic e).
  Proof. intros A e. exact (l_lift A (Panic e)). Qed.
  Lemma l_hang : forall A, R A hang hang.
  Proof. intros A. exact (l_lift A Hang). Qed.
  Lemma l_nofuel : forall A, R A nofuel nofuel.
  Proof. intros A. exact (l_lift A NoFuel). Qed.

  Lemma l_bind : forall A B (m m' : M st A) (f f' : A -> M st B),
      R A m m' -> (forall a, R B (f a) (f' a)) -> R B (bind m f) (bind m' f').
  Proof.
    intros A B m m' f f' Hm Hf s. destruct (Hm s) as (d & E & F). unfold bind.
    destruct (m s) as [[a|e| |] s1] eqn:Em; cbn [snd] in E.
    - destruct (Hf a s1) as (d2 & E2 & F2). exists (d ++ d2)%list. split.
      + rewrite E2, E, app_assoc. reflexivity.
      + intro H. apply alike_app in H as [H1 H2]. rewrite (F H1). rewrite <- E in H2. exact (F2 H2).
    - exists d. split; [ exact E | intro H; rewrite (F H); reflexivity ].
    - exists d. split; [ exact E | intro H; rewrite (F H); reflexivity ].
    - exists d. split; [ exact E | intro H; rewrite (F H); reflexivity ].
  Qed.

  (** The operations that ask nothing. *)
  Definition asks_not {A} (o : op A) : bool := match o with OAsk _ => false | _ => true end.

  Lemma l_op : forall A (o : op A), asks_not o = true -> R A (run_op o) (run_op o).
  Proof.
    intros A o H. apply l_still. intro s. split; [ | reflexivity ].
    destruct o; try discriminate H; cbv beta iota zeta delta [run_op]; try reflexivity.
    destruct (iv_expl (s_iv s)); [ destruct (xaccept r (s_ex s)) | ]; reflexivity.
  Qed.

  (** A question, and what is done with its answer. *)
  Lemma l_ask : forall A e (f f' : list event -> A),
      (forall t, answer_alike w w' t e -> f' t = f t) -> R A (ask e f) (ask e f').
  Proof.
    intros A e f f' H s. exists [e]. split; [ reflexivity | ]. intro K.
    specialize (K [] e [] eq_refl). rewrite app_nil_r in K.
    unfold ask, bind, ret, lift. cbv beta iota zeta delta [run_op]. rewrite (H _ K). reflexivity.
  Qed.

  Lemma l_scoped : forall A sc (m m' : M st A), R A m m' -> R A (run_scoped sc m) (run_scoped sc m').
  Proof.
    assert (Go : forall A (m m' : M st A) (f g : st -> st) (P : outcome A -> st -> outcome A * st) s,
      (forall s, s_trace (f s) = s_trace s) ->
      (forall o s, s_trace (snd (P o s)) = s_trace s) ->
      R A m m' ->
      exists d, s_trace (snd (let (o, s1) := m (f s) in P o s1)) = (s_trace s ++ d)%list /\
                (alike_on w w' (s_trace s) d ->
                 (let (o, s1) := m' (f s) in P o s1) = (let (o, s1) := m (f s) in P o s1))).
    { intros A m m' f g P s Tf TP H. destruct (H (f s)) as (d & E & F). exists d. rewrite Tf in E, F.
      destruct (m (f s)) as [o s1]. cbn [snd] in E. split; [ rewrite TP; exact E | ].
      intro K. rewrite (F K). reflexivity. }
    intros A sc m m' H s. destruct sc; cbv beta iota zeta delta [run_scoped with_copy].
    - destruct (iv_expl (s_iv s)); [ | exact (H s) ].
      destruct (xpush k init (s_ex s)) as [x|].
      + apply (Go A m m' (with_ex x) (fun s => s) (fun o s1 => (o, with_ex (xpop (s_ex s1)) s1)) s); auto.
      + exists []. rewrite app_nil_r. split; reflexivity.
    - destruct (iv_mode (s_iv s)); try exact (H s);
        match goal with |- context [m (with_iv ?i s)] =>
          apply (Go A m m' (with_iv i) (fun s => s) (fun o s1 => (o, with_iv (s_iv s) s1)) s); auto end.
    - destruct (iv_mode (s_iv s)); try exact (H s);
        match goal with |- context [m (with_iv ?i s)] =>
          apply (Go A m m' (with_iv i) (fun s => s) (fun o s1 => (o, with_iv (s_iv s) s1)) s); auto end.
    - destruct (iv_expl (s_iv s)); [ | exact (H s) ].
      match goal with |- context [m (with_iv ?i s)] =>
          apply (Go A m m' (with_iv i) (fun s => s) (fun o s1 => (o, with_iv (s_iv s) s1)) s); auto end.
    - destruct (H (with_iv (iv_with_scope sc (s_iv s)) s)) as (d & E & F). exists d.
      change (s_trace (with_iv (iv_with_scope sc (s_iv s)) s)) with (s_trace s) in E, F.
      destruct (m (with_iv (iv_with_scope sc (s_iv s)) s)) as [[a|e| |] s1]; cbn [snd] in E;
        (split; [ exact E | intro K; rewrite (F K); reflexivity ]).
    - destruct (iv_redacted (s_iv s)); [ exact (H s) | ].
      match goal with |- context [m (with_iv ?i s)] =>
          apply (Go A m m' (with_iv i) (fun s => s)
                   (fun o s1 => (o, with_iv (iv_with_redacted false (s_iv s1)) s1)) s); auto end.
    - destruct (ps_locked (s_provs s id)); [ exists []; rewrite app_nil_r; split; reflexivity | ].
      match goal with |- context [m (with_prov ?i ?p s)] =>
          apply (Go A m m' (with_prov i p) (fun s => s)
                   (fun o s1 => (o, with_prov id (mk_pstate (ps_fn (s_provs s1 id)) (ps_hashes (s_provs s1 id)) false) s1)) s); auto end.
  Qed.

  Ltac sets :=
    repeat first
      [ progress change (w_env w') with (w_env w)
      | progress change (w_cwd w') with (w_cwd w)
      | progress change (w_show w') with (w_show w)
      | progress change (w_parse_type w') with (w_parse_type w)
      | progress change (w_new w') with (w_new w)
      | progress change (w_top w') with (w_top w)
      | progress change (w_cfgpath w') with (w_cfgpath w)
      | progress change (w_mux w') with (w_mux w)
      | progress change (w_modpath w') with (w_modpath w)
      | progress change (w_yamlpath w') with (w_yamlpath w) ].

  Ltac step :=
    match goal with
    | |- R _ (ret _) _ => apply l_ret
    | |- R _ (panic _) _ => apply l_panic
    | |- R _ hang _ => apply l_hang
    | |- R _ nofuel _ => apply l_nofuel
    | |- R _ (lift _) _ => apply l_lift
    | |- R _ (ask _ _) _ => apply l_ask; let K := fresh in intros ? K; exact K
    | |- R _ (run_op _) _ => apply l_op; reflexivity
    | |- R _ (run_scoped _ _) _ => apply l_scoped
    | |- R _ (bind _ _) _ => apply l_bind; [ | intro ]
    | |- R _ (if ?b then _ else _) _ => destruct b
    | |- R _ (match ?x with _ => _ end) _ => destruct x
    end.
  Ltac walk := repeat (first [ solve [eauto] | step ]).

  Section Merging.
    Variable L : Type.
    Variables f f' : L -> M st (option value).
    Hypothesis Hf : forall l, R _ (f l) (f' l).

    Lemma l_first_loop : forall vs, R _ (first_loop f vs) (first_loop f' vs).
    Proof. induction vs as [|x r IH]; simpl; walk. Qed.

    Lemma l_merge_loop : forall s vs memo, R _ (merge_loop f s memo vs) (merge_loop f' s memo vs).
    Proof. intros s; induction vs as [|x r IH]; intro memo; simpl; walk. Qed.

    Lemma l_report_some : forall v, R _ (report_some report_result v) (report_some report_result v).
    Proof. intros v. unfold report_some, report_result. sets. walk. Qed.

    Lemma l_merging : forall s vs, R _ (merging s vs f) (merging s vs f').
    Proof.
      intros s vs. unfold merging, merge_lookup, with_merge. sets.
      pose proof l_first_loop. pose proof l_merge_loop. pose proof l_report_some.
      destruct s; destruct vs as [|x [|y r]]; walk.
    Qed.
  End Merging.

  Lemma l_fill : forall id k m m', R _ m m' -> R _ (fill id k m) (fill id k m').
  Proof. intros id k m m' H. unfold fill. sets. walk. Qed.

  Lemma l_shared : forall p, R _ (shared_config w p) (shared_config w' p).
  Proof. intros p. unfold shared_config, load_config. sets. walk. Qed.

  Lemma l_set_merge : forall c l, R _ (set_merge c l) (set_merge c l).
  Proof. intros c l. unfold set_merge. sets. walk. Qed.

  Lemma l_load_module : forall p n, R _ (load_module w p n) (load_module w' p n).
  Proof. intros. unfold load_module. sets. walk. Qed.

  Lemma l_load_from : forall ps n, R _ (load_from w ps n) (load_from w' ps n).
  Proof. intros ps n. pose proof l_load_module. induction ps as [|p r IH]; cbn [load_from]; walk. Qed.

  Lemma l_module : forall n, R _ (module_config w n) (module_config w' n).
  Proof. intros n. pose proof l_load_from. unfold module_config. sets. walk. Qed.

  Section Rec.
  Variables rec rec' : req -> M st res.
  Hypothesis Hrec : forall r, R _ (rec r) (rec' r).

  Lemma l_do_interp : forall allow v, R _ (do_interp rec allow v) (do_interp rec' allow v).
  Proof.
    intros allow. fix IH 1. intros v.
    destruct v as [|b|z|z|s|l|m|v]; simpl; try (apply l_ret); try (apply Hrec).
    - apply l_bind; [ | intro; apply l_ret ].
      induction l as [|x t IHl]; [ apply l_ret | ].
      apply l_bind; [ apply IH | intro p ].
      apply l_bind; [ exact IHl | intro q; apply l_ret ].
    - apply l_bind; [ | intro; apply l_ret ].
      generalize (@nil (value * value)).
      induction m as [|[k v] t IHm]; intro cp; [ apply l_ret | ].
      apply l_bind; [ apply IH | intro p ].
      apply l_bind; [ apply IH | intro q ].
      apply l_bind; [ apply IHm | intro r; apply l_ret ].
  Qed.

  Lemma l_interpolate : forall allow v, R _ (interpolate rec allow v) (interpolate rec' allow v).
  Proof. intros. pose proof l_do_interp. unfold interpolate. sets. walk. Qed.

  Lemma l_dig_step : forall p v, R _ (dig_step p v) (dig_step p v).
  Proof. intros. unfold dig_step. sets. walk. Qed.

  Lemma l_dig_loop : forall ps v, R _ (dig_loop ps v) (dig_loop ps v).
  Proof.
    pose proof l_dig_step.
    induction ps as [|p r IH]; intro v; simpl; walk.
  Qed.

  Lemma l_dig_in : forall k v, R _ (dig_in k v) (dig_in k v).
  Proof. intros. pose proof l_dig_loop. unfold dig_in. sets. destruct (tl (k_parts k)); walk. Qed.

  Lemma l_in_scope : forall allow e, R _ (in_scope rec allow e) (in_scope rec' allow e).
  Proof. intros. pose proof l_do_interp. pose proof l_dig_in. unfold in_scope. sets. walk. Qed.

  Lemma l_istr_loop : forall str allow ts acc m result,
      R _ (istr_loop w rec str allow ts acc m result) (istr_loop w' rec' str allow ts acc m result).
  Proof.
    pose proof l_in_scope.
    intros str allow. induction ts as [|t r IH]; intros acc m result; simpl; [ apply l_ret | ].
    destruct t as [l|e]; [ apply IH | ].
    destruct (empty_interpolation (trim_space e)); [ apply IH | ].
    apply l_bind; [ walk | intro md ].
    destruct (is_alias (fst md) && negb (String.eqb ("%{" ++ e ++ "}") str)); [ walk | ].
    destruct (fst md); walk.
  Qed.

  Lemma l_istr : forall s allow, R _ (istr w rec s allow) (istr w' rec' s allow).
  Proof. intros. pose proof l_istr_loop. unfold istr. sets. walk. Qed.

  Lemma l_run_prog : forall p, R _ (run_prog rec p) (run_prog rec' p).
  Proof.
    pose proof l_interpolate.
    induction p; simpl; walk.
  Qed.

  Lemma l_call_fn : forall f a, R _ (call_fn w rec f a) (call_fn w' rec' f a).
  Proof. intros. pose proof l_run_prog. unfold call_fn. sets. walk. Qed.

  Lemma l_load_function : forall e n, R _ (load_function w e n) (load_function w' e n).
  Proof. intros. unfold load_function. sets. walk. Qed.

  Lemma l_provider_options : forall e l, R _ (provider_options e l) (provider_options e l).
  Proof. intros. unfold provider_options. sets. walk. Qed.

  Lemma l_load_provider : forall e f, R _ (load_provider w e f) (load_provider w' e f).
  Proof. intros. pose proof l_load_function. unfold load_provider. sets. walk. Qed.

  Lemma l_provider_function : forall i e f, R _ (provider_function w i e f) (provider_function w' i e f).
  Proof. intros. pose proof l_load_provider. unfold provider_function. sets. walk. Qed.

  Lemma l_file_data : forall j o, R _ (file_data w j o) (file_data w' j o).
  Proof. intros. unfold file_data. sets. walk. Qed.

  Lemma l_call_hash : forall l o, R _ (call_hash w rec l o) (call_hash w' rec' l o).
  Proof. intros. pose proof l_file_data. pose proof l_call_fn. unfold call_hash. sets. walk. Qed.

  Lemma l_data_hash : forall i e f l, R _ (data_hash w rec i e f l) (data_hash w' rec' i e f l).
  Proof.
    intros. pose proof l_provider_options. pose proof l_provider_function. pose proof l_call_hash.
    unfold data_hash. sets. walk. apply l_fill. walk.
  Qed.

  Lemma l_scope_lookup : forall k, R _ (scope_lookup k) (scope_lookup k).
  Proof. intros. unfold scope_lookup. sets. walk. Qed.

  Lemma l_call_key : forall l o k, R _ (call_key w rec l o k) (call_key w' rec' l o k).
  Proof. intros. pose proof l_scope_lookup. pose proof l_call_fn. unfold call_key. sets. walk. Qed.

  Lemma l_call_dig : forall l p, R _ (call_dig w l p) (call_dig w' l p).
  Proof. intros. unfold call_dig. sets. walk. Qed.

  Lemma l_report_found : forall k v, R _ (report_found k v) (report_found k v).
  Proof. intros. unfold report_found. sets. walk. Qed.

  Lemma l_provider_lookup : forall k p l, R _ (provider_lookup w rec k p l) (provider_lookup w' rec' k p l).
  Proof.
    intros. pose proof l_data_hash. pose proof l_interpolate. pose proof l_report_found.
    pose proof l_provider_options. pose proof l_provider_function. pose proof l_call_key. pose proof l_call_dig.
    unfold provider_lookup. sets. walk.
  Qed.

  Lemma l_invoke : forall k p l, R _ (invoke w rec k p l) (invoke w' rec' k p l).
  Proof. intros. pose proof l_provider_lookup. unfold invoke. sets. walk. Qed.

  Lemma l_merge_locations : forall k s p, R _ (merge_locations w rec k s p) (merge_locations w' rec' k s p).
  Proof.
    intros. pose proof l_provider_lookup. pose proof l_invoke. unfold merge_locations. sets.
    destruct (e_function (p_entry p)); [ | walk ].
    apply l_scoped. destruct (e_locations (p_entry p)) as [[|x [|y r]]|]; walk.
    apply l_merging. walk.
  Qed.

  Lemma l_merge_hierarchy : forall k ps s, R _ (merge_hierarchy w rec k ps s) (merge_hierarchy w' rec' k ps s).
  Proof.
    intros. unfold merge_hierarchy. sets. destruct s; [ | walk ].
    apply l_merging. intro. apply l_merge_locations.
  Qed.

  Lemma l_create_provider : forall e, R _ (create_provider e) (create_provider e).
  Proof. intros. unfold create_provider. sets. walk. Qed.

  Section ResolveEntry.
    Variables (is is' : string -> M st (option value * bool)) (ivl ivl' : value -> M st (option value))
              (isc isc' : string -> M st (option value))
              (wv wv' : string -> value -> M st location -> M st location)
              (sta sta' : string -> M st bool) (gl gl' : string -> M st (list string)).
    Hypothesis H1 : forall s, R _ (is s) (is' s).
    Hypothesis H2 : forall s, R _ (ivl s) (ivl' s).
    Hypothesis H3 : forall s, R _ (isc s) (isc' s).
    Hypothesis H4 : forall k v m m', R _ m m' -> R _ (wv k v m) (wv' k v m').
    Hypothesis H5 : forall s, R _ (sta s) (sta' s).
    Hypothesis H6 : forall s, R _ (gl s) (gl' s).
    Variables (show : value -> string) (env : environ) (rt : string).

    Lemma l_show_opt : forall o, R _ (show_opt (S:=st) show o) (show_opt show o).
    Proof. intros. unfold show_opt. sets. walk. Qed.

    Lemma l_resolve_function : forall d e, R _ (resolve_function is show d e) (resolve_function is' show d e).
    Proof. intros. pose proof l_show_opt. unfold resolve_function, function_resolve. sets. walk. Qed.

    Lemma l_resolve_datadir : forall d e, R _ (resolve_datadir is show env d e) (resolve_datadir is' show env d e).
    Proof. intros. pose proof l_show_opt. pose proof l_resolve_function. unfold resolve_datadir, interp_dir. sets. walk. Qed.

    Lemma l_resolve_plugindir : forall d e, R _ (resolve_plugindir is show env rt d e) (resolve_plugindir is' show env rt d e).
    Proof. intros. pose proof l_show_opt. unfold resolve_plugindir, interp_dir. sets. walk. Qed.

    Lemma l_resolve_options : forall d e, R _ (resolve_options ivl d e) (resolve_options ivl' d e).
    Proof. intros. unfold resolve_options. sets. walk. Qed.

    Lemma l_resolve_mapped : forall dr k t l, R _ (resolve_mapped is wv sta show dr k t l) (resolve_mapped is' wv' sta' show dr k t l).
    Proof.
      intros dr k t. pose proof l_show_opt. induction l as [|x r IH]; simpl; [ apply l_ret | ].
      apply l_bind; [ apply H4 | intro ]; walk.
    Qed.

    Lemma l_resolve_location : forall dr l,
        R _ (resolve_location is isc wv sta gl show dr l) (resolve_location is' isc' wv' sta' gl' show dr l).
    Proof.
      intros. pose proof l_show_opt. pose proof l_resolve_mapped. unfold resolve_location. sets. destruct l; walk.
    Qed.

    Lemma l_resolve_all : forall dr l,
        R _ (resolve_all is isc wv sta gl show dr l) (resolve_all is' isc' wv' sta' gl' show dr l).
    Proof.
      intros dr l. pose proof l_resolve_location. induction l as [|x r IH]; simpl; walk.
    Qed.

    Lemma l_entry_resolve : forall d e,
        R _ (entry_resolve is ivl isc wv sta gl show env rt d e) (entry_resolve is' ivl' isc' wv' sta' gl' show env rt d e).
    Proof.
      intros. pose proof l_resolve_function. pose proof l_resolve_datadir. pose proof l_resolve_plugindir.
      pose proof l_resolve_options. pose proof l_resolve_all.
      unfold entry_resolve, resolve_locations. sets. walk.
    Qed.
  End ResolveEntry.

  Lemma l_resolve_entry : forall rt d e, R _ (resolve_entry w rec rt d e) (resolve_entry w' rec' rt d e).
  Proof.
    intros. unfold resolve_entry. sets. pose proof l_ask.
    apply l_entry_resolve; intros; walk; [ apply l_interpolate | apply l_in_scope ].
  Qed.

  Lemma l_create_each : forall rt d es, R _ (create_each w rec rt d es) (create_each w' rec' rt d es).
  Proof.
    intros rt d. pose proof l_resolve_entry. pose proof l_create_provider.
    induction es as [|e r IH]; simpl; walk.
  Qed.

  Lemma l_create_providers : forall c es, R _ (create_providers w rec c es) (create_providers w' rec' c es).
  Proof. intros. pose proof l_resolve_entry. pose proof l_create_each. unfold create_providers. sets. walk. Qed.

  Lemma l_resolve_config : forall c m, R _ (resolve_config w rec c m) (resolve_config w' rec' c m).
  Proof.
    intros. pose proof l_create_providers. unfold resolve_config. sets.
    apply l_bind; [ apply l_scoped | intro ]; walk.
    apply l_merging. intro. apply l_merge_locations.
  Qed.

  Lemma l_get_config : forall p m, R _ (get_config w rec p m) (get_config w' rec' p m).
  Proof. intros. pose proof l_resolve_config. pose proof l_shared. unfold get_config. sets. walk. Qed.

  Lemma l_extract_conversion : R _ (extract_conversion w) (extract_conversion w').
  Proof. intros. unfold extract_conversion. sets. walk. Qed.

  Lemma l_lookup_and_convert : forall m m', R _ m m' -> R _ (lookup_and_convert w m) (lookup_and_convert w' m').
  Proof. intros. pose proof l_extract_conversion. unfold lookup_and_convert. sets. walk. Qed.

  Lemma l_config_lookup_at : forall o p k m, R _ (config_lookup_at w rec o p k m) (config_lookup_at w' rec' o p k m).
  Proof.
    intros. pose proof l_get_config. pose proof l_merge_hierarchy. pose proof l_set_merge.
    unfold config_lookup_at. sets. walk.
    apply l_lookup_and_convert. walk.
  Qed.

  Lemma l_module_lookup : forall o k, R _ (module_lookup w rec o k) (module_lookup w' rec' o k).
  Proof. intros. pose proof l_module. pose proof l_config_lookup_at. unfold module_lookup. sets. walk. Qed.

  Lemma l_yaml_lookup : forall k, R _ (yaml_lookup w k) (yaml_lookup w' k).
  Proof. intros. pose proof l_file_data. unfold yaml_lookup. sets. walk. Qed.

  Lemma l_call_lk : forall f o k, R _ (call_lk w rec f o k) (call_lk w' rec' f o k).
  Proof.
    intros. pose proof l_config_lookup_at. pose proof l_module_lookup. pose proof l_yaml_lookup.
    pose proof l_scope_lookup. pose proof l_call_fn. unfold call_lk. sets. walk.
  Qed.

  Lemma l_mux_lookup : forall o k, R _ (mux_lookup w rec o k) (mux_lookup w' rec' o k).
  Proof.
    intros. pose proof l_call_lk. pose proof l_set_merge. unfold mux_lookup. sets. walk.
    - apply l_merging. walk.
    - apply l_lookup_and_convert. walk. apply l_merging. walk.
  Qed.

  Lemma l_lookup : forall k o, R _ (lookup w rec k o) (lookup w' rec' k o).
  Proof.
    intros. pose proof l_call_lk. pose proof l_interpolate. pose proof l_dig_in. unfold lookup. sets. walk.
  Qed.

  Lemma l_body : forall r, R _ (body w rec r) (body w' rec' r).
  Proof.
    intros. pose proof l_istr. pose proof l_lookup. pose proof l_mux_lookup. unfold body. sets. walk.
  Qed.



  End Rec.

  (** *** Engines, requests and the command *)

  Lemma l_run : forall n r, R _ (run w n r) (run w' n r).
  Proof. induction n as [|n IH]; intro r; simpl; [ apply l_nofuel | apply l_body; exact IH ]. Qed.

  Lemma l_run_lookup : forall n k o, R _ (run_lookup w n k o) (run_lookup w' n k o).
  Proof. intros. unfold run_lookup. apply l_bind; [ apply l_run | intro; apply l_ret ]. Qed.

  Lemma l_engine_ask : forall n o name, R _ (engine_ask w n o name) (engine_ask w' n o name).
  Proof. intros. unfold engine_ask. apply l_bind; [ apply l_lift | intro; apply l_run_lookup ]. Qed.

  Lemma l_serve : forall n ex rs, R _ (fun s => let (os, s1) := serve w n ex rs s in (Ok os, s1))
                                      (fun s => let (os, s1) := serve w' n ex rs s in (Ok os, s1)).
  Proof.
    intros n ex. induction rs as [|r t IH]; intro s; cbn [serve].
    - exists []. rewrite app_nil_r. split; reflexivity.
    - destruct (l_run_lookup n (q_key r) (q_opts r) (invocation (q_scope r) ex s)) as (d1 & E1 & F1).
      change (s_trace (invocation (q_scope r) ex s)) with (s_trace s) in E1, F1.
      destruct (run_lookup w n (q_key r) (q_opts r) (invocation (q_scope r) ex s)) as [o s1]. cbn [snd] in E1.
      destruct (IH s1) as (d2 & E2 & F2). destruct (serve w n ex t s1) as [os s2]. cbn [snd] in E2.
      exists (d1 ++ d2)%list. split; [ cbn [snd]; rewrite E2, E1, app_assoc; reflexivity | ].
      intro K. apply alike_app in K as [K1 K2]. rewrite (F1 K1). rewrite <- E1 in K2. specialize (F2 K2).
      destruct (serve w' n ex t s1) as [os' s2']. injection F2 as -> ->. reflexivity.
  Qed.

  Section Command.
    Context {T : Type}.
    Variable inst : T -> option value -> bool.
    Variable conv : T -> option value -> outcome (option value).

    Section Names.
      Variables ask ask' : string -> M st (option value).
      Hypothesis Ha : forall n, R _ (ask n) (ask' n).

      Lemma l_ask_each : forall names, R _ (ask_each ask names) (ask_each ask' names).
      Proof. induction names as [|n r IH]; simpl; walk. Qed.

      Lemma l_lookup2 : forall names t dv ov df,
          R _ (lookup2 inst conv ask names t dv ov df None) (lookup2 inst conv ask' names t dv ov df None).
      Proof. intros. pose proof l_ask_each. unfold lookup2. walk. Qed.

      Lemma l_all_of : forall names t ov df m,
          R _ (all_of inst conv ask names t ov df m) (all_of inst conv ask' names t ov df m).
      Proof. induction names as [|n r IH]; intros; simpl; walk. Qed.

      Lemma l_lookup_all : forall names t ov df,
          R _ (lookup_all inst conv ask names t ov df) (lookup_all inst conv ask' names t ov df).
      Proof. intros. pose proof l_all_of. unfold lookup_all. walk. Qed.
    End Names.

    Variable any : T.
    Variable parse_type : string -> outcome T.
    Variable struct_of : T -> option (list (string * T)).
    Variable parse : string -> outcome value.
    Variable file : string -> var_file.
    Variable stdin : var_file.
    Variable session_scope : scope.
    Variable render : string -> value -> outcome string.
    Variable render_explainer : string -> M st string.
    Hypothesis Hr : forall f, R _ (render_explainer f) (render_explainer f).

    Lemma l_invoke_engine : forall sc ex, R _ (engine_invoke session_scope sc ex) (engine_invoke session_scope sc ex).
    Proof.
      intros. apply l_still. intro s. split; [ | reflexivity ]. unfold engine_invoke. cbn [snd].
      destruct ex as [[a b]|]; reflexivity.
    Qed.

    Lemma l_lookup_and_render : forall n opts args,
        R _ (lookup_and_render inst conv any parse_type struct_of parse file stdin (engine_invoke session_scope)
               (engine_ask w n) render render_explainer opts args)
            (lookup_and_render inst conv any parse_type struct_of parse file stdin (engine_invoke session_scope)
               (engine_ask w' n) render render_explainer opts args).
    Proof.
      intros. pose proof (fun o => l_lookup2 _ _ (l_engine_ask n o)). pose proof (fun o => l_lookup_all _ _ (l_engine_ask n o)).
      pose proof l_invoke_engine. unfold lookup_and_render. walk.
    Qed.
  End Command.
End Walk.
