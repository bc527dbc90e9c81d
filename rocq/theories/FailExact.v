(** Failing sources, with the caches and locks of the providers. *)

From Coq Require Import String Ascii List ZArith Bool Arith Lia.
From Verif Require Import SpecPlace PlaceFacts.
From Verif Require Import Str Value Outcome Key Merge Fpath Config Ipl Explain State Engine Meta Fuel Session
  SpecKey SpecIpl SpecInterp SpecConfig SpecMerge SpecLookup SpecFail
  KeyFacts ValueFacts MergeFacts MergeLookup StrFacts IplFacts InterpFacts IplExact ResolveFacts LookupExact LoaderFacts
  HierarchyExact LookupTop LookupFail RootFacts.
Import ListNotations.
Open Scope nat_scope.
Open Scope string_scope.
Open Scope list_scope.

(** [m] fails with [e] from all states in [P]; what is shared between
    invocations is [sh] then. *)
Definition breaks {A} (sh : list (string * shared)) (P : st -> Prop) (m : M st A) (e : err) : Prop :=
  forall s, P s -> exists s', m s = (Panic e, s') /\ s_shared s' = sh.

Lemma breaks_now sh P A B (m : M st A) (f : A -> M st B) e : breaks sh P m e -> breaks sh P (bind m f) e.
Proof. intros H s Hs. destruct (H s Hs) as (s' & E & K). exists s'. unfold bind. rewrite E. auto. Qed.

Lemma breaks_after sh P A B (m : M st A) (f : A -> M st B) a e : yields P m a -> breaks sh P (f a) e -> breaks sh P (bind m f) e.
Proof. intros Hm H s Hs. destruct (Hm s Hs) as (s1 & E & H1). unfold bind. rewrite E. exact (H s1 H1). Qed.

Lemma breaks_node sh (P : st -> Prop) A k i (m : M st A) e : (forall s, P s -> off s) -> breaks sh P m e -> breaks sh P (run_scoped (SNode k i) m) e.
Proof. intros Ho H s Hs. rewrite node_off by exact (Ho s Hs). exact (H s Hs). Qed.

(** Fails after questions only. *)
Definition refuses {A} (sc : scope) (m : M st A) (e : err) : Prop :=
  forall s, iv_scope (s_iv s) = sc -> off s -> exists s', m s = (Panic e, s') /\ asked s s'.

Lemma refuses_now sc A B (m : M st A) (f : A -> M st B) e : refuses sc m e -> refuses sc (bind m f) e.
Proof. intros H s Hs Ho. destruct (H s Hs Ho) as (s' & E & K). exists s'. unfold bind. rewrite E. auto. Qed.

Lemma refuses_after sc A B (m : M st A) (f : A -> M st B) a e : gives sc m a -> refuses sc (f a) e -> refuses sc (bind m f) e.
Proof.
  intros Hm H s Hs Ho. destruct (Hm s Hs Ho) as (s1 & E & A1). unfold bind. rewrite E.
  assert (I : s_iv s1 = s_iv s) by (destruct A1 as [l ->]; reflexivity).
  destruct (H s1) as (s2 & E2 & A2); [ congruence | unfold off; rewrite I; exact Ho | ].
  exists s2. split; [ exact E2 | exact (asked_trans _ _ _ A1 A2) ].
Qed.

Lemma refuses_panic sc A e : refuses sc (panic e : M st A) e.
Proof. intros s _ _. exists s. split; [ reflexivity | apply asked_refl ]. Qed.

Lemma refuses_load w e n x sc : function_fails w e n x -> refuses sc (load_function w e n) x.
Proof.
  intros (H & path & F & N & Hp). unfold load_function.
  eapply refuses_after with (a := false); [ apply gives_ask; exact H | ].
  rewrite (loader_plugin _ _ _ _ F). apply String.eqb_neq in N. rewrite N.
  eapply refuses_after with (a := Panic x); [ apply gives_ask; exact Hp | ].
  apply refuses_now. intros s _ _. exists s. split; [ reflexivity | apply asked_refl ].
Qed.

Lemma refuses_file w (json : bool) opts p x sc : mgets "path" opts = Some p ->
  (forall t, unreadable (if json then "JSON object" else "YAML hash") (vstring w p) ((if json then w_json w else w_yaml w) t (vstring w p)) x) ->
  refuses sc (file_data w json opts) x.
Proof.
  intros Hp Hf. unfold file_data. rewrite Hp.
  destruct json; intros s Hs Ho; unfold bind, ask, run_op, ret; cbn [bind run_op ret];
    pose proof (Hf (s_trace s)) as F;
    (destruct F as [e|v Hv]; [ | destruct v; try (destruct (Hv _ eq_refl)) ]);
    (eexists; split; [ reflexivity | ]; eexists; reflexivity).
Qed.

(** The function of a provider that is not loaded yet fails to load, or its
    call fails. *)
Inductive call_fails (w : world) (rec : req -> M st res) (e : entry) (n : string) (opts : entries) (x : err) : Prop :=
| cf_load : (forall sc, refuses sc (load_provider w e (mk_fdef KDataHash n)) x) ->
    (forall l, ~ loads w e (mk_fdef KDataHash n) l) -> call_fails w rec e n opts x
| cf_call : forall l, loads w e (mk_fdef KDataHash n) l -> (forall sc, refuses sc (call_hash w rec l opts) x) ->
    call_fails w rec e n opts x.

Lemma fails_not_found w e n x o : function_fails w e n x -> ~ function_is w e n o.
Proof.
  intros (H & path & F & N & Hp) G.
  destruct G as [G|p G F' N' G2|p G F' N' G2|G F'].
  - specialize (H []). specialize (G []). congruence.
  - pose proof (plugin_file_det _ _ _ _ F _ F') as ->. specialize (Hp []). specialize (G2 []). congruence.
  - pose proof (plugin_file_det _ _ _ _ F _ F') as ->. specialize (Hp []). specialize (G2 []). congruence.
  - pose proof (plugin_file_det _ _ _ _ F _ F') as ->. congruence.
Qed.

Lemma refuses_provider w e k n x sc : function_fails w e n x ->
  match k with KDataHash => n <> "yaml_data" /\ n <> "json_data" | KLookupKey => n <> "environment" /\ n <> "scope" | KDataDig => True end ->
  refuses sc (load_provider w e (mk_fdef k n)) x.
Proof.
  intros H Hk. unfold load_provider. cbn [f_kind f_name].
  destruct k; try (pose proof (proj1 Hk) as H1; pose proof (proj2 Hk) as H2; apply String.eqb_neq in H1, H2; rewrite H1, H2); apply refuses_now; now apply refuses_load.
Qed.

Lemma hash_call_fails w rec e n loc x : hash_fails w e n loc x ->
  exists opts, options_are e loc opts /\ call_fails w rec e n opts x.
Proof.
  intros [opts p Hn Ho Hp Hf|opts p Hn Ho Hp Hf|opts Hn Ho Hp ->|opts f Hy Hj Hff Ho Hc|opts Hy Hj Hff Ho]; exists opts; (split; [ exact Ho | ]).
  - subst n. apply (cf_call w rec e _ opts x LdYaml); [ constructor | ]. intro sc. exact (refuses_file w false opts p x sc Hp Hf).
  - subst n. apply (cf_call w rec e _ opts x LdJson); [ constructor | ]. intro sc. exact (refuses_file w true opts p x sc Hp Hf).
  - destruct Hn as [-> | ->].
    + apply (cf_call w rec e _ opts _ LdYaml); [ constructor | ]. intro sc. cbn [call_hash]. unfold file_data. rewrite Hp. apply refuses_panic.
    + apply (cf_call w rec e _ opts _ LdJson); [ constructor | ]. intro sc. cbn [call_hash]. unfold file_data. rewrite Hp. apply refuses_panic.
  - apply (cf_call w rec e n opts x (LdFn f)); [ exact (lo_hash w e n (Some f) Hy Hj Hff) | ].
    intro sc. cbn [call_hash]. apply refuses_now. unfold call_fn.
    eapply refuses_after; [ apply gives_ask; exact Hc | ]. apply refuses_panic.
  - apply cf_load; [ intro sc; apply refuses_provider; auto | ].
    intros l Hl. inversion Hl; subst; try congruence. match goal with G : function_is _ _ _ _ |- _ => exact (fails_not_found _ _ _ _ _ Hff G) end.
Qed.

(** A place that fails has no hash. *)
Lemma fails_no_hash w e n loc x m : hash_fails w e n loc x -> ~ hash_is w e n loc m.
Proof.
  intros H G.
  assert (Bad : forall what p f m' x', unreadable what p f x' -> file_has f m' -> False).
  { intros what p f m' x' [e'|v Hv] Hh; inversion Hh; subst. exact (Hv _ eq_refl). }
  destruct H as [opts p Hn Ho Hp Hf|opts p Hn Ho Hp Hf|opts Hn Ho Hp Hx|opts f Hy Hj Hff Ho Hc|opts Hy Hj Hff Ho];
  destruct G as [opts' p' m' Hn' Ho' Hp' Hf'|opts' p' m' Hn' Ho' Hp' Hf'|opts' f' v' Hn' Hj' Hff' Ho' Hc'|opts' Hn' Hj' Hff' Ho'];
    pose proof (options_are_det _ _ _ Ho _ Ho') as Eo; subst opts'; try congruence.
  - assert (p = p') by congruence. subst p'. exact (Bad _ _ _ _ _ (Hf []) (Hf' [])).
  - assert (p = p') by congruence. subst p'. exact (Bad _ _ _ _ _ (Hf []) (Hf' [])).
  - destruct Hn; congruence.
  - destruct Hn; congruence.
  - pose proof (function_is_det _ _ _ _ Hff _ Hff') as E. injection E as ->.
    specialize (Hc []). specialize (Hc' []). congruence.
  - pose proof (function_is_det _ _ _ _ Hff _ Hff'). discriminate.
  - exact (fails_not_found _ _ _ _ _ Hff Hff').
  - exact (fails_not_found _ _ _ _ _ Hff Hff').
Qed.

Lemma fails_same_place w e n loc loc' k x : location_of e loc -> location_of e loc' -> place loc k -> place loc' k ->
  hash_fails w e n loc x -> hash_fails w e n loc' x.
Proof.
  intros H H' K K' G. destruct loc as [l|], loc' as [l'|].
  - assert (O : forall o, options_are e (Some l) o -> options_are e (Some l') o).
    { intros o Q. inversion Q; subst. cbn in K, K'. assert (p = k) by congruence. subst. constructor. exact K'. }
    destruct G as [opts p Hn Ho Hp Hf|opts p Hn Ho Hp Hf|opts Hn Ho Hp Hx|opts f Hy Hj Hff Ho Hc|opts Hy Hj Hff Ho].
    + eapply hf_yaml; eauto.
    + eapply hf_json; eauto.
    + eapply hf_no_path; eauto.
    + eapply hf_call; eauto.
    + eapply hf_load; eauto.
  - cbn in H, H'. destruct H as (ls & E & _). congruence.
  - cbn in H, H'. destruct H' as (ls & E & _). congruence.
  - exact G.
Qed.

Lemma data_hash_breaks w rec i cf sh ps p n loc x : iv_expl i = false -> In p ps ->
  e_function (p_entry p) = Some (mk_fdef KDataHash n) -> location_of (p_entry p) loc ->
  hash_fails w (p_entry p) n loc x ->
  breaks sh (good w i cf sh ps) (data_hash w rec (p_id p) (p_entry p) (mk_fdef KDataHash n) loc) x.
Proof.
  intros Hi Hin Hf Hloc Hx s G. pose proof (g_provs _ _ _ _ _ _ G p Hin) as A. pose proof A as [Gl Gf Gh].
  set (id := p_id p) in *. set (e := p_entry p) in *.
  destruct (hash_call_fails w rec e n loc x Hx) as (opts & Ho & Hc).
  destruct (options_place _ _ _ Ho) as (k & Hk).
  assert (Ek : forall s : st, (match loc with None => ret "" | Some l => lift (loc_resolved l) end : M st string) s = (Ok k, s)).
  { intro s0. destruct loc as [y|]; cbn in Hk; [ unfold lift; rewrite Hk | rewrite Hk ]; reflexivity. }
  assert (Eo : forall s, provider_options e loc s = (Ok opts, s)).
  { intro s0. inversion Ho as [E|y q E E']; subst; [ reflexivity | ]. unfold provider_options, bind, lift. rewrite E. reflexivity. }
  assert (Eh : aget k (ps_hashes (s_provs s id)) = None).
  { destruct (aget k (ps_hashes (s_provs s id))) as [h|] eqn:E; [ | reflexivity ]. exfalso.
    destruct (Gh k h E) as (n' & loc' & Ef' & Hloc' & Hk' & Hm'). unfold e in *. rewrite Hf in Ef'. injection Ef' as <-.
    exact (fails_no_hash _ _ _ _ _ _ (fails_same_place w _ n loc loc' k x Hloc Hloc' Hk Hk' Hx) Hm'). }
  unfold data_hash. unfold bind at 1. rewrite Ek. unfold bind at 1. rewrite Eo.
  unfold bind at 1. unfold run_scoped at 1. rewrite Gl.
  set (s1 := with_prov id (mk_pstate (ps_fn (s_provs s id)) (ps_hashes (s_provs s id)) true) s).
  change (run_op (OHash id k) s1) with (Ok (aget k (ps_hashes (s_provs s1 id))), s1).
  assert (E1 : s_provs s1 id = mk_pstate (ps_fn (s_provs s id)) (ps_hashes (s_provs s id)) true).
  { apply (touched_at id _ s). apply touched_with. }
  cbv beta iota zeta. rewrite !E1. cbn [ps_fn ps_hashes].
  set (q2 := mk_pstate (ps_fn (s_provs s id)) (ps_hashes (s_provs s id)) false).
  set (s2 := with_prov id q2 s1).
  assert (T2 : touched id q2 s s2).
  { apply (touched_trans id (mk_pstate (ps_fn (s_provs s id)) (ps_hashes (s_provs s id)) true) _ s s1); apply touched_with. }
  rewrite Eh. unfold fill. unfold run_scoped. rewrite (touched_at _ _ _ _ T2). cbn [ps_locked ps_fn ps_hashes q2].
  set (q3 := mk_pstate (ps_fn (s_provs s id)) (ps_hashes (s_provs s id)) true).
  set (s3 := with_prov id q3 s2).
  assert (T3 : touched id q3 s s3) by (apply (touched_trans id q2 _ s s2); [ exact T2 | apply touched_with ]).
  assert (B : exists s5, bind (run_op (OHash id k)) (fun h => match h with
       | Some m => ret m
       | None => bind (bind (provider_function w id e (mk_fdef KDataHash n)) (fun l => call_hash w rec l opts))
                      (fun y => bind (run_op (OPutHash id k y)) (fun _ => ret y)) end) s3 = (Panic x, s5) /\ s_shared s5 = sh).
  { unfold bind at 1. change (run_op (OHash id k) s3) with (Ok (aget k (ps_hashes (s_provs s3 id))), s3).
    rewrite (touched_at _ _ _ _ T3). cbn [ps_hashes q3]. rewrite Eh.
    assert (O3 : off s3) by (unfold off; rewrite (t_iv _ _ _ _ T3), (g_iv _ _ _ _ _ _ G); exact Hi).
    assert (S3 : s_shared s3 = sh) by (rewrite (t_shared _ _ _ _ T3); exact (g_shared _ _ _ _ _ _ G)).
    unfold bind at 1. unfold bind at 1.
    destruct Hc as [Hl Hno|l Hl Hc].
    - unfold provider_function. unfold bind at 1. unfold run_op at 1. rewrite (touched_at _ _ _ _ T3). cbn [ps_fn q3].
      destruct (ps_fn (s_provs s id)) as [l|] eqn:E.
      { exfalso. destruct (Gf l eq_refl) as (f & Ef & Hlo). unfold e in *. rewrite Hf in Ef. injection Ef as <-. exact (Hno l Hlo). }
      destruct (Hl (iv_scope (s_iv s3)) s3 eq_refl O3) as (s4 & E4 & [t ->]). unfold bind at 1. rewrite E4.
      eexists. split; [ reflexivity | exact S3 ].
    - destruct (provider_function_run w id e (mk_fdef KDataHash n) l s3 O3 Hl) as (s4 & E4 & T4).
      { rewrite (touched_at _ _ _ _ T3). cbn [ps_fn q3]. intros l' El. exact (agrees_fn w p _ l' _ l A El Hf Hl). }
      rewrite E4.
      assert (O4 : off s4) by (unfold off; rewrite (t_iv _ _ _ _ T4); exact O3).
      destruct (Hc (iv_scope (s_iv s4)) s4 eq_refl O4) as (s5 & E5 & [t ->]). rewrite E5.
      eexists. split; [ reflexivity | ]. cbn. rewrite (t_shared _ _ _ _ T4). exact S3. }
  destruct B as (s5 & E5 & S5).
  match goal with |- context [let (_, _) := ?t in _] => replace t with (@Panic entries x, s5) by (symmetry; exact E5) end.
  eexists. split; [ reflexivity | exact S5 ].
Qed.

Section Hierarchy.
  Variables (w : world) (rec : req -> M st res) (sc : scope) (sh : list (string * shared)) (ps : list provider).
  Hypothesis Hd : NoDup (map p_id ps).
  Variable P : st -> Prop.
  Hypothesis Pof : forall s, P s -> exists i cf sh, iv_expl i = false /\ iv_scope i = sc /\ good w i cf sh ps s.
  Hypothesis Pall : forall A (m : M st A) a,
    (forall i cf sh, iv_expl i = false -> iv_scope i = sc -> yields (good w i cf sh ps) m a) -> yields P m a.
  Let Pframes : forall A (m : M st A) a, frames w sc ps m a -> yields P m a.
  Proof. intros A m a H. apply Pall. exact (frames_yields w sc ps A m a Hd H). Qed.
  Hypothesis Pbreaks : forall A (m : M st A) e,
    (forall i cf, iv_expl i = false -> iv_scope i = sc -> breaks sh (good w i cf sh ps) m e) -> breaks sh P m e.
  Variable value_is : value -> option value -> Prop.
  Hypothesis Hv : forall v o, value_is v o -> yields P (interpolate rec true v) o.
  Variable value_fails : value -> err -> Prop.
  Hypothesis Hvf : forall v x, value_fails v x -> breaks sh P (interpolate rec true v) x.

  Let Poff : forall s, P s -> off s.
  Proof. intros s H. destruct (Pof s H) as (i & cf & sh' & Hi & _ & G). exact (good_off w i cf sh' ps Hi s G). Qed.

  Lemma breaks_refuses A (m : M st A) e : refuses sc m e -> breaks sh P m e.
  Proof.
    intro H. apply Pbreaks. intros i cf Hi Hs s G. rewrite <- Hs in H.
    destruct (H s) as (s' & E & [t ->]); [ exact (good_scope w i cf sh ps s G) | exact (good_off w i cf sh ps Hi s G) | ].
    eexists. split; [ exact E | exact (g_shared _ _ _ _ _ _ G) ].
  Qed.

  Lemma breaks_load k n p x : In p ps -> e_function (p_entry p) = Some (mk_fdef k n) ->
    function_fails w (p_entry p) n x ->
    match k with KDataHash => n <> "yaml_data" /\ n <> "json_data" | KLookupKey => n <> "environment" /\ n <> "scope" | KDataDig => True end ->
    breaks sh P (provider_function w (p_id p) (p_entry p) (mk_fdef k n)) x.
  Proof.
    intros Hin Hf Hx Hk. apply Pbreaks. intros i cf Hi Hsc s G. unfold provider_function. unfold bind at 1. unfold run_op at 1.
    pose proof (g_provs _ _ _ _ _ _ G p Hin) as [_ Gf _].
    destruct (ps_fn (s_provs s (p_id p))) as [l|] eqn:E.
    { exfalso. destruct (Gf l eq_refl) as (f & Ef & Hlo). rewrite Hf in Ef. injection Ef as <-.
      inversion Hlo; subst; try (destruct Hk; congruence);
        match goal with K : function_is _ _ _ _ |- _ => exact (fails_not_found _ _ _ _ _ Hx K) end. }
    destruct (refuses_provider w (p_entry p) k n x (iv_scope i) Hx Hk s) as (s' & E' & [t ->]);
      [ exact (good_scope w i cf sh ps s G) | exact (good_off w i cf sh ps Hi s G) | ].
    unfold bind at 1. rewrite E'. eexists. split; [ reflexivity | exact (g_shared _ _ _ _ _ _ G) ].
  Qed.

  Lemma breaks_provider k r p loc x : In p ps -> new_key r = Ok k -> location_of (p_entry p) loc ->
    fails w value_fails r (p_entry p) loc x -> breaks sh P (provider_lookup w rec k p loc) x.
  Proof.
    intros Hin Hk Hloc H. unfold provider_lookup.
    assert (Hroot : forall x, root_is r x -> yields P (lift (root k)) x).
    { intros y (qs & Hw). rewrite (written_new _ _ Hw) in Hk. injection Hk as <-. apply yields_lift. reflexivity. }
    assert (Some_root : exists y, yields P (lift (root k)) y).
    { destruct (new_key_root _ _ Hk) as (y & qs & _ & Er). exists y. apply yields_lift. exact Er. }
    destruct Some_root as (y0 & Hy0).
    assert (Go : forall opts, options_are (p_entry p) loc opts -> yields P (provider_options (p_entry p) loc) opts).
    { intros opts Ho. apply (states_gives w sc ps P Pframes). exact (gives_options _ _ _ _ Ho). }
    destruct H as [n Hf Hx|y n m v Hy Hf Hm Hg Hx|y n f opts Hy Hf H1 H2 Hff Ho Hc|n opts Hf H1 H2 Hx Ho|y qs n f opts Hw Hf Hff Ho Hc|n opts Hf Hx Ho]; rewrite Hf; cbn [f_kind].
    - eapply breaks_after; [ exact Hy0 | ]. apply breaks_now.
      apply Pbreaks. intros i cf Hi _. exact (data_hash_breaks w rec i cf sh ps p n loc x Hi Hin Hf Hloc Hx).
    - eapply breaks_after; [ exact (Hroot y Hy) | ]. eapply breaks_after with (a := m).
      { apply Pall. intros i cf sh' Hi _ s G. exact (data_hash_run w rec i cf sh' ps p n loc m s Hi Hd Hin Hf Hloc Hm G). }
      rewrite Hg. apply breaks_now. apply Hvf. exact Hx.
    - eapply breaks_after; [ exact (Hroot y Hy) | ]. eapply breaks_after; [ exact (Go opts Ho) | ].
      eapply breaks_after; [ exact (yields_function w sc ps P Pframes p _ (LdFn f) Hin Hf (lo_key _ _ _ (Some f) H1 H2 Hff)) | ].
      apply breaks_now. apply breaks_refuses. cbn [call_key]. unfold call_fn.
      eapply refuses_after; [ apply gives_ask; exact Hc | apply refuses_panic ].
    - eapply breaks_after; [ exact Hy0 | ]. eapply breaks_after; [ exact (Go opts Ho) | ].
      apply breaks_now. apply breaks_load; auto.
    - eapply breaks_after; [ exact (Go opts Ho) | ].
      eapply breaks_after; [ exact (yields_function w sc ps P Pframes p _ (LdFn f) Hin Hf (lo_dig _ _ _ (Some f) Hff)) | ].
      apply breaks_now. apply breaks_refuses. cbn [call_dig]. rewrite (written_new _ _ Hw) in Hk. injection Hk as <-. cbn [k_parts].
      eapply refuses_after with (a := Panic x); [ apply gives_ask; exact Hc | ].
      intros s _ _. exists s. split; [ reflexivity | apply asked_refl ].
    - eapply breaks_after; [ exact (Go opts Ho) | ]. apply breaks_now. apply breaks_load; auto.
  Qed.

  Lemma breaks_invoke k r p l x : In p ps -> new_key r = Ok k -> location_of (p_entry p) (Some l) ->
    location_fails w value_fails r (p_entry p) l x -> breaks sh P (invoke w rec k p l) x.
  Proof.
    intros Hin Hk Hloc [E H]. unfold invoke. apply breaks_node; [ exact Poff | ]. apply there_exists in E. rewrite E.
    exact (breaks_provider k r p (Some l) x Hin Hk Hloc H).
  Qed.

  (** Strategies. *)
  Section Merge.
    Context {L : Type}.
    Variable f : L -> M st (option value).
    Variable from : L -> option value -> Prop.
    Variable failing : L -> err -> Prop.

    Lemma breaks_first pre p post x : Forall (fun y => yields P (f y) None) pre -> breaks sh P (f p) x ->
      breaks sh P (first_loop f (pre ++ p :: post)) x.
    Proof.
      intros Hp Hx. induction Hp as [|y l Hy _ IH]; cbn [app first_loop].
      - apply breaks_now. exact Hx.
      - eapply breaks_after; [ exact Hy | exact IH ].
    Qed.

    Lemma breaks_loop s pre p post outs x : Forall2 (fun y o => yields P (f y) o) pre outs -> breaks sh P (f p) x ->
      forall memo, breaks sh P (merge_loop f s memo (pre ++ p :: post)) x.
    Proof.
      intros Hp Hx. induction Hp as [|y o l outs Hy _ IH]; intro memo; cbn [app merge_loop].
      - apply breaks_now. exact Hx.
      - eapply breaks_after; [ exact Hy | ]. destruct o; [ destruct memo | ]; apply IH.
    Qed.

    Lemma breaks_merging s l x : (forall y o, In y l -> from y o -> yields P (f y) o) ->
      (forall y e, In y l -> failing y e -> breaks sh P (f y) e) ->
      reaches_failure from failing s l x -> breaks sh P (merging s l f) x.
    Proof.
      intros Hg Hb H. unfold merging, merge_lookup. destruct H as [pre p post x Hp Hx|s pre p post outs x Hs Hp Hx].
      - assert (Hp' : Forall (fun y => yields P (f y) None) pre).
        { apply Forall_forall. intros y Hy. apply Hg; [ apply in_or_app; left; exact Hy | ].
          exact (proj1 (Forall_forall _ _) Hp y Hy). }
        assert (Hx' : breaks sh P (f p) x) by (apply Hb; [ apply in_or_app; right; left; reflexivity | exact Hx ]).
        assert (B : breaks sh P (bind (first_loop f (pre ++ p :: post)) (report_some report_result)) x).
        { apply breaks_now. apply breaks_first; assumption. }
        destruct pre as [|a [|b pre]]; [ destruct post as [|q post]; [ exact Hx' | exact B ] | exact B | exact B ].
      - assert (Hp' : Forall2 (fun y o => yields P (f y) o) pre outs).
        { assert (Hg' : forall y o, In y pre -> from y o -> yields P (f y) o)
            by (intros y o Hy; apply Hg; apply in_or_app; left; exact Hy).
          clear - Hp Hg'. induction Hp as [|y o l outs Hy _ IH]; constructor; [ apply Hg'; [ left; reflexivity | exact Hy ] | ].
          apply IH. intros z o' Hz. apply Hg'. right. exact Hz. }
        assert (Hx' : breaks sh P (f p) x) by (apply Hb; [ apply in_or_app; right; left; reflexivity | exact Hx ]).
        assert (B : breaks sh P (with_merge s (bind (merge_loop f s None (pre ++ p :: post)) (report_some report_result))) x).
        { apply breaks_node; [ exact Poff | ]. apply breaks_now. eapply breaks_loop; eassumption. }
        assert (C : breaks sh P (match pre ++ p :: post with
                              | [] => ret None
                              | [x] => bind (f x) (fun v => ret (merge_single s v))
                              | _ => with_merge s (bind (merge_loop f s None (pre ++ p :: post)) (report_some report_result))
                              end) x).
        { destruct pre as [|a [|b pre]]; [ destruct post as [|q post]; [ apply breaks_now; exact Hx' | exact B ] | exact B | exact B ]. }
        destruct s; [ congruence | exact C.. ].
    Qed.
  End Merge.

  Lemma breaks_locations k r s p x : In p ps -> new_key r = Ok k ->
    entry_fails w sc value_is value_fails r s (p_entry p) x -> breaks sh P (merge_locations w rec k s p) x.
  Proof.
    intros Hin Hk H. unfold merge_locations.
    assert (Hf : e_function (p_entry p) <> None -> exists f, e_function (p_entry p) = Some f).
    { intro Hn. destruct (e_function (p_entry p)); [ eauto | congruence ]. }
    assert (Fn : forall loc, fails w value_fails r (p_entry p) loc x -> e_function (p_entry p) <> None) by (intros loc []; congruence).
    destruct (e_function (p_entry p)) as [f|] eqn:Ef.
    - apply breaks_node; [ exact Poff | ].
      destruct H as [El H|l El H|l1 l2 ls El H]; rewrite El.
      + exact (breaks_provider k r p None x Hin Hk El H).
      + apply (breaks_invoke k r p l x Hin Hk); [ | exact H ]. exists [l]. split; [ exact El | left; reflexivity ].
      + apply (breaks_merging (invoke w rec k p) (location_gives w sc value_is r (p_entry p)) (location_fails w value_fails r (p_entry p)));
          [ | | exact H ].
        * intros l o Hl Hg. apply (yields_invoke w rec sc ps P Pof Pframes value_is Hv k r p l o Hin Hk); [ | exact Hg ].
          exists (l1 :: l2 :: ls). split; [ exact El | exact Hl ].
        * intros l e Hl He. apply (breaks_invoke k r p l e Hin Hk); [ | exact He ].
          exists (l1 :: l2 :: ls). split; [ exact El | exact Hl ].
    - exfalso. destruct H as [El H|l El [_ H]|l1 l2 ls El H].
      + exact (Fn None H eq_refl).
      + exact (Fn (Some l) H eq_refl).
      + destruct H as [pre q post x Hp [_ Hx]|s pre q post outs x Hs Hp [_ Hx]]; exact (Fn (Some q) Hx eq_refl).
  Qed.

  Lemma reaches_map {A B} (g : A -> B) (from : B -> option value -> Prop) (failing : B -> err -> Prop) s l x :
    reaches_failure from failing s (map g l) x -> reaches_failure (fun y => from (g y)) (fun y => failing (g y)) s l x.
  Proof.
    intro H. remember (map g l) as l' eqn:El. destruct H as [pre p post x Hp Hx|s pre p post outs x Hs Hp Hx];
      symmetry in El; apply map_eq_app in El as (a & b & -> & <- & Eb); (destruct b as [|y b]; [ discriminate | ]);
      injection Eb as <- <-.
    - apply rf_first; [ | exact Hx ]. rewrite Forall_map in Hp. exact Hp.
    - apply rf_merge with (outs := outs); [ exact Hs | | exact Hx ]. clear - Hp. revert outs Hp.
      induction a as [|y a IH]; intros outs Hp; inversion Hp; subst; constructor; auto.
  Qed.

  Lemma hierarchy_breaks k r s x : new_key r = Ok k ->
    Forall (fun p => e_function (p_entry p) <> None) ps ->
    hierarchy_fails w sc value_is value_fails r s (map p_entry ps) x ->
    breaks sh P (merging s ps (merge_locations w rec k s)) x.
  Proof.
    intros Hk Hf H.
    apply (breaks_merging (merge_locations w rec k s) (fun p => entry_gives w sc value_is r s (p_entry p))
             (fun p => entry_fails w sc value_is value_fails r s (p_entry p))).
    - intros p o Hin. apply (yields_locations w rec sc ps P Pof Pframes value_is Hv);
        [ exact Hin | exact Hk | exact (proj1 (Forall_forall _ _) Hf p Hin) ].
    - intros p e Hin. apply breaks_locations; [ exact Hin | exact Hk ].
    - exact (reaches_map p_entry _ _ s ps x H).
  Qed.
End Hierarchy.

(** With one set of options and one strategy. *)
Lemma breaks_hierarchy w rec i cf sh ps : iv_expl i = false -> NoDup (map p_id ps) ->
  forall value_is : value -> option value -> Prop, (forall v o, value_is v o -> yields (good w i cf sh ps) (interpolate rec true v) o) ->
  forall value_fails : value -> err -> Prop, (forall v x, value_fails v x -> breaks sh (good w i cf sh ps) (interpolate rec true v) x) ->
  forall k r s x, new_key r = Ok k -> Forall (fun p => e_function (p_entry p) <> None) ps ->
  hierarchy_fails w (iv_scope i) value_is value_fails r s (map p_entry ps) x ->
  breaks sh (good w i cf sh ps) (merging s ps (merge_locations w rec k s)) x.
Proof.
  intros Hi Hd value_is Hv value_fails Hvf.
  exact (hierarchy_breaks w rec (iv_scope i) sh ps Hd (good w i cf sh ps) (good_of w i cf sh ps Hi) (good_all w i cf sh ps Hi)
           (fun A m e H => H i cf Hi eq_refl) value_is Hv value_fails Hvf).
Qed.
