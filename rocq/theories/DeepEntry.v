(** Resolving the entries of a configuration, whatever the values of the
    variables are. *)

From Coq Require Import String Ascii List ZArith Bool Arith Lia.
From Verif Require Import Str Value Outcome Key Merge Fpath Config Ipl Explain State Engine Meta Fuel
  SpecKey SpecKeyErr SpecIpl SpecInterp SpecConfig SpecMerge SpecLookup SpecFail SpecWorld SpecDeep
  KeyFacts KeyErrFacts ValueFacts MergeFacts MergeLookup StrFacts IplFacts InterpFacts IplExact ResolveFacts
  LookupExact HierarchyExact LookupTop FailExact FailText SettledLookup Acyclic Cycles RootFacts Decided DecidedOptions DeepExact.
Import ListNotations.
Open Scope nat_scope.
Open Scope string_scope.
Open Scope list_scope.

(** Code that fails, or does not end, in scope [sc] without an explainer. *)
Definition stops (sc : scope) {A} (m : M st A) (x : err) : Prop :=
  forall s, iv_scope (s_iv s) = sc -> off s -> exists s', m s = (Panic x, s') /\ s_shared s' = s_shared s.
Definition endless (sc : scope) {A} (m : M st A) : Prop :=
  forall s, iv_scope (s_iv s) = sc -> off s -> fst (m s) = NoFuel.

Lemma asked_kept s s' sc : asked s s' -> iv_scope (s_iv s) = sc -> off s -> iv_scope (s_iv s') = sc /\ off s'.
Proof. intros [l ->] H Ho. split; [ exact H | exact Ho ]. Qed.
Lemma asked_same_shared s s' : asked s s' -> s_shared s' = s_shared s.
Proof. intros [l ->]. reflexivity. Qed.

Lemma stops_now sc A B (m : M st A) (f : A -> M st B) x : stops sc m x -> stops sc (bind m f) x.
Proof. intros H s Hs Ho. destruct (H s Hs Ho) as (s' & E & K). exists s'. unfold bind. rewrite E. auto. Qed.
Lemma stops_after sc A B (m : M st A) (f : A -> M st B) a x : gives sc m a -> stops sc (f a) x -> stops sc (bind m f) x.
Proof.
  intros H Hf s Hs Ho. destruct (H s Hs Ho) as (s1 & E & K). destruct (asked_kept _ _ _ K Hs Ho) as [Hs1 Ho1].
  destruct (Hf s1 Hs1 Ho1) as (s2 & E2 & K2). exists s2. unfold bind. rewrite E. split; [ exact E2 | ].
  rewrite K2. exact (asked_same_shared _ _ K).
Qed.
Lemma endless_now sc A B (m : M st A) (f : A -> M st B) : endless sc m -> endless sc (bind m f).
Proof. intros H s Hs Ho. specialize (H s Hs Ho). unfold bind. destruct (m s) as [o s']. cbn [fst] in H. subst o. reflexivity. Qed.
Lemma endless_after sc A B (m : M st A) (f : A -> M st B) a : gives sc m a -> endless sc (f a) -> endless sc (bind m f).
Proof.
  intros H Hf s Hs Ho. destruct (H s Hs Ho) as (s1 & E & K). destruct (asked_kept _ _ _ K Hs Ho) as [Hs1 Ho1].
  unfold bind. rewrite E. exact (Hf s1 Hs1 Ho1).
Qed.

Lemma gives_yields sc A (m : M st A) a : (forall s0, iv_scope (s_iv s0) = sc -> off s0 -> yields (asked s0) m a) -> gives sc m a.
Proof. intros H s Hs Ho. exact (H s Hs Ho s (asked_refl s)). Qed.
Lemma stops_breaks sc A (m : M st A) x :
  (forall s0, iv_scope (s_iv s0) = sc -> off s0 -> breaks (s_shared s0) (asked s0) m x) -> stops sc m x.
Proof. intros H s Hs Ho. exact (H s Hs Ho s (asked_refl s)). Qed.

(** From what happens in one state to all with the same scope. *)
Definition base (sc : scope) : st := init_st sc None.
Lemma base_scope sc : iv_scope (s_iv (base sc)) = sc.
Proof. reflexivity. Qed.

Section Strings.
  Variables (w : world) (n : nat) (sc : scope).

  Lemma gives_expands t t' : expands_in w sc n t t' ->
    exists b, (b = false -> t' = t) /\ gives sc (run w n (RStr t false)) (Some (VStr t'), b).
  Proof.
    intro H. destruct n as [|m]; [ destruct H | ]. pose proof H as H0. destruct H as (cut & rs & last & _ & Et & Et' & Hf).
    exists (contains "%{" t). split.
    - intro C. pose proof (contains_nil _ C cut last Et) as ->. inversion Hf; subst. reflexivity.
    - intros s Hs Ho. rewrite <- Hs in H0.
      destruct (yields_expands w s Ho (S m) t t' H0) as (b & B & G). destruct (G s (asked_refl s)) as (s' & E & K).
      exists s'. split; [ | exact K ]. rewrite E. f_equal. f_equal. f_equal.
      change (run w (S m) (RStr t false) s) with (istr w (run w m) t false s) in E. unfold istr in E.
      destruct (contains "%{" t); cbn [negb] in E.
      + unfold bind in E. destruct (run_scoped _ _ s) as [[a|e0| |] s1]; try discriminate E. inversion E; subst. reflexivity.
      + inversion E; subst. reflexivity.
  Qed.

  Lemma stops_expands t x : unexpandable w sc n t x -> stops sc (run w n (RStr t false)) x.
  Proof. intros H s Hs Ho. rewrite <- Hs in H. exact (breaks_expands w s Ho n t x H s (asked_refl s)). Qed.

  Lemma gives_variable src o : variable_is sc (expands_in w sc n) src o -> gives sc (in_scope (run w n) false src) o.
  Proof.
    intros H s Hs Ho. rewrite <- Hs in H.
    exact (yields_variable s (run w n) Ho (expands_in w (iv_scope (s_iv s)) n) (yields_expands w s Ho n) src o H s (asked_refl s)).
  Qed.
  Lemma stops_variable src x : variable_fails sc (expands_in w sc n) (unexpandable w sc n) src x ->
    stops sc (in_scope (run w n) false src) x.
  Proof.
    intros H s Hs Ho. rewrite <- Hs in H.
    exact (breaks_variable s (run w n) (expands_in w (iv_scope (s_iv s)) n) (unexpandable w (iv_scope (s_iv s)) n)
      (yields_expands w s Ho n) (breaks_expands w s Ho n) src x H s (asked_refl s)).
  Qed.

  Lemma gives_interpolate v r : value_is (text_value (expands_in w sc n)) v r -> gives sc (interpolate (run w n) false v) r.
  Proof.
    intros H s Hs Ho. rewrite <- Hs in H.
    destruct (yields_walk s (run w n) (expands_in w (iv_scope (s_iv s)) n) (yields_expands w s Ho n) v r H) as (b & B & G).
    destruct (G s (asked_refl s)) as (s' & E & K). exists s'. split; [ | exact K ]. unfold interpolate, bind. rewrite E.
    cbn [fst snd]. destruct b; [ reflexivity | ]. rewrite (B eq_refl). reflexivity.
  Qed.
  Lemma stops_interpolate v x : value_fails (text_value (expands_in w sc n)) (unexpandable w sc n) v x ->
    stops sc (interpolate (run w n) false v) x.
  Proof.
    intros H. unfold interpolate. apply stops_now. intros s Hs Ho. rewrite <- Hs in H.
    exact (breaks_walk s (run w n) (expands_in w (iv_scope (s_iv s)) n) (unexpandable w (iv_scope (s_iv s)) n)
      (yields_expands w s Ho n) (breaks_expands w s Ho n) v x H s (asked_refl s)).
  Qed.

  (** ** All cases *)
  Hypothesis Hsc : orderly_scope sc.

  Lemma string_settles t : (exists t', expands_in w sc n t t') \/ (exists x, unexpandable w sc n t x) \/
    endless sc (run w n (RStr t false)).
  Proof.
    destruct (expands_decided w (base sc) eq_refl Hsc n t) as [H|[H|H]]; [ auto | auto | ].
    right. right. intros s Hs Ho.
    destruct (expands_decided w s Ho) with (n := n) (t := t) as [(t' & K)|[(x & K)|K]].
    - rewrite Hs. exact Hsc.
    - exfalso. rewrite Hs in K. destruct (gives_expands t t' K) as (b & _ & G). destruct (G (base sc) eq_refl eq_refl) as (s' & E & _).
      pose proof (H (base sc) (asked_refl _)) as C. rewrite E in C. discriminate C.
    - exfalso. rewrite Hs in K. destruct (stops_expands t x K (base sc) eq_refl eq_refl) as (s' & E & _).
      pose proof (H (base sc) (asked_refl _)) as C. rewrite E in C. discriminate C.
    - exact (K s (asked_refl s)).
  Qed.

  Lemma variable_settles src : (exists o, variable_is sc (expands_in w sc n) src o /\ tidy o) \/
    (exists x, variable_fails sc (expands_in w sc n) (unexpandable w sc n) src x) \/ endless sc (in_scope (run w n) false src).
  Proof.
    assert (D : forall s, iv_scope (s_iv s) = sc -> off s ->
      (exists o, variable_is sc (expands_in w sc n) src o /\ tidy o) \/
      (exists x, variable_fails sc (expands_in w sc n) (unexpandable w sc n) src x) \/
      diverges (asked s) (in_scope (run w n) false src)).
    { intros s Hs Ho. subst sc.
      exact (variable_decided s (run w n) (expands_in w (iv_scope (s_iv s)) n) (unexpandable w (iv_scope (s_iv s)) n)
        (yields_expands w s Ho n) (expands_decided w s Ho Hsc n) Hsc src). }
    destruct (D (base sc) eq_refl eq_refl) as [H|[H|H]]; [ auto | auto | ]. right. right. intros s Hs Ho.
    destruct (D s Hs Ho) as [(o & K & _)|[(x & K)|K]].
    - exfalso. destruct (gives_variable src o K (base sc) eq_refl eq_refl) as (s' & E & _).
      pose proof (H (base sc) (asked_refl _)) as C. rewrite E in C. discriminate C.
    - exfalso. destruct (stops_variable src x K (base sc) eq_refl eq_refl) as (s' & E & _).
      pose proof (H (base sc) (asked_refl _)) as C. rewrite E in C. discriminate C.
    - exact (K s (asked_refl s)).
  Qed.

  Lemma value_settles v : wf v = true -> (exists r, value_is (text_value (expands_in w sc n)) v r) \/
    (exists x, value_fails (text_value (expands_in w sc n)) (unexpandable w sc n) v x) \/
    endless sc (interpolate (run w n) false v).
  Proof.
    intro W.
    assert (D : forall s, iv_scope (s_iv s) = sc -> off s ->
      (exists r, value_is (text_value (expands_in w sc n)) v r /\ tidy r) \/
      (exists x, value_fails (text_value (expands_in w sc n)) (unexpandable w sc n) v x) \/
      diverges (asked s) (do_interp (run w n) false v)).
    { intros s Hs Ho. subst sc.
      exact (walk_decided s (run w n) (expands_in w (iv_scope (s_iv s)) n) (unexpandable w (iv_scope (s_iv s)) n)
        (yields_expands w s Ho n) (expands_decided w s Ho Hsc n) v W). }
    destruct (D (base sc) eq_refl eq_refl) as [(r & H & _)|[H|H]]; [ left; exists r; exact H | auto | ]. right. right.
    unfold interpolate. apply endless_now. intros s Hs Ho.
    destruct (D s Hs Ho) as [(o & K & _)|[(x & K)|K]].
    - exfalso. destruct (gives_interpolate v o K (base sc) eq_refl eq_refl) as (s' & E & _).
      pose proof (H (base sc) (asked_refl _)) as C. unfold interpolate, bind in E.
      destruct (do_interp (run w n) false v (base sc)) as [r0 s1]. cbn [fst] in C. subst r0. discriminate E.
    - exfalso. destruct (stops_interpolate v x K (base sc) eq_refl eq_refl) as (s' & E & _).
      pose proof (H (base sc) (asked_refl _)) as C. unfold interpolate, bind in E.
      destruct (do_interp (run w n) false v (base sc)) as [r0 s1]. cbn [fst] in C. subst r0. discriminate E.
    - exact (K s (asked_refl s)).
  Qed.
End Strings.

(** ** Entries *)

Lemma bind_assoc A B C (m : M st A) (f : A -> M st B) (g : B -> M st C) s : bind (bind m f) g s = bind m (fun x => bind (f x) g) s.
Proof. unfold bind. destruct (m s) as [[a|e| |] s']; reflexivity. Qed.

Lemma orderly_var sc k v : orderly_scope sc -> wf v = true -> orderly_scope (ScVar sc k v).
Proof. intros H W x y. cbn [scope_get]. destruct (String.eqb k x); [ intro K; injection K as <-; exact W | apply H ]. Qed.

Section Entry.
  Variables (w : world) (n : nat) (on_disk : string -> bool) (matching : string -> list string).
  Hypothesis Hstat : forall t p, w_stat w t p = on_disk p.
  Hypothesis Hglob : forall t p, w_glob w t p = matching p.

  Let is := fun s => run w n (RStr s false).
  Let ivl := interpolate (run w n) false.
  Let isc := in_scope (run w n) false.
  Let wv := fun (k : string) v (m : M st location) =>
              bind (run_op OScope) (fun sc => run_scoped (SScope (ScVar sc k v)) m).
  Let sta := fun p => ask (EvStat p) (fun t => w_stat w t p).
  Let gl := fun p => ask (EvGlob p) (fun t => w_glob w t p).
  Let show := vstring w.

  Lemma deep_stat sc p : gives sc (sta p) (on_disk p).
  Proof. apply gives_ask. intro. apply Hstat. Qed.
  Lemma deep_glob sc p : gives sc (gl p) (matching p).
  Proof. apply gives_ask. intro. apply Hglob. Qed.

  Lemma deep_text sc t t' A (f : string -> M st A) a : expands_in w sc n t t' -> gives sc (f t') a ->
    gives sc (bind (is t) (fun x => bind (show_opt show (fst x)) f)) a.
  Proof.
    intros H Hf. destruct (gives_expands w n sc t t' H) as (b & _ & G).
    eapply gives_bind; [ exact G | ]. cbn [fst]. eapply gives_bind; [ apply gives_ret | ]. exact Hf.
  Qed.

  Lemma deep_dir sc p p' : expands_in w sc n p p' -> gives sc (interp_dir is show p) p'.
  Proof.
    intro H. destruct (gives_expands w n sc p p' H) as (b & B & G). unfold interp_dir.
    eapply gives_bind; [ exact G | ]. cbn [fst snd]. destruct b; [ apply gives_ret | ]. rewrite (B eq_refl). apply gives_ret.
  Qed.
  Lemma stops_dir sc p x : unexpandable w sc n p x -> stops sc (interp_dir is show p) x.
  Proof. intro H. apply stops_now. exact (stops_expands w n sc p x H). Qed.

  Lemma deep_function sc f t : expands_in w sc n (f_name f) t -> gives sc (function_resolve is show f) (mk_fdef (f_kind f) t).
  Proof.
    intro H. destruct (gives_expands w n sc _ _ H) as (b & B & G). unfold function_resolve.
    eapply gives_bind; [ exact G | ]. cbn [fst snd]. destruct b.
    - eapply gives_bind; [ apply gives_ret | apply gives_ret ].
    - rewrite (B eq_refl). destruct f. apply gives_ret.
  Qed.
  Lemma stops_function sc f x : unexpandable w sc n (f_name f) x -> stops sc (function_resolve is show f) x.
  Proof. intro H. apply stops_now. exact (stops_expands w n sc _ x H). Qed.

  Lemma deep_wv sc k v m a : gives (ScVar sc k v) m a -> gives sc (wv k v m) a.
  Proof. intros H s Hs Ho. unfold wv, bind, run_op. rewrite Hs. exact (gives_scope sc _ _ _ _ H s Hs Ho). Qed.
  Lemma stops_wv sc k v m x : stops (ScVar sc k v) m x -> stops sc (wv k v m) x.
  Proof.
    intros H s Hs Ho. unfold wv, bind, run_op. rewrite Hs. unfold run_scoped.
    destruct (H (with_iv (iv_with_scope (ScVar sc k v) (s_iv s)) s) eq_refl Ho) as (s1 & E1 & A1). rewrite E1.
    exists s1. split; [ reflexivity | exact A1 ].
  Qed.
  Lemma endless_wv sc k v m : endless (ScVar sc k v) m -> endless sc (wv k v m).
  Proof.
    intros H s Hs Ho. unfold wv, bind, run_op. rewrite Hs. unfold run_scoped.
    pose proof (H (with_iv (iv_with_scope (ScVar sc k v) (s_iv s)) s) eq_refl Ho) as E.
    destruct (m _) as [o s1]. cbn [fst] in E. subst o. reflexivity.
  Qed.

  Lemma elements_mapped v l : elements v l -> mapped_vars v = l.
  Proof.
    intros [t|l'| |v' H1 H2]; try reflexivity. destruct v'; try reflexivity; [ destruct (H1 _ eq_refl) | destruct (H2 _ eq_refl) ].
  Qed.
  Lemma elements_exist v : elements v (mapped_vars v).
  Proof. destruct v as [[| | | | | | |]|]; constructor; intros; discriminate. Qed.

  (** One element of a source of mapped paths. *)
  Let one dr (template : string) : M st location :=
    bind (is template) (fun x => bind (show_opt show (fst x)) (fun s =>
      bind (sta (join2 dr s)) (fun ok => ret (LPath template (join2 dr s) ok)))).

  Lemma deep_one sc dr t t' : expands_in w sc n t t' -> gives sc (one dr t) (LPath t (join2 dr t') (on_disk (join2 dr t'))).
  Proof. intro H. apply (deep_text _ _ _ _ _ _ H). eapply gives_bind; [ apply deep_stat | apply gives_ret ]. Qed.
  Lemma stops_one sc dr t x : unexpandable w sc n t x -> stops sc (one dr t) x.
  Proof. intro H. apply stops_now. exact (stops_expands w n sc t x H). Qed.

  Lemma deep_mapped sc dr key t : forall l ts, Forall2 (fun x t' => expands_in w (ScVar sc key x) n t t') l ts ->
    gives sc (resolve_mapped is wv sta show dr key t l) (map (fun t' => LPath t (join2 dr t') (on_disk (join2 dr t'))) ts).
  Proof.
    induction 1 as [|x t' l' ts Hx _ IH]; cbn [resolve_mapped map]; [ apply gives_ret | ].
    eapply gives_bind; [ apply deep_wv; exact (deep_one _ dr _ _ Hx) | ].
    eapply gives_bind; [ exact IH | apply gives_ret ].
  Qed.

  Lemma deep_location sc dr l ls : located w on_disk matching n sc dr l ls ->
    gives sc (resolve_location is isc wv sta gl show dr l) ls.
  Proof.
    intros H. inversion H as [o r e t Ht|p t Ht|o r t Ht|src key template v l' ts Hv Hl Hts]; subst; cbn [resolve_location].
    - apply (deep_text _ _ _ _ _ _ Ht). eapply gives_bind; [ apply deep_stat | apply gives_ret ].
    - apply (deep_text _ _ _ _ _ _ Ht). eapply gives_bind; [ apply deep_glob | apply gives_ret ].
    - apply (deep_text _ _ _ _ _ _ Ht). apply gives_ret.
    - eapply gives_bind; [ exact (gives_variable w n sc _ _ Hv) | ]. rewrite (elements_mapped _ _ Hl). exact (deep_mapped _ _ _ _ _ _ Hts).
  Qed.

  (** The first elements have paths, the next one does not. *)
  Lemma stops_mapped sc dr key t y post x : stops (ScVar sc key y) (one dr t) x -> forall pre ts,
    Forall2 (fun x t' => expands_in w (ScVar sc key x) n t t') pre ts ->
    stops sc (resolve_mapped is wv sta show dr key t (pre ++ y :: post)) x.
  Proof.
    intro Hy. induction 1 as [|z t' l' ts Hx _ IH]; cbn [resolve_mapped app].
    - apply stops_now. apply stops_wv. exact Hy.
    - eapply stops_after; [ apply deep_wv; exact (deep_one _ dr _ _ Hx) | ]. apply stops_now. exact IH.
  Qed.
  Lemma endless_mapped sc dr key t y post : endless (ScVar sc key y) (one dr t) -> forall pre ts,
    Forall2 (fun x t' => expands_in w (ScVar sc key x) n t t') pre ts ->
    endless sc (resolve_mapped is wv sta show dr key t (pre ++ y :: post)).
  Proof.
    intro Hy. induction 1 as [|z t' l' ts Hx _ IH]; cbn [resolve_mapped app].
    - apply endless_now. apply endless_wv. exact Hy.
    - eapply endless_after; [ apply deep_wv; exact (deep_one _ dr _ _ Hx) | ]. apply endless_now. exact IH.
  Qed.

  Lemma stops_location sc dr x l : unlocatable w n sc x l -> stops sc (resolve_location is isc wv sta gl show dr l) x.
  Proof.
    intros [o r e H|p H|o r H|src key template H|src key template v pre y post ts Hv Hl Hp Hy]; cbn [resolve_location].
    1-3: apply stops_now; exact (stops_expands w n sc _ x H).
    - apply stops_now. exact (stops_variable w n sc _ x H).
    - eapply stops_after; [ exact (gives_variable w n sc _ _ Hv) | ]. rewrite (elements_mapped _ _ Hl).
      exact (stops_mapped sc dr key template y post x (stops_one _ dr _ _ Hy) pre ts Hp).
  Qed.

  Lemma location_settles sc dr l : orderly_scope sc -> (exists ls, located w on_disk matching n sc dr l ls) \/
    ((exists x, unlocatable w n sc x l) \/ endless sc (resolve_location is isc wv sta gl show dr l)).
  Proof.
    intro Hsc. destruct l as [o r e|p|o r|src key template]; cbn [resolve_location].
    - destruct (string_settles w n sc Hsc o) as [(t & H)|[(x & H)|H]].
      + left. eexists. apply ld_path. exact H.
      + right. left. exists x. apply ul_path. exact H.
      + right. right. apply endless_now. exact H.
    - destruct (string_settles w n sc Hsc p) as [(t & H)|[(x & H)|H]].
      + left. eexists. apply ld_glob. exact H.
      + right. left. exists x. apply ul_glob. exact H.
      + right. right. apply endless_now. exact H.
    - destruct (string_settles w n sc Hsc o) as [(t & H)|[(x & H)|H]].
      + left. eexists. apply ld_uri. exact H.
      + right. left. exists x. apply ul_uri. exact H.
      + right. right. apply endless_now. exact H.
    - destruct (variable_settles w n sc Hsc src) as [(v & Hv & T)|[(x & H)|H]].
      + pose proof (elements_exist v) as Hl.
        assert (W : Forall (fun y => wf y = true) (mapped_vars v)).
        { destruct v as [[| | | |t|l| |]|]; cbn [mapped_vars]; try constructor; [ reflexivity | constructor | ].
          unfold tidy in T. specialize (T _ eq_refl). apply wf_arr. exact T. }
        destruct (first_other (fun y => exists t, expands_in w (ScVar sc key y) n template t)
          (fun y => (exists x, unexpandable w (ScVar sc key y) n template x) \/ endless (ScVar sc key y) (run w n (RStr template false)))
          (mapped_vars v)) as [K|(pre & y & post & E & Hp & Hy)].
        * eapply Forall_impl; [ | exact W ]. intros y Wy. exact (string_settles w n _ (orderly_var sc key y Hsc Wy) template).
        * apply Forall_choice in K as (ts & K). left. eexists. eapply ld_mapped; eassumption.
        * apply Forall_choice in Hp as (ts & Hp). rewrite E in Hl. right. destruct Hy as [(x & Hy)|Hy].
          -- left. exists x. eapply ul_template; eassumption.
          -- right. eapply endless_after; [ exact (gives_variable w n sc _ _ Hv) | ]. rewrite E.
             apply (endless_mapped sc dr key template y post) with (ts := ts); [ apply endless_now; exact Hy | exact Hp ].
      + right. left. exists x. apply ul_source. exact H.
      + right. right. apply endless_now. exact H.
  Qed.

  Lemma deep_all sc dr ls lss : Forall2 (located w on_disk matching n sc dr) ls lss ->
    gives sc (resolve_all is isc wv sta gl show dr ls) (concat lss).
  Proof.
    induction 1 as [|l x ls lss H _ IH]; cbn [resolve_all concat]; [ apply gives_ret | ].
    eapply gives_bind; [ exact (deep_location _ _ _ _ H) | ]. eapply gives_bind; [ exact IH | apply gives_ret ].
  Qed.
  Lemma stops_all sc dr l post x : stops sc (resolve_location is isc wv sta gl show dr l) x -> forall pre lss,
    Forall2 (located w on_disk matching n sc dr) pre lss -> stops sc (resolve_all is isc wv sta gl show dr (pre ++ l :: post)) x.
  Proof.
    intro Hl. induction 1 as [|z lz pre lss H _ IH]; cbn [resolve_all app]; [ apply stops_now; exact Hl | ].
    eapply stops_after; [ exact (deep_location _ _ _ _ H) | ]. apply stops_now. exact IH.
  Qed.
  Lemma endless_all sc dr l post : endless sc (resolve_location is isc wv sta gl show dr l) -> forall pre lss,
    Forall2 (located w on_disk matching n sc dr) pre lss -> endless sc (resolve_all is isc wv sta gl show dr (pre ++ l :: post)).
  Proof.
    intro Hl. induction 1 as [|z lz pre lss H _ IH]; cbn [resolve_all app]; [ apply endless_now; exact Hl | ].
    eapply endless_after; [ exact (deep_location _ _ _ _ H) | ]. apply endless_now. exact IH.
  Qed.

  Variables (sc : scope) (root : string) (d : option entry).

  (** The function is resolved twice. *)
  Let functions (e : entry) : M st entry :=
    bind (resolve_function is show d e) (fun e1 => resolve_function is show d e1).

  Lemma function_own e f t : e_function e = Some f -> expands_in w sc n (f_name f) t ->
    gives sc (resolve_function is show d e) (set_function (Some (mk_fdef (f_kind f) t)) e).
  Proof.
    intros E H. unfold resolve_function. rewrite E.
    eapply gives_bind with (a := Some (mk_fdef (f_kind f) t)); [ | apply gives_ret ].
    eapply gives_bind; [ exact (deep_function _ _ _ H) | apply gives_ret ].
  Qed.
  Lemma function_inherited e f : e_function e = None ->
    match d with Some d => e_function d | None => Some (mk_fdef KDataHash "yaml_data") end = Some f ->
    gives sc (resolve_function is show d e) (set_function (Some f) e).
  Proof.
    intros E H. unfold resolve_function. rewrite E. destruct d as [d0|].
    - rewrite H. eapply gives_bind; [ apply gives_ret | apply gives_ret ].
    - injection H as <-. eapply gives_bind; [ apply gives_ret | apply gives_ret ].
  Qed.

  Lemma set_function_twice f f' e : set_function f (set_function f' e) = set_function f e.
  Proof. destruct e; reflexivity. Qed.

  Lemma yaml_data_expands : n <> 0 -> expands_in w sc n "yaml_data" "yaml_data".
  Proof.
    destruct n as [|m]; [ congruence | ]. intros _. exists [], [], "yaml_data". repeat split; try constructor.
    intros (a & b & c & E). apply (proj1 (contains_not "%{" "yaml_data") eq_refl).
    exists a, (b ++ "}" ++ c)%string. exact E.
  Qed.

  Lemma deep_functions e f : function_in w n sc d e f -> gives sc (functions e) (set_function (Some f) e).
  Proof.
    intros [f0 t t' E H1 H2|d0 f0 t E Ed E0 H|E Ed Hn]; unfold functions.
    - eapply gives_bind; [ exact (function_own _ _ _ E H1) | ].
      rewrite <- (set_function_twice (Some (mk_fdef (f_kind f0) t')) (Some (mk_fdef (f_kind f0) t)) e).
      exact (function_own (set_function (Some (mk_fdef (f_kind f0) t)) e) (mk_fdef (f_kind f0) t) t' eq_refl H2).
    - eapply gives_bind; [ apply (function_inherited e f0 E); rewrite Ed; exact E0 | ].
      rewrite <- (set_function_twice (Some (mk_fdef (f_kind f0) t)) (Some f0) e).
      exact (function_own (set_function (Some f0) e) f0 t eq_refl H).
    - eapply gives_bind; [ apply (function_inherited e (mk_fdef KDataHash "yaml_data") E); rewrite Ed; reflexivity | ].
      rewrite <- (set_function_twice (Some (mk_fdef KDataHash "yaml_data")) (Some (mk_fdef KDataHash "yaml_data")) e) at 2.
      exact (function_own (set_function (Some (mk_fdef KDataHash "yaml_data")) e) (mk_fdef KDataHash "yaml_data") "yaml_data" eq_refl
        (yaml_data_expands Hn)).
  Qed.

  Lemma function_stops e f x : e_function e = Some f -> unexpandable w sc n (f_name f) x ->
    stops sc (resolve_function is show d e) x.
  Proof.
    intros E H. unfold resolve_function. rewrite E. apply stops_now. apply stops_now. exact (stops_function _ _ _ H).
  Qed.
  Lemma function_endless e f : e_function e = Some f -> endless sc (run w n (RStr (f_name f) false)) ->
    endless sc (resolve_function is show d e).
  Proof.
    intros E H. unfold resolve_function. rewrite E. apply endless_now. apply endless_now. apply endless_now. exact H.
  Qed.

  Lemma stops_functions e x : function_not w n sc d e x -> stops sc (functions e) x.
  Proof.
    intros [f E H|f t E H1 H2|d0 f E Ed E0 H]; unfold functions.
    - apply stops_now. exact (function_stops _ _ _ E H).
    - eapply stops_after; [ exact (function_own _ _ _ E H1) | ].
      exact (function_stops (set_function (Some (mk_fdef (f_kind f) t)) e) (mk_fdef (f_kind f) t) x eq_refl H2).
    - eapply stops_after; [ apply (function_inherited e f E); rewrite Ed; exact E0 | ].
      exact (function_stops (set_function (Some f) e) f x eq_refl H).
  Qed.

  Hypothesis Hsc : orderly_scope sc.

  Lemma functions_settle e : (forall d0, d = Some d0 -> e_function d0 <> None) ->
    (exists f, function_in w n sc d e f) \/ (exists x, function_not w n sc d e x) \/ endless sc (functions e).
  Proof.
    intro Hd. unfold functions. destruct (e_function e) as [f|] eqn:E.
    - destruct (string_settles w n sc Hsc (f_name f)) as [(t & H)|[(x & H)|H]].
      + destruct (string_settles w n sc Hsc t) as [(t' & H')|[(x & H')|H']].
        * left. eexists. eapply fn_own; eassumption.
        * right. left. exists x. eapply fx_again; eassumption.
        * right. right. eapply endless_after; [ exact (function_own _ _ _ E H) | ].
          exact (function_endless (set_function (Some (mk_fdef (f_kind f) t)) e) (mk_fdef (f_kind f) t) eq_refl H').
      + right. left. exists x. eapply fx_own; eassumption.
      + right. right. apply endless_now. exact (function_endless _ _ E H).
    - assert (Q : match d with Some d => e_function d | None => Some (mk_fdef KDataHash "yaml_data") end <> None).
      { destruct d as [d0|]; [ exact (Hd d0 eq_refl) | discriminate ]. }
      destruct d as [d0|] eqn:Ed.
      + destruct (e_function d0) as [f|] eqn:E0; [ | congruence ].
        destruct (string_settles w n sc Hsc (f_name f)) as [(t & H)|[(x & H)|H]].
        * left. eexists. eapply fn_inherited; eauto.
        * right. left. exists x. eapply fx_inherited; eauto.
        * right. right. unfold functions. rewrite <- Ed. eapply endless_after; [ apply (function_inherited e f E); rewrite Ed; exact E0 | ].
          exact (function_endless (set_function (Some f) e) f eq_refl H).
      + destruct (Nat.eq_dec n 0) as [En|Hn].
        * right. right. unfold functions. rewrite <- Ed.
          eapply endless_after; [ apply (function_inherited e (mk_fdef KDataHash "yaml_data") E); rewrite Ed; reflexivity | ].
          apply (function_endless (set_function (Some (mk_fdef KDataHash "yaml_data")) e) (mk_fdef KDataHash "yaml_data") eq_refl).
          rewrite En. intros s _ _. reflexivity.
        * left. eexists. apply fn_default; auto.
  Qed.

  (** The data directory, when the function is known. *)
  Let datadir (e : entry) : M st entry :=
    if String.eqb (e_datadir e) "" then
      ret (set_datadir (match d with None => default_datadir (w_env w) | Some d => e_datadir d end) e)
    else bind (interp_dir is show (e_datadir e)) (fun p => ret (set_datadir p e)).

  Lemma directory_in_cases p inh p' : directory_in w n sc p inh p' -> (p <> "" /\ expands_in w sc n p p') \/ (p = "" /\ p' = inh).
  Proof. intros [? ? ? H1 H2|]; auto. Qed.

  Lemma deep_datadir e dd : datadir_in w n sc (w_env w) d e dd -> gives sc (datadir e) (set_datadir dd e).
  Proof.
    unfold datadir_in, datadir. intro H. apply directory_in_cases in H as [[Hne Hx]|[E ->]].
    - destruct (String.eqb_spec (e_datadir e) "") as [C|_]; [ contradiction | ].
      eapply gives_bind; [ exact (deep_dir _ _ _ Hx) | apply gives_ret ].
    - rewrite E. cbn [String.eqb]. destruct d; apply gives_ret.
  Qed.
  Lemma stops_datadir e x : directory_not w n sc (e_datadir e) x -> stops sc (datadir e) x.
  Proof.
    intros [Hne Hx]. unfold datadir. destruct (String.eqb_spec (e_datadir e) "") as [C|_]; [ contradiction | ].
    apply stops_now. exact (stops_dir _ _ _ Hx).
  Qed.
  Lemma directory_settles p inh : (exists p', directory_in w n sc p inh p') \/ (exists x, directory_not w n sc p x) \/
    p <> "" /\ endless sc (run w n (RStr p false)).
  Proof.
    destruct (string_dec p "") as [->|Hne]; [ left; exists inh; apply di_inherited | ].
    destruct (string_settles w n sc Hsc p) as [(t & H)|[(x & H)|H]].
    - left. exists t. constructor; assumption.
    - right. left. exists x. split; assumption.
    - right. right. split; assumption.
  Qed.
  Lemma datadir_settles e : (exists dd, datadir_in w n sc (w_env w) d e dd) \/
    (exists x, directory_not w n sc (e_datadir e) x) \/ endless sc (datadir e).
  Proof.
    destruct (directory_settles (e_datadir e) (match d with Some d => e_datadir d | None => default_datadir (w_env w) end)) as [H|[H|[Hne H]]];
      [ left; exact H | right; left; exact H | right; right ].
    unfold datadir. destruct (String.eqb_spec (e_datadir e) "") as [C|_]; [ contradiction | ].
    apply endless_now. apply endless_now. exact H.
  Qed.

  Let plugindir (e : entry) : M st entry := resolve_plugindir is show (w_env w) root d e.

  Lemma deep_plugindir e pd : plugindir_in w n sc (w_env w) d e pd -> gives sc (plugindir e) (set_plugindir (below root pd) e).
  Proof.
    unfold plugindir_in, plugindir, resolve_plugindir. intro H. apply directory_in_cases in H as [[Hne Hx]|[E ->]].
    - destruct (String.eqb_spec (e_plugindir e) "") as [C|_]; [ contradiction | ].
      eapply gives_bind; [ exact (deep_dir _ _ _ Hx) | apply gives_ret ].
    - rewrite E. cbn [String.eqb]. destruct d; (eapply gives_bind; [ apply gives_ret | apply gives_ret ]).
  Qed.
  Lemma stops_plugindir e x : directory_not w n sc (e_plugindir e) x -> stops sc (plugindir e) x.
  Proof.
    intros [Hne Hx]. unfold plugindir, resolve_plugindir. destruct (String.eqb_spec (e_plugindir e) "") as [C|_]; [ contradiction | ].
    apply stops_now. exact (stops_dir _ _ _ Hx).
  Qed.
  Lemma plugindir_settles e : (exists dd, plugindir_in w n sc (w_env w) d e dd) \/
    (exists x, directory_not w n sc (e_plugindir e) x) \/ endless sc (plugindir e).
  Proof.
    destruct (directory_settles (e_plugindir e) (match d with Some d => e_plugindir d | None => default_plugindir (w_env w) end)) as [H|[H|[Hne H]]];
      [ left; exact H | right; left; exact H | right; right ].
    unfold plugindir, resolve_plugindir. destruct (String.eqb_spec (e_plugindir e) "") as [C|_]; [ contradiction | ].
    apply endless_now. apply endless_now. exact H.
  Qed.

  Let options (e : entry) : M st entry := resolve_options ivl d e.

  Lemma value_map_shape (P : string -> option value -> Prop) o r : value_is P (VMap o) r -> exists o', r = Some (VMap o').
  Proof.
    intro H. inversion H as [| |m m' W K|v _ _ C]; subst; [ eexists; reflexivity | ]. destruct (C o eq_refl).
  Qed.
  Lemma no_failing_empty (P : string -> option value -> Prop) Q x : ~ value_fails P Q (VMap []) x.
  Proof.
    intro H. inversion H as [| |pre k v post ? ? ? E|pre k v post ? ? ? ? E]; destruct pre; discriminate.
  Qed.

  Lemma options_same e e' o : e_options e = e_options e' -> options_in w n sc d e o -> options_in w n sc d e' o.
  Proof.
    intros E H. destruct H as [o0 o' E0 Hne H|E0|d0 E0 Ed|E0 Ed]; rewrite E in E0;
      [ eapply op_own | eapply op_empty | eapply op_inherited | eapply op_default ]; eassumption.
  Qed.

  Lemma deep_options e o : options_in w n sc d e o -> gives sc (options e) (set_options (Some o) e).
  Proof.
    intros [o0 o' E Hne H|E|d0 E Ed|E Ed]; unfold options, resolve_options; rewrite E.
    - destruct o0 as [|kv o0]; [ congruence | ]. eapply gives_bind with (a := Some o'); [ | apply gives_ret ].
      eapply gives_bind; [ exact (gives_interpolate w n sc _ _ H) | apply gives_ret ].
    - eapply gives_bind; [ apply gives_ret | apply gives_ret ].
    - rewrite Ed. eapply gives_bind; [ apply gives_ret | apply gives_ret ].
    - rewrite Ed. eapply gives_bind; [ apply gives_ret | apply gives_ret ].
  Qed.
  Lemma stops_options e x : options_not w n sc e x -> stops sc (options e) x.
  Proof.
    intros (o & E & H). unfold options, resolve_options. rewrite E. destruct o as [|kv o]; [ destruct (no_failing_empty _ _ _ H) | ].
    apply stops_now. apply stops_now. exact (stops_interpolate w n sc _ _ H).
  Qed.
  Lemma options_settle e : (forall o, e_options e = Some o -> wf (VMap o) = true) ->
    (exists o, options_in w n sc d e o) \/ (exists x, options_not w n sc e x) \/ endless sc (options e).
  Proof.
    intro W. destruct (e_options e) as [o|] eqn:E.
    - destruct o as [|kv o]; [ left; exists []; apply op_empty; exact E | ].
      destruct (value_settles w n sc Hsc (VMap (kv :: o)) (W _ eq_refl)) as [(r & H)|[(x & H)|H]].
      + destruct (value_map_shape _ _ _ H) as (o' & ->). left. exists o'. eapply op_own; [ exact E | discriminate | exact H ].
      + right. left. exists x. exists (kv :: o). auto.
      + right. right. unfold options, resolve_options. rewrite E. apply endless_now. apply endless_now. exact H.
    - left. destruct d as [d0|] eqn:Ed; eexists; [ eapply op_inherited; eauto | eapply op_default; eauto ].
  Qed.

  Let locations (e : entry) : M st entry := resolve_locations is isc wv sta gl show root e.

  Lemma locations_settle e : (exists ls, match e_locations e with
      | Some l => exists lss, Forall2 (located w on_disk matching n sc (below root (e_datadir e))) l lss /\ ls = Some (concat lss)
      | None => ls = None
      end) \/
    (exists x pre l post lss, e_locations e = Some (pre ++ l :: post) /\
      Forall2 (located w on_disk matching n sc (below root (e_datadir e))) pre lss /\ unlocatable w n sc x l) \/
    endless sc (locations e).
  Proof.
    destruct (e_locations e) as [l|] eqn:E; [ | left; exists None; reflexivity ].
    assert (Q : Forall (fun y => (exists ls, located w on_disk matching n sc (below root (e_datadir e)) y ls) \/
      ((exists x, unlocatable w n sc x y) \/ endless sc (resolve_location is isc wv sta gl show (below root (e_datadir e)) y))) l).
    { apply Forall_forall. intros y _. exact (location_settles sc _ y Hsc). }
    destruct (first_other _ _ l Q) as [K|(pre & y & post & -> & Hp & Hy)].
    - apply Forall_choice in K as (lss & K). left. eexists. exists lss. split; [ exact K | reflexivity ].
    - apply Forall_choice in Hp as (lss & Hp). right. destruct Hy as [(x & Hy)|Hy].
      + left. exists x, pre, y, post, lss. auto.
      + right. unfold locations, resolve_locations. rewrite E. apply endless_now.
        exact (endless_all sc _ y post Hy pre lss Hp).
  Qed.

  (** *** Put together *)
  Let whole (e : entry) : M st entry :=
    bind (functions e) (fun e => bind (datadir e) (fun e => bind (plugindir e) (fun e => bind (options e) locations))).

  Lemma whole_same e s : resolve_entry w (run w n) root d e s = whole e s.
  Proof.
    unfold resolve_entry.
    change (entry_resolve is ivl isc wv sta gl show (w_env w) root d e s = whole e s). unfold entry_resolve, whole.
    unfold functions. rewrite bind_assoc. apply bind_same; [ reflexivity | ]. intros e1 s1. unfold resolve_datadir.
    rewrite bind_assoc. reflexivity.
  Qed.

  Lemma deep_entry e e' : entry_in w on_disk matching n sc (w_env w) root d e e' ->
    gives sc (resolve_entry w (run w n) root d e) e'.
  Proof.
    intros [f dd pd o ls Hf Hd Hp Ho Hl].
    assert (G : gives sc (whole e) (mk_entry dd (below root pd) (e_pluginfile e) (Some o) (Some f) (e_name e) ls));
      [ | intros s Hs Of; rewrite whole_same; exact (G s Hs Of) ].
    unfold whole. eapply gives_bind; [ exact (deep_functions e f Hf) | ].
    eapply gives_bind; [ exact (deep_datadir (set_function (Some f) e) dd Hd) | ].
    eapply gives_bind; [ exact (deep_plugindir (set_datadir dd (set_function (Some f) e)) pd Hp) | ].
    eapply gives_bind; [ exact (deep_options (set_plugindir (below root pd) (set_datadir dd (set_function (Some f) e))) o (options_same e (set_plugindir (below root pd) (set_datadir dd (set_function (Some f) e))) o eq_refl Ho)) | ].
    unfold locations, resolve_locations. cbn [set_options set_plugindir set_datadir set_function e_locations e_datadir].
    destruct (e_locations e) as [l|] eqn:El.
    - destruct Hl as (lss & Hl & ->). eapply gives_bind; [ exact (deep_all _ _ _ _ Hl) | ]. destruct e; apply gives_ret.
    - subst ls. destruct e; cbn in *; subst. apply gives_ret.
  Qed.

  Lemma stops_entry e x : entry_not w on_disk matching n sc (w_env w) root d e x ->
    stops sc (resolve_entry w (run w n) root d e) x.
  Proof.
    intro H. assert (G : stops sc (whole e) x); [ | intros s Hs Of; rewrite whole_same; exact (G s Hs Of) ]. unfold whole.
    destruct H as [H|f Hf H|f dd Hf Hd H|f dd pd Hf Hd Hp H|f dd pd o pre l post lss Hf Hd Hp Ho El Hl H].
    - apply stops_now. exact (stops_functions e x H).
    - eapply stops_after; [ exact (deep_functions e f Hf) | ]. apply stops_now.
      exact (stops_datadir (set_function (Some f) e) x H).
    - eapply stops_after; [ exact (deep_functions e f Hf) | ].
      eapply stops_after; [ exact (deep_datadir (set_function (Some f) e) dd Hd) | ]. apply stops_now.
      exact (stops_plugindir (set_datadir dd (set_function (Some f) e)) x H).
    - eapply stops_after; [ exact (deep_functions e f Hf) | ].
      eapply stops_after; [ exact (deep_datadir (set_function (Some f) e) dd Hd) | ].
      eapply stops_after; [ exact (deep_plugindir (set_datadir dd (set_function (Some f) e)) pd Hp) | ]. apply stops_now.
      exact (stops_options (set_plugindir (below root pd) (set_datadir dd (set_function (Some f) e))) x H).
    - eapply stops_after; [ exact (deep_functions e f Hf) | ].
      eapply stops_after; [ exact (deep_datadir (set_function (Some f) e) dd Hd) | ].
      eapply stops_after; [ exact (deep_plugindir (set_datadir dd (set_function (Some f) e)) pd Hp) | ].
      eapply stops_after; [ exact (deep_options (set_plugindir (below root pd) (set_datadir dd (set_function (Some f) e))) o (options_same e (set_plugindir (below root pd) (set_datadir dd (set_function (Some f) e))) o eq_refl Ho)) | ].
      unfold locations, resolve_locations. cbn [set_options set_plugindir set_datadir set_function e_locations e_datadir].
      rewrite El. apply stops_now. exact (stops_all sc (below root dd) l post x (stops_location sc _ x l H) pre lss Hl).
  Qed.

  Lemma entry_settles e : (forall d0, d = Some d0 -> e_function d0 <> None) ->
    (forall o, e_options e = Some o -> wf (VMap o) = true) ->
    (exists e', entry_in w on_disk matching n sc (w_env w) root d e e') \/
    ((exists x, entry_not w on_disk matching n sc (w_env w) root d e x) \/
     endless sc (resolve_entry w (run w n) root d e)).
  Proof.
    intros Hd0 Wo.
    assert (T : endless sc (whole e) -> endless sc (resolve_entry w (run w n) root d e)).
    { intros G s Hs Of. rewrite whole_same. exact (G s Hs Of). }
    destruct (functions_settle e Hd0) as [(f & Hf)|[(x & H)|H]].
    2: { right. left. exists x. apply ex_function. exact H. }
    2: { right. right. apply T. unfold whole. apply endless_now. exact H. }
    destruct (datadir_settles (set_function (Some f) e)) as [(dd & Hd)|[(x & H)|H]].
    2: { right. left. exists x. eapply ex_datadir; [ exact Hf | exact H ]. }
    2: { right. right. apply T. unfold whole. eapply endless_after; [ exact (deep_functions e f Hf) | ]. apply endless_now. exact H. }
    destruct (plugindir_settles (set_datadir dd (set_function (Some f) e))) as [(pd & Hp)|[(x & H)|H]].
    2: { right. left. exists x. eapply ex_plugindir; [ exact Hf | exact Hd | exact H ]. }
    2: { right. right. apply T. unfold whole. eapply endless_after; [ exact (deep_functions e f Hf) | ].
         eapply endless_after; [ exact (deep_datadir (set_function (Some f) e) dd Hd) | ]. apply endless_now. exact H. }
    destruct (options_settle (set_plugindir (below root pd) (set_datadir dd (set_function (Some f) e))) Wo) as [(o & Ho)|[(x & H)|H]].
    2: { right. left. exists x. eapply ex_options; [ exact Hf | exact Hd | exact Hp | exact H ]. }
    2: { right. right. apply T. unfold whole. eapply endless_after; [ exact (deep_functions e f Hf) | ].
         eapply endless_after; [ exact (deep_datadir (set_function (Some f) e) dd Hd) | ].
         eapply endless_after; [ exact (deep_plugindir (set_datadir dd (set_function (Some f) e)) pd Hp) | ].
         apply endless_now. exact H. }
    pose proof (options_same (set_plugindir (below root pd) (set_datadir dd (set_function (Some f) e))) e o eq_refl Ho) as Ho'.
    destruct (locations_settle (set_options (Some o) (set_plugindir (below root pd) (set_datadir dd (set_function (Some f) e)))))
      as [(ls & H)|[(x & pre & l & post & lss & El & Hl & H)|H]].
    - left. eexists. eapply en; [ exact Hf | exact Hd | exact Hp | exact Ho' | exact H ].
    - right. left. exists x. eapply ex_locations; [ exact Hf | exact Hd | exact Hp | exact Ho' | exact El | exact Hl | exact H ].
    - right. right. apply T. unfold whole. eapply endless_after; [ exact (deep_functions e f Hf) | ].
      eapply endless_after; [ exact (deep_datadir (set_function (Some f) e) dd Hd) | ].
      eapply endless_after; [ exact (deep_plugindir (set_datadir dd (set_function (Some f) e)) pd Hp) | ].
      eapply endless_after; [ exact (deep_options (set_plugindir (below root pd) (set_datadir dd (set_function (Some f) e))) o Ho) | ].
      exact H.
  Qed.

  Lemma entry_in_function e e' : entry_in w on_disk matching n sc (w_env w) root d e e' -> e_function e' <> None.
  Proof. intros [f dd pd o ls _ _ _ _ _]. discriminate. Qed.
End Entry.
