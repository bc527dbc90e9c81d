(** Every level of a hierarchy has a value, fails, or does not end. *)

From Coq Require Import String Ascii List ZArith Bool Arith Lia.
From Verif Require Import SpecPlace PlaceFacts.
From Verif Require Import Str Value Outcome Key Merge Fpath Config Ipl Explain State Engine Meta Fuel
  SpecKey SpecKeyErr SpecIpl SpecInterp SpecConfig SpecMerge SpecPath SpecLookup SpecFail SpecWorld
  KeyFacts KeyErrFacts ValueFacts MergeFacts MergeLookup StrFacts IplFacts InterpFacts IplExact ResolveFacts
  LookupExact LoaderFacts HierarchyExact LookupTop FailExact FailText SettledLookup Acyclic Cycles RootFacts Decided.
Import ListNotations.
Open Scope nat_scope.
Open Scope string_scope.
Open Scope list_scope.

Lemma tidy_pure s outs : Forall tidy outs -> tidy (pure_lookup s outs).
Proof.
  intros H v E. refine (proj1 (orderly_pure (fun _ => True) s outs _ v E)).
  eapply Forall_impl; [ | exact H ]. intros o Ho x Ex. split; [ exact (Ho x Ex) | ]. intros t _. exact I.
Qed.

Lemma tidy_wrapped ps v : wf v = true -> wf (wrapped ps v) = true.
Proof.
  intro W. induction ps as [|[s|z] ps IH]; [ exact W | | ]; cbn [wrapped]; apply wf_map;
    (split; [ constructor; constructor | constructor; [ split; [ reflexivity | exact IH ] | constructor ] ]).
Qed.

Lemma tidy_environment env x : tidy (environment env x).
Proof.
  unfold environment. destruct (String.eqb x "env").
  - apply tidy_some. unfold env_map.
    assert (G : forall l m, wfm m -> wfm (fold_left (fun m e => if String.eqb (fst e) "" then m else mput (VStr (fst e)) (VStr (snd e)) m) l m)).
    { induction l as [|e l IH]; intros m Hm; [ exact Hm | ]. cbn [fold_left]. apply IH.
      destruct (String.eqb (fst e) ""); [ exact Hm | ]. apply mput_wf; [ exact Hm | reflexivity | reflexivity ]. }
    apply G. apply wfm_nil.
  - destruct (strip_prefix "env::" x) as [n|]; [ | exact tidy_none ].
    destruct (String.eqb n ""); [ exact tidy_none | ]. destruct (lookup_env env n); [ | exact tidy_none ].
    apply tidy_some. reflexivity.
Qed.

Lemma tidy_get x m v : wf (VMap m) = true -> mgets x m = Some v -> wf v = true.
Proof. intros W H. apply mget_in in H as (k & Hin & _). exact (proj2 (wfm_in m (k, v) W Hin)). Qed.

Section Levels.
  Variables (w : world) (sc : scope).
  Hypothesis Hw : dependable w.
  Hypothesis Hvars : forall x v, scope_get sc x = Some v -> wf v = true.

  Lemma function_decided e n : (exists o, function_is w e n o) \/ exists x, function_fails w e n x.
  Proof.
    destruct (dp_fun w Hw n) as ([|] & Hf); [ left; eexists; apply fi_session; exact Hf | ].
    pose proof (plugin_path_file (w_cwd w) e n (dp_cwd w Hw)) as F. set (path := plugin_path (w_cwd w) e n) in *.
    destruct (string_dec path "/") as [E|E].
    - left. eexists. apply fi_root; [ exact Hf | ]. rewrite <- E. exact F.
    - destruct (dp_plugin w Hw path n) as [([|] & H)|(x & H)].
      + left. eexists. eapply fi_plugin; eassumption.
      + left. eexists. eapply fi_none; eassumption.
      + right. exists x. split; [ exact Hf | ]. exists path. auto.
  Qed.

  Lemma options_decided e loc : (forall l, loc = Some l -> exists p, loc_resolved l = Ok p) -> exists opts, options_are e loc opts.
  Proof.
    intro H. destruct loc as [l|]; [ | eexists; constructor ]. destruct (H l eq_refl) as (p & E). eexists. constructor. exact E.
  Qed.

  Lemma file_decided what p f : (forall v, f = DfValue v -> wf v = true) ->
    (exists m, file_has f m /\ wf (VMap m) = true) \/ exists x, unreadable what p f x.
  Proof.
    intro W. destruct f as [|x|v].
    - left. exists []. split; [ constructor | reflexivity ].
    - right. exists x. constructor.
    - destruct v; try (right; eexists; apply ur_content; intros; discriminate).
      left. eexists. split; [ constructor | ]. apply W. reflexivity.
  Qed.

  Lemma hash_decided e n loc opts : options_are e loc opts ->
    (exists m, hash_is w e n loc m /\ wf (VMap m) = true) \/ exists x, hash_fails w e n loc x.
  Proof.
    intro Ho. destruct (string_dec n "yaml_data") as [Ey|Ey].
    { destruct (mgets "path" opts) as [p|] eqn:Ep; [ | right; eexists; eapply hf_no_path; eauto ].
      destruct (dp_yaml w Hw (vstring w p)) as (f & Hf & W).
      destruct (file_decided "YAML hash" (vstring w p) f W) as [(m & Hm & Wm)|(x & Hx)].
      - left. exists m. split; [ | exact Wm ]. eapply hi_yaml; try eassumption. intro t. rewrite Hf. exact Hm.
      - right. exists x. eapply hf_yaml; try eassumption. intro t. rewrite Hf. exact Hx. }
    destruct (string_dec n "json_data") as [Ej|Ej].
    { destruct (mgets "path" opts) as [p|] eqn:Ep; [ | right; eexists; eapply hf_no_path; eauto ].
      destruct (dp_json w Hw (vstring w p)) as (f & Hf & W).
      destruct (file_decided "JSON object" (vstring w p) f W) as [(m & Hm & Wm)|(x & Hx)].
      - left. exists m. split; [ | exact Wm ]. eapply hi_json; try eassumption. intro t. rewrite Hf. exact Hm.
      - right. exists x. eapply hf_json; try eassumption. intro t. rewrite Hf. exact Hx. }
    destruct (function_decided e n) as [([f|] & Hf)|(x & Hf)].
    - destruct (dp_call w Hw f (ADataHash opts)) as [(v & Hc & W)|(x & Hc)].
      + left. eexists. split; [ eapply hi_function; eassumption | ].
        destruct v as [[| | | | | |m|]|]; try reflexivity. exact (W _ eq_refl).
      + right. exists x. eapply hf_call; eassumption.
    - left. exists []. split; [ eapply hi_unknown; eassumption | reflexivity ].
    - right. exists x. eapply hf_load; eassumption.
  Qed.

  Variable value_is : value -> option value -> Prop.
  Variable value_fails : value -> err -> Prop.
  Variable stuck : value -> Prop.
  Hypothesis Hdec : forall v, wf v = true -> (exists o, value_is v o /\ tidy o) \/ (exists x, value_fails v x) \/ stuck v.
  Variable r : string.
  Variables (x0 : string) (qs : list part).
  Hypothesis Hr : written_key r (PStr x0 :: qs).

  (** Places with a value that does not end. *)
  Inductive stuck_at (e : entry) (loc : option location) : Prop :=
  | sa : forall n m v, e_function e = Some (mk_fdef KDataHash n) -> hash_is w e n loc m ->
      mgets x0 m = Some v -> stuck v -> stuck_at e loc.
  Definition stuck_location (e : entry) (l : location) : Prop := there l /\ stuck_at e (Some l).
  Definition reaches_stuck {L} (gives : L -> option value -> Prop) (st : L -> Prop) (s : strategy) (l : list L) : Prop :=
    reaches_failure gives (fun y _ => st y) s l EOther.
  Inductive stuck_entry (s : strategy) (e : entry) : Prop :=
  | se_plain : e_locations e = None -> stuck_at e None -> stuck_entry s e
  | se_one : forall l, e_locations e = Some [l] -> stuck_location e l -> stuck_entry s e
  | se_many : forall l1 l2 ls, e_locations e = Some (l1 :: l2 :: ls) ->
      reaches_stuck (location_gives w sc value_is r e) (stuck_location e) s (l1 :: l2 :: ls) -> stuck_entry s e.
  Definition stuck_hierarchy (s : strategy) (es : list entry) : Prop :=
    reaches_stuck (entry_gives w sc value_is r s) (stuck_entry s) s es.

  Lemma provides_decided e loc : e_function e <> None -> (forall l, loc = Some l -> exists p, loc_resolved l = Ok p) ->
    (exists o, provides w sc value_is r e loc o /\ tidy o) \/ (exists x, fails w value_fails r e loc x) \/ stuck_at e loc.
  Proof.
    intros Hf Hl. destruct (options_decided e loc Hl) as (opts & Ho).
    assert (Hx : root_is r x0) by (exists qs; exact Hr).
    destruct (e_function e) as [[kind n]|] eqn:Ef; [ | congruence ]. clear Hf. destruct kind.
    - destruct (function_decided e n) as [([f|] & Hf)|(x & Hf)].
      + destruct (dp_dig w Hw f (PStr x0 :: qs)) as [(v & Hc & W)|(x & Hc)].
        * left. eexists. split; [ eapply pr_dig; eassumption | ]. destruct v as [v|]; [ | exact tidy_none ].
          apply tidy_some. apply tidy_wrapped. exact (W v eq_refl).
        * right. left. exists x. eapply fa_dig; eassumption.
      + left. exists None. split; [ eapply pr_dig_unknown; eassumption | exact tidy_none ].
      + right. left. exists x. eapply fa_dig_load; eassumption.
    - destruct (hash_decided e n loc opts Ho) as [(m & Hm & Wm)|(x & Hfx)]; [ | right; left; exists x; eapply fa_hash; eassumption ].
      destruct (mgets x0 m) as [v|] eqn:Eg.
      + destruct (Hdec v (tidy_get x0 m v Wm Eg)) as [(o & H & T)|[(x & H)|H]].
        * left. exists o. split; [ eapply pr_hash; eassumption | exact T ].
        * right. left. exists x. eapply fa_value; eassumption.
        * right. right. econstructor; eassumption.
      + left. exists None. split; [ eapply pr_hash_not; eassumption | exact tidy_none ].
    - destruct (string_dec n "environment") as [->|Ee].
      { left. eexists. split; [ eapply pr_environment; eassumption | apply tidy_environment ]. }
      destruct (string_dec n "scope") as [->|Es].
      { left. eexists. split; [ eapply pr_scope; eassumption | ]. intros v E. exact (Hvars _ _ E). }
      destruct (function_decided e n) as [([f|] & Hf)|(x & Hf)].
      + destruct (dp_call w Hw f (ALookupKey opts x0)) as [(v & Hc & W)|(x & Hc)].
        * left. exists v. split; [ eapply pr_key; eassumption | exact W ].
        * right. left. exists x. eapply fa_key; eassumption.
      + left. exists None. split; [ eapply pr_key_unknown; eassumption | exact tidy_none ].
      + right. left. exists x. eapply fa_key_load; eassumption.
  Qed.

  Lemma location_decided e l : e_function e <> None -> (exists p, loc_resolved l = Ok p) ->
    (exists o, location_gives w sc value_is r e l o /\ tidy o) \/ (exists x, location_fails w value_fails r e l x) \/ stuck_location e l.
  Proof.
    intros Hf Hl. destruct (loc_exists l) eqn:E.
    - destruct (provides_decided e (Some l) Hf) as [(o & H & T)|[(x & H)|H]].
      + intros l0 E0. injection E0 as <-. exact Hl.
      + left. exists o. split; [ apply lg_there; [ apply there_exists; exact E | exact H ] | exact T ].
      + right. left. exists x. split; [ apply there_exists; exact E | exact H ].
      + right. right. split; [ apply there_exists; exact E | exact H ].
    - left. exists None. split; [ apply lg_absent; apply not_there; exact E | exact tidy_none ].
  Qed.

  Lemma picks_decided {L} (g : L -> option value -> Prop) (f : L -> err -> Prop) (st : L -> Prop) s l :
    Forall (fun y => (exists o, g y o /\ tidy o) \/ (exists x, f y x) \/ st y) l ->
    (exists o, picks g s l o /\ tidy o) \/ (exists x, reaches_failure g f s l x) \/ reaches_stuck g st s l.
  Proof.
    intro H.
    assert (First : s = SFirst -> (exists o, picks g s l o /\ tidy o) \/ (exists x, reaches_failure g f s l x) \/ reaches_stuck g st s l).
    { intros ->.
      assert (Q : Forall (fun y => g y None \/ ((exists v, g y (Some v) /\ wf v = true) \/ (exists x, f y x) \/ st y)) l).
      { eapply Forall_impl; [ | exact H ]. intros y [([v|] & Hg & T)|Hy]; [ right; left; exists v; split; [ exact Hg | exact (T v eq_refl) ] | left; exact Hg | right; right; exact Hy ]. }
      destruct (first_other _ _ l Q) as [K|(pre & y & post & -> & Hp & [(v & Hy & W)|[(x & Hy)|Hy]])].
      - left. exists None. split; [ apply pk_none; exact K | exact tidy_none ].
      - left. exists (Some v). split; [ apply pk_first; assumption | apply tidy_some; exact W ].
      - right. left. exists x. apply rf_first; assumption.
      - right. right. apply rf_first; assumption. }
    assert (Merge : s <> SFirst -> (exists o, picks g s l o /\ tidy o) \/ (exists x, reaches_failure g f s l x) \/ reaches_stuck g st s l).
    { intro Hs. destruct (first_other _ _ l H) as [K|(pre & y & post & -> & Hp & Hy)].
      - left. apply Forall_choice in K as (outs & K). exists (pure_lookup s outs). split.
        + apply pk_merge; [ exact Hs | ]. clear - K. induction K as [|a b l outs [Hg _] _ IH]; constructor; assumption.
        + apply tidy_pure. clear - K. induction K as [|a b l outs [_ Hg] _ IH]; constructor; assumption.
      - apply Forall_choice in Hp as (outs & K).
        assert (K' : Forall2 g pre outs) by (clear - K; induction K as [|a b l outs [Hg _] _ IH]; constructor; assumption).
        right. destruct Hy as [(x & Hy)|Hy]; [ left; exists x | right ]; (eapply rf_merge; [ exact Hs | exact K' | exact Hy ]). }
    destruct s; [ exact (First eq_refl) | | | ]; apply Merge; discriminate.
  Qed.

  Lemma entry_decided s e : usable e ->
    (exists o, entry_gives w sc value_is r s e o /\ tidy o) \/ (exists x, entry_fails w sc value_is value_fails r s e x) \/ stuck_entry s e.
  Proof.
    intros [Hf Hl]. destruct (e_locations e) as [[|l1 [|l2 ls]]|] eqn:El.
    - left. exists None. split; [ apply eg_empty; exact El | exact tidy_none ].
    - destruct (location_decided e l1 Hf (Hl _ l1 eq_refl (or_introl eq_refl))) as [(o & H & T)|[(x & H)|H]].
      + left. exists o. split; [ eapply eg_one; eassumption | exact T ].
      + right. left. exists x. eapply ef_one; eassumption.
      + right. right. eapply se_one; eassumption.
    - destruct (picks_decided (location_gives w sc value_is r e) (location_fails w value_fails r e) (stuck_location e) s (l1 :: l2 :: ls)) as [(o & H & T)|[(x & H)|H]].
      + apply Forall_forall. intros l Hin. exact (location_decided e l Hf (Hl _ l eq_refl Hin)).
      + left. exists o. split; [ eapply eg_many; eassumption | exact T ].
      + right. left. exists x. eapply ef_many; eassumption.
      + right. right. eapply se_many; eassumption.
    - destruct (provides_decided e None Hf) as [(o & H & T)|[(x & H)|H]]; [ discriminate | | | ].
      + left. exists o. split; [ apply eg_plain; assumption | exact T ].
      + right. left. exists x. apply ef_plain; assumption.
      + right. right. apply se_plain; assumption.
  Qed.

  Lemma hierarchy_decided s es : Forall usable es ->
    (exists o, hierarchy_gives w sc value_is r s es o /\ tidy o) \/
    (exists x, hierarchy_fails w sc value_is value_fails r s es x) \/ stuck_hierarchy s es.
  Proof.
    intro H. apply picks_decided. eapply Forall_impl; [ | exact H ]. intros e. apply entry_decided.
  Qed.
End Levels.

(** ** What is stuck does not end *)

Section Stuck.
  Variables (w : world) (rec : req -> M st res) (sc : scope) (ps : list provider).
  Hypothesis Hd : NoDup (map p_id ps).
  Variable P : st -> Prop.
  Hypothesis Pof : forall s, P s -> exists i cf sh, iv_expl i = false /\ iv_scope i = sc /\ good w i cf sh ps s.
  Hypothesis Pall : forall A (m : M st A) a,
    (forall i cf sh, iv_expl i = false -> iv_scope i = sc -> yields (good w i cf sh ps) m a) -> yields P m a.
  Let Pframes : forall A (m : M st A) a, frames w sc ps m a -> yields P m a.
  Proof. intros A m a H. apply Pall. exact (frames_yields w sc ps A m a Hd H). Qed.
  Variable value_is : value -> option value -> Prop.
  Hypothesis Hv : forall v o, value_is v o -> yields P (interpolate rec true v) o.
  Variable stuck : value -> Prop.
  Hypothesis Hstuck : forall v, stuck v -> diverges P (interpolate rec true v).
  Let Poff : forall s, P s -> off s.
  Proof. intros s H. destruct (Pof s H) as (i & cf & sh' & Hi & _ & G). exact (good_off w i cf sh' ps Hi s G). Qed.
  Variables (r : string) (x0 : string) (qs : list part).
  Let k := mk_key r (PStr x0 :: qs).
  Hypothesis Hk : new_key r = Ok k.

  Lemma div_provider p loc : In p ps -> location_of (p_entry p) loc -> stuck_at w stuck x0 (p_entry p) loc ->
    diverges P (provider_lookup w rec k p loc).
  Proof.
    intros Hin Hloc [n m v Hf Hm Hg Hx]. unfold provider_lookup. rewrite Hf. cbn [f_kind].
    eapply div_after; [ apply yields_lift; reflexivity | ]. eapply div_after with (a := m).
    { apply Pall. intros i cf sh Hi _ s G. exact (data_hash_run w rec i cf sh ps p n loc m s Hi Hd Hin Hf Hloc Hm G). }
    rewrite Hg. apply div_bind. exact (Hstuck v Hx).
  Qed.

  Lemma div_invoke p l : In p ps -> location_of (p_entry p) (Some l) -> stuck_location w stuck x0 (p_entry p) l ->
    diverges P (invoke w rec k p l).
  Proof.
    intros Hin Hloc [E H]. unfold invoke. apply (div_node P Poff). apply there_exists in E. rewrite E. exact (div_provider p (Some l) Hin Hloc H).
  Qed.

  Lemma div_picks {L} (f : L -> M st (option value)) (from : L -> option value -> Prop) (bad : L -> Prop) s l :
    (forall y o, In y l -> from y o -> yields P (f y) o) ->
    (forall y, In y l -> bad y -> diverges P (f y)) ->
    reaches_stuck from bad s l -> diverges P (merging s l f).
  Proof.
    intros Hg Hb H. unfold merging, merge_lookup.
    assert (Single : forall p (pre post : list L) (h : M st (option value)), diverges P (f p) -> diverges P h ->
       forall pre', pre' = pre -> diverges P h) by auto.
    clear Single. unfold reaches_stuck in H. remember EOther as x eqn:Ex. clear Ex.
    destruct H as [pre p post x Hp Hx|s pre p post outs x Hs Hp Hx].
    - assert (Hx' : diverges P (f p)) by (apply Hb; [ apply in_or_app; right; left; reflexivity | exact Hx ]).
      assert (B : diverges P (bind (first_loop f (pre ++ p :: post)) (report_some report_result))).
      { apply div_bind.
        assert (Hp' : Forall (fun y => yields P (f y) None) pre).
        { apply Forall_forall. intros y Hy. apply Hg; [ apply in_or_app; left; exact Hy | exact (proj1 (Forall_forall _ _) Hp y Hy) ]. }
        clear - Hp' Hx'. induction Hp' as [|y l Hy _ IH]; cbn [app first_loop]; [ apply div_bind; exact Hx' | ].
        eapply div_after; [ exact Hy | exact IH ]. }
      destruct pre as [|a [|b pre]]; [ destruct post as [|q post]; [ exact Hx' | exact B ] | exact B | exact B ].
    - assert (Hx' : diverges P (f p)) by (apply Hb; [ apply in_or_app; right; left; reflexivity | exact Hx ]).
      assert (B : diverges P (with_merge s (bind (merge_loop f s None (pre ++ p :: post)) (report_some report_result)))).
      { apply (div_node P Poff). apply div_bind.
        assert (Hg' : forall y o, In y pre -> from y o -> yields P (f y) o)
          by (intros y o Hy; apply Hg; apply in_or_app; left; exact Hy).
        generalize (@None value) as memo. clear - Hp Hg' Hx'.
        induction Hp as [|y o l outs Hy _ IH]; intro memo; cbn [app merge_loop]; [ apply div_bind; exact Hx' | ].
        eapply div_after; [ apply Hg'; [ left; reflexivity | exact Hy ] | ].
        assert (IH' : forall memo, diverges P (merge_loop f s memo (l ++ p :: post))).
        { apply IH. intros z o' Hz. apply Hg'. right. exact Hz. }
        destruct o; [ destruct memo | ]; apply IH'. }
      assert (C : diverges P (match pre ++ p :: post with
                            | [] => ret None
                            | [x] => bind (f x) (fun v => ret (merge_single s v))
                            | _ => with_merge s (bind (merge_loop f s None (pre ++ p :: post)) (report_some report_result))
                            end)).
      { destruct pre as [|a [|b pre]]; [ destruct post as [|q post]; [ apply div_bind; exact Hx' | exact B ] | exact B | exact B ]. }
      destruct s; [ congruence | exact C.. ].
  Qed.

  Lemma div_locations s p : In p ps -> e_function (p_entry p) <> None ->
    stuck_entry w sc value_is stuck r x0 s (p_entry p) -> diverges P (merge_locations w rec k s p).
  Proof.
    intros Hin Hf H. unfold merge_locations. destruct (e_function (p_entry p)) as [f|]; [ | congruence ].
    apply (div_node P Poff). destruct H as [El H|l El H|l1 l2 ls El H]; rewrite El.
    - exact (div_provider p None Hin El H).
    - apply div_invoke; [ exact Hin | | exact H ]. exists [l]. split; [ exact El | left; reflexivity ].
    - apply (div_picks (invoke w rec k p) (location_gives w sc value_is r (p_entry p)) (stuck_location w stuck x0 (p_entry p)));
        [ | | exact H ].
      + intros l o Hl Hg. apply (yields_invoke w rec sc ps P Pof Pframes value_is Hv k r p l o Hin Hk); [ | exact Hg ].
        exists (l1 :: l2 :: ls). split; [ exact El | exact Hl ].
      + intros l Hl Hx. apply div_invoke; [ exact Hin | | exact Hx ]. exists (l1 :: l2 :: ls). split; [ exact El | exact Hl ].
  Qed.

  Lemma hierarchy_stuck s : Forall (fun p => e_function (p_entry p) <> None) ps ->
    stuck_hierarchy w sc value_is stuck r x0 s (map p_entry ps) ->
    diverges P (merging s ps (merge_locations w rec k s)).
  Proof.
    intros Hf H.
    apply (div_picks (merge_locations w rec k s) (fun p => entry_gives w sc value_is r s (p_entry p))
             (fun p => stuck_entry w sc value_is stuck r x0 s (p_entry p))).
    - intros p o Hin. apply (yields_locations w rec sc ps P Pof Pframes value_is Hv);
        [ exact Hin | exact Hk | exact (proj1 (Forall_forall _ _) Hf p Hin) ].
    - intros p Hin. apply div_locations; [ exact Hin | exact (proj1 (Forall_forall _ _) Hf p Hin) ].
    - exact (reaches_map p_entry _ _ s ps _ H).
  Qed.
End Stuck.

Lemma div_hierarchy w rec i cf sh ps : iv_expl i = false -> NoDup (map p_id ps) ->
  forall value_is : value -> option value -> Prop, (forall v o, value_is v o -> yields (good w i cf sh ps) (interpolate rec true v) o) ->
  forall stuck : value -> Prop, (forall v, stuck v -> diverges (good w i cf sh ps) (interpolate rec true v)) ->
  forall r x0 qs, new_key r = Ok (mk_key r (PStr x0 :: qs)) ->
  forall s, Forall (fun p => e_function (p_entry p) <> None) ps ->
  stuck_hierarchy w (iv_scope i) value_is stuck r x0 s (map p_entry ps) ->
  diverges (good w i cf sh ps) (merging s ps (merge_locations w rec (mk_key r (PStr x0 :: qs)) s)).
Proof.
  intros Hi Hd value_is Hv stuck Hs.
  exact (hierarchy_stuck w rec (iv_scope i) ps Hd (good w i cf sh ps) (good_of w i cf sh ps Hi) (good_all w i cf sh ps Hi) value_is Hv stuck Hs).
Qed.
