(** Every nested step has an answer, fails, or does not end. *)

From Coq Require Import String Ascii List ZArith Bool Arith Lia.
From Verif Require Import Str Value Outcome Key Merge Fpath Config Ipl Explain State Engine Meta Fuel
  SpecKey SpecKeyErr SpecIpl SpecInterp SpecConfig SpecMerge SpecPath SpecLookup SpecFail SpecWorld
  KeyFacts KeyErrFacts ValueFacts MergeFacts MergeLookup StrFacts IplFacts InterpFacts IplExact ResolveFacts
  LookupExact LoaderFacts HierarchyExact LookupTop FailExact FailText SettledLookup Acyclic Cycles RootFacts
  Decided DecidedLevels.
Import ListNotations.
Open Scope nat_scope.
Open Scope string_scope.
Open Scope list_scope.

(** A string is a key or it is not. *)
Lemma correct_decided r : correct_key r \/ exists x, misspelt r x.
Proof.
  destruct (key_decided r) as [(y & ps & H)|H]; [ left; exists (PStr y :: ps); exact H | right; exact H ].
Qed.

Section Steps.
  Variables (w : world) (sc : scope) (es : list entry) (p : phase) (P : st -> Prop).
  Hypothesis Poff : forall s, P s -> off s.
  Hypothesis Psc : forall s, P s -> iv_scope (s_iv s) = sc.
  Hypothesis Hvars : forall x v, scope_get sc x = Some v -> wf v = true.
  Hypothesis Hstr : forall n t o, answers w sc es (strategy_in p) n (QStr t) o ->
    exists b, (b = false -> o = Some (VStr t)) /\ yields P (run w n (RStr t true)) (o, b).
  Hypothesis Hlook : forall n k o, answers w sc es (strategy_in p) n (QKey k) o ->
    exists b, yields P (run w n (RLookup k None)) (o, b).

  Definition values_decided (n : nat) : Prop := forall v, wf v = true ->
    (exists o, value_in w sc es p n v o /\ tidy o) \/ (exists x, fails_in w sc es p n v x) \/
    diverges P (interpolate (run w n) true v).
  Definition strings_decided (n : nat) : Prop := forall t,
    (exists o, answers w sc es (strategy_in p) n (QStr t) o /\ tidy o) \/ (exists x, fails_at w sc es p n (QStr t) x) \/
    diverges P (run w n (RStr t true)).
  Definition keys_decided (n : nat) : Prop := forall k r ps, k_parts k = PStr r :: ps ->
    (exists o, answers w sc es (strategy_in p) n (QKey k) o /\ tidy o) \/ (exists x, fails_at w sc es p n (QKey k) x) \/
    diverges P (run w n (RLookup k None)).

  Lemma values_by_strings n : strings_decided n -> values_decided n.
  Proof.
    intros H v W. exact (interpolate_decided P (run w n) (fun t => answers w sc es (strategy_in p) n (QStr t)) (Hstr n)
      (fun t => fails_at w sc es p n (QStr t)) H v W).
  Qed.

  Variable B : nat.
  Hypothesis Hkey : forall n, n < B -> values_decided n -> keys_decided (S n).

  Lemma steps_decided : forall n, n <= B -> strings_decided n /\ keys_decided n.
  Proof.
    induction n as [|n IH]; intro HB.
    - split; [ intro t | intros k r ps _ ]; right; right; intros s _; reflexivity.
    - destruct (IH ltac:(lia)) as [IHs IHk]. split; [ | apply Hkey; [ lia | now apply values_by_strings ] ].
      intro t.
      exact (string_decided w sc P Poff Psc (run w n) (fun t => answers w sc es (strategy_in p) n (QStr t))
               (fun k => answers w sc es (strategy_in p) n (QKey k)) (Hstr n) (Hlook n)
               (fun t => fails_at w sc es p n (QStr t)) (fun k => fails_at w sc es p n (QKey k)) IHs IHk Hvars t).
  Qed.

  Lemma values_known n : n <= B -> values_decided n.
  Proof. intro H. apply values_by_strings. exact (proj1 (steps_decided n H)). Qed.
End Steps.

(** ** With a strategy and for the result *)

Section Nested.
  Variables (w : world) (i : iv) (cf : list (string * rconfig)) (sh : list (string * shared)) (ps : list provider).
  Hypothesis Hw : dependable w.
  Hypothesis Hi : iv_expl i = false.
  Hypothesis Hd : NoDup (map p_id ps).
  Let es := map p_entry ps.
  Hypothesis Hu : Forall usable es.
  Hypothesis Hvars : forall x v, scope_get (iv_scope i) x = Some v -> wf v = true.
  Variable p : phase.
  Hypothesis Hp : p <> Options.
  Hypothesis Hst : w_top w = LkConfig /\ iv_mode i = MdData /\ iv_strat i = strategy_in p /\
    exists rc, aget (w_cfgpath w) cf = Some rc /\ rc_providers rc = ps.
  Let P := good w i cf sh ps.
  Let sc := iv_scope i.

  Lemma usable_functions : Forall (fun p => e_function (p_entry p) <> None) ps.
  Proof.
    apply (proj1 (Forall_map p_entry (fun e => e_function e <> None) _)). eapply Forall_impl; [ | exact Hu ]. intros e [H _]. exact H.
  Qed.

  Lemma nested_strings n t o : answers w sc es (strategy_in p) n (QStr t) o ->
    exists b, (b = false -> o = Some (VStr t)) /\ yields P (run w n (RStr t true)) (o, b).
  Proof. exact (yields_answers w i cf sh ps Hi Hd usable_functions (strategy_in p) (strategy_state w i cf ps p (fun _ => Hst)) n (QStr t) o). Qed.
  Lemma nested_keys n k o : answers w sc es (strategy_in p) n (QKey k) o -> exists b, yields P (run w n (RLookup k None)) (o, b).
  Proof. exact (yields_answers w i cf sh ps Hi Hd usable_functions (strategy_in p) (strategy_state w i cf ps p (fun _ => Hst)) n (QKey k) o). Qed.

  Lemma nested_key n : values_decided w sc es p P n -> keys_decided w sc es p P (S n).
  Proof.
    assert (Yv : forall v o, value_in w sc es p n v o -> yields P (interpolate (run w n) true v) o).
    { intros v o H. apply (yields_interpolate P (run w n) (fun t => answers w sc es (strategy_in p) n (QStr t))); [ | exact H ].
      intros t o' Ht. exact (nested_strings n t o' Ht). }
    pose proof Hst as Hst'. pose proof usable_functions as Fn.
    intros Hv k r rest Ek. destruct (string_dec r "lookup_options") as [->|Hr].
    { left. exists None. split; [ left; exists rest; auto | exact tidy_none ]. }
    destruct (correct_decided r) as [Hc|(x & Hx)].
    2: { right. left. exists x. exists r, rest. split; [ exact Ek | split; [ exact Hr | ] ].
         destruct p as [|s|]; [ congruence | left; exact Hx | left; exact Hx ]. }
    destruct p as [|s|]; [ congruence | | ].
    2: { right. left. eexists. exists r, rest. split; [ exact Ek | split; [ exact Hr | ] ]. right. split; [ exact Hc | reflexivity ]. }
    destruct Hst' as (Htop & Hm & Hss & rc & Hrc & Hps). cbn [strategy_in] in Hss.
    destruct (correct_new r Hc) as (x0 & qs & Hx0 & Hnew).
    assert (Hcfg : yields P (get_config w (run w n) (w_cfgpath w) "") rc).
    { intros s0 G. exists s0. split; [ | exact G ]. unfold get_config.
      replace (if String.eqb (w_cfgpath w) "" then w_cfgpath w else w_cfgpath w) with (w_cfgpath w)
        by (destruct (String.eqb (w_cfgpath w) ""); reflexivity).
      unfold bind, run_op. rewrite (g_configs _ _ _ _ _ _ G), Hrc. reflexivity. }
    assert (Mode : yields P (run_op OMode) MdData).
    { intros s0 G. exists s0. split; [ | exact G ]. unfold run_op. rewrite (g_iv _ _ _ _ _ _ G), Hm. reflexivity. }
    assert (Strat : yields P (run_op OStrat) (Some s)).
    { intros s0 G. exists s0. split; [ | exact G ]. unfold run_op. rewrite (g_iv _ _ _ _ _ _ G), Hss. reflexivity. }
    destruct (hierarchy_decided w sc Hw Hvars (value_in w sc es (Data s) n) (fails_in w sc es (Data s) n)
                (fun v => diverges P (interpolate (run w n) true v)) Hv r x0 qs Hx0 s es Hu) as [([v|] & Hg & T)|[(x & Hx)|Hx]].
    - destruct (Hv v (T v eq_refl)) as [(y & Hy & Ty)|[(x & Hx)|Hx]].
      + destruct (digs_total rest y) as (o & Ho). left. exists o. split; [ | exact (tidy_digs rest y o Ho Ty) ].
        right. exists s, r, rest, (Some v). repeat (split; [ first [ reflexivity | assumption ] | ]). exists y. auto.
      + right. left. exists x, r, rest. split; [ exact Ek | split; [ exact Hr | ] ]. right. split; [ exact Hc | ]. right. exists v. auto.
      + right. right. cbn [run body]. apply div_bind. unfold lookup.
        eapply div_after with (a := r); [ apply yields_lift; unfold root; rewrite Ek; reflexivity | ].
        apply String.eqb_neq in Hr. rewrite Hr, Htop. cbn [call_lk].
        eapply div_after with (a := Some v).
        { unfold config_lookup_at. eapply yields_bind; [ exact Hcfg | ].
          eapply yields_bind; [ apply yields_lift; exact Hnew | ].
          eapply yields_bind; [ exact Mode | ]. eapply yields_bind; [ exact Strat | ].
          unfold merge_hierarchy. rewrite Hps.
          exact (yields_hierarchy w i cf sh ps Hi (run w n) Hd _ Yv (mk_key r (PStr x0 :: qs)) r s (Some v) Hnew Fn Hg). }
        intros s0 G. unfold run_scoped. rewrite (g_iv _ _ _ _ _ _ G), Hm.
        revert s0 G. change (diverges P (bind (interpolate (run w n) true v) (dig_in k))).
        apply div_bind. exact Hx.
    - left. exists None. split; [ | exact tidy_none ]. right. exists s, r, rest, None.
      repeat (split; [ first [ reflexivity | assumption ] | ]). reflexivity.
    - right. left. exists x, r, rest. split; [ exact Ek | split; [ exact Hr | ] ]. right. split; [ exact Hc | ]. left. exact Hx.
    - right. right. cbn [run body]. apply div_bind. unfold lookup.
      eapply div_after with (a := r); [ apply yields_lift; unfold root; rewrite Ek; reflexivity | ].
      apply String.eqb_neq in Hr. rewrite Hr, Htop. cbn [call_lk]. apply div_bind.
      unfold config_lookup_at. eapply div_after; [ exact Hcfg | ].
      eapply div_after; [ apply yields_lift; exact Hnew | ].
      eapply div_after; [ exact Mode | ]. eapply div_after; [ exact Strat | ].
      unfold merge_hierarchy. rewrite Hps.
      refine (div_hierarchy w (run w n) i cf sh ps Hi Hd _ Yv _ _ r x0 qs Hnew s Fn Hx). auto.
  Qed.

  Lemma nested_values n : values_decided w sc es p P n.
  Proof.
    refine (values_known w sc es p P _ _ Hvars nested_strings nested_keys n _ n (le_n n)).
    - exact (good_off w i cf sh ps Hi).
    - exact (good_scope w i cf sh ps).
    - intros m _. apply nested_key.
  Qed.
End Nested.
