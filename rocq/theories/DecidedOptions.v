(** The lookup options of a hierarchy are known, fail, or are never known. *)

From Coq Require Import String Ascii List ZArith Bool Arith Lia.
From Verif Require Import Str Value Outcome Key Merge Fpath Config Ipl Explain State Engine Meta Fuel
  SpecKey SpecKeyErr SpecIpl SpecInterp SpecConfig SpecMerge SpecPath SpecLookup SpecFail SpecWorld
  KeyFacts KeyErrFacts ValueFacts MergeFacts MergeLookup StrFacts IplFacts InterpFacts IplExact ResolveFacts
  LookupExact LoaderFacts HierarchyExact LookupTop FailExact FailText SettledLookup Acyclic Cycles RootFacts
  AnswerFacts FailMore Decided DecidedLevels DecidedNested.
Import ListNotations.
Open Scope nat_scope.
Open Scope string_scope.
Open Scope list_scope.

Lemma run_le w n n' r : n <= n' -> le_run _ (run w n r) (run w n' r).
Proof.
  intros H s. destruct (fst (run w n r s)) eqn:E; [ right | right | right | left; reflexivity ];
    apply run_mono; [ exact H | rewrite E; discriminate | exact H | rewrite E; discriminate | exact H | rewrite E; discriminate ].
Qed.

Lemma create_le w n n' c es : n <= n' -> le_run _ (create_providers w (run w n) c es) (create_providers w (run w n') c es).
Proof.
  intro H. exact (c_create_providers w le_run (full_closed w le_run le_run_full) (run w n) (run w n')
    (fun r => run_le w n n' r H) c es).
Qed.

(** More steps make the same providers. *)
Lemma created_more w n n' sc c es : n <= n' -> created w n sc c es -> created w n' sc c es.
Proof.
  intros Hn [Hu H]. split; [ exact Hu | ]. intros s Hsc Ho. destruct (H s Hsc Ho) as (ps & s1 & ds & qs & s2 & E1 & N1 & E2 & N2).
  exists ps, s1, ds, qs, s2.
  destruct (create_le w n n' c (c_hierarchy c) Hn s) as [E|E]; [ rewrite E1 in E; discriminate | ].
  destruct (create_le w n n' c (c_default_hierarchy c) Hn s1) as [E'|E']; [ rewrite E2 in E'; discriminate | ].
  rewrite E1 in E. rewrite E2 in E'. auto 10.
Qed.

Section Options.
  Variables (w : world) (B : nat).
  Variables (sc : scope) (c : config) (file : cfg_file) (es : list entry).
  Hypothesis Hfile : forall t, w_config w t (w_cfgpath w) = file.
  Hypothesis Hconf : config_new (w_env w) (w_cfgpath w) file = Ok c.
  Hypothesis Hh : created w B sc c es.
  Hypothesis Hw : dependable w.
  Hypothesis Hvars : forall x v, scope_get sc x = Some v -> wf v = true.

  Lemma hierarchy_usable : Forall usable es.
  Proof. exact (proj1 Hh).
  Qed.

  (** States while the lookup options are looked up. *)
  Record opening (i : iv) (sh : list (string * shared)) (ps : list provider) : Prop := mk_opening {
    op_expl : iv_expl i = false;
    op_scope : iv_scope i = sc;
    op_shared : aget (w_cfgpath w) sh = Some (ShLoaded c);
    op_entries : map p_entry ps = es;
    op_ids : NoDup (map p_id ps)
  }.
  Definition open (s : st) : Prop := exists i sh ps, opening i sh ps /\ good w i [] sh ps s.

  Lemma open_functions i sh ps : opening i sh ps -> Forall (fun p => e_function (p_entry p) <> None) ps.
  Proof.
    intro O. apply (proj1 (Forall_map p_entry (fun e => e_function e <> None) _)). rewrite (op_entries _ _ _ O).
    eapply Forall_impl; [ | exact hierarchy_usable ]. intros e [H _]. exact H.
  Qed.

  Lemma open_answers i sh ps n q o : opening i sh ps -> answers w sc es None n q o ->
    match q with
    | QStr t => exists b, (b = false -> o = Some (VStr t)) /\ yields (good w i [] sh ps) (run w n (RStr t true)) (o, b)
    | QKey k => exists b, yields (good w i [] sh ps) (run w n (RLookup k None)) (o, b)
    end.
  Proof.
    intros O H. rewrite <- (op_entries _ _ _ O), <- (op_scope _ _ _ O) in H.
    exact (yields_answers w i [] sh ps (op_expl _ _ _ O) (op_ids _ _ _ O) (open_functions i sh ps O) None
             ltac:(discriminate) n q o H).
  Qed.

  Definition described (n : nat) : Prop :=
    (exists all, all_options w sc es n all) \/
    (exists x, hierarchy_fails w sc (value_in w sc es Options n) (fails_in w sc es Options n) "lookup_options" (SDeep []) es x).

  Definition starve (n : nat) : Prop := forall s, off s -> iv_scope (s_iv s) = sc -> s_configs s = [] -> shared_ok w c s ->
    fst (get_config w (run w n) (w_cfgpath w) "" s) = NoFuel.

  Lemma described_step n : described n -> described (S n).
  Proof.
    intros [(all & H)|(x & H)].
    - left. exists all. eapply hierarchy_gives_more; [ | exact H ]. exact (value_in_step w sc es Options n).
    - right. exists x. eapply hierarchy_fails_more; [ | | exact H ]; [ exact (value_in_step w sc es Options n) | exact (fails_in_step w sc es Options n) ].
  Qed.
  Lemma described_more m n : m <= n -> described m -> described n.
  Proof. induction 1; [ auto | ]. intro H'. apply described_step. auto. Qed.

  Lemma open_off s : open s -> off s.
  Proof. intros (i & sh & ps & O & G). exact (good_off w i [] sh ps (op_expl _ _ _ O) s G). Qed.
  Lemma open_scope s : open s -> iv_scope (s_iv s) = sc.
  Proof. intros (i & sh & ps & O & G). rewrite (g_iv _ _ _ _ _ _ G). exact (op_scope _ _ _ O). Qed.
  Lemma open_shared s : open s -> s_configs s = [] /\ shared_ok w c s.
  Proof.
    intros (i & sh & ps & O & G). split; [ exact (g_configs _ _ _ _ _ _ G) | ]. right.
    rewrite (g_shared _ _ _ _ _ _ G). exact (op_shared _ _ _ O).
  Qed.

  Lemma open_key n k o : answers w sc es None n (QKey k) o -> exists b, yields open (run w n (RLookup k None)) (o, b).
  Proof.
    destruct n as [|n]; [ intros [] | ]. intros [(ps & Ek & ->)|(s & r & ps & v & E & _)]; [ | discriminate ].
    exists true. cbn [run body]. eapply yields_bind; [ | apply yields_ret ].
    unfold lookup. eapply yields_bind with (a := "lookup_options"); [ apply yields_lift; unfold root; rewrite Ek; reflexivity | ].
    cbn [String.eqb Ascii.eqb Bool.eqb]. apply (yields_node open open_off). eapply yields_bind; [ apply (yields_report open open_off) | apply yields_ret ].
  Qed.

  Lemma open_text : forall n t o, answers w sc es None n (QStr t) o ->
    exists b, (b = false -> o = Some (VStr t)) /\ yields open (run w n (RStr t true)) (o, b).
  Proof.
    induction n as [|n IH]; intros t o H; [ destruct H | ].
    exact (yields_string w sc open open_off open_scope (run w n) (fun t => answers w sc es None n (QStr t))
             (fun k => answers w sc es None n (QKey k)) IH (open_key n) t o H).
  Qed.

  Let opt_key := mk_key "lookup_options" [PStr "lookup_options"].

  (** The lookup options of a hierarchy that is stuck are never known. *)
  Lemma stuck_starves n :
    stuck_hierarchy w sc (value_in w sc es Options n) (fun v => diverges open (interpolate (run w n) true v))
      "lookup_options" "lookup_options" (SDeep []) es -> starve n.
  Proof.
    intros H s Ho Hsc Hc Hsh. unfold get_config.
    replace (if String.eqb (w_cfgpath w) "" then w_cfgpath w else w_cfgpath w) with (w_cfgpath w)
      by (destruct (String.eqb (w_cfgpath w) ""); reflexivity).
    unfold bind at 1. unfold run_op at 1. rewrite Hc. cbn [aget].
    destruct (shared_run w c file Hfile Hconf s Hsh) as (s1 & E1 & I1 & C1 & S1).
    unfold bind at 1. rewrite E1. unfold bind at 1.
    assert (R : fst (resolve_config w (run w n) c "" s1) = NoFuel).
    { unfold resolve_config. unfold off in Ho. rewrite <- I1 in Ho, Hsc.
      destruct (proj2 (created_more w B (Nat.max n B) sc c es ltac:(lia) Hh) s1 Hsc Ho) as (ps & s2 & ds & qs & s3 & E2 & [N1 N2 N3 N4] & E3 & [M1 M2 M3 M4]).
      pose proof (made_trans _ _ _ N2 M2) as M. pose proof (m_iv _ _ M) as I3.
      unfold bind at 1. unfold run_scoped at 1. rewrite Ho.
      unfold bind at 1. destruct (create_le w n (Nat.max n B) c (c_hierarchy c) ltac:(lia) s1) as [E|E].
      { destruct (create_providers w (run w n) c (c_hierarchy c) s1) as [o0 s0]. cbn [fst] in E. subst o0. reflexivity. }
      rewrite E2 in E. rewrite <- E.
      unfold bind at 1. destruct (create_le w n (Nat.max n B) c (c_default_hierarchy c) ltac:(lia) s2) as [E'|E'].
      { destruct (create_providers w (run w n) c (c_default_hierarchy c) s2) as [o0 s0]. cbn [fst] in E'. subst o0. reflexivity. }
      rewrite E3 in E'. rewrite <- E'. unfold ret at 1. unfold bind at 1.
      change (new_key "lookup_options") with (Ok opt_key). unfold lift at 1. unfold bind at 1. cbn [fst snd].
      assert (G : good w (s_iv s1) [] (s_shared s1) ps s3).
      { constructor; [ exact I3 | rewrite (m_configs _ _ M), C1; exact Hc | exact (m_shared _ _ M) | ].
        intros p Hp. pose proof (proj1 (Forall_forall _ _) N3 p Hp) as Hid. cbn in Hid.
        rewrite (m_old _ _ M2) by lia. rewrite (m_new _ _ N2) by lia. apply agrees_new. }
      set (m := run_scoped (SNode NLookup (k_source opt_key)) (merging (SDeep []) ps (merge_locations w (run w n) opt_key (SDeep [])))).
      assert (D : forall i, iv_expl i = false -> iv_scope i = sc -> diverges (good w i [] (s_shared s1) ps) m).
      { intros i Hi Hisc. assert (O : opening i (s_shared s1) ps) by (constructor; assumption).
        apply (div_node _ (good_off w i [] (s_shared s1) ps Hi)).
        refine (div_hierarchy w (run w n) i [] (s_shared s1) ps Hi N4 (value_in w sc es Options n) _
                  (fun v => diverges open (interpolate (run w n) true v)) _ "lookup_options" "lookup_options" [] eq_refl (SDeep [])
                  (open_functions i (s_shared s1) ps O) _).
        - intros v o Hv. apply (yields_interpolate _ (run w n) (fun t => answers w sc es None n (QStr t))); [ | exact Hv ].
          intros t o' Ht. exact (open_answers i (s_shared s1) ps n (QStr t) o' O Ht).
        - intros v Hv t G0. apply Hv. exists i, (s_shared s1), ps. auto.
        - rewrite N1, Hisc. exact H. }
      assert (C : fst (run_scoped SLookup m s3) = NoFuel).
      { unfold run_scoped. rewrite I3. destruct (iv_mode (s_iv s1)).
        - unfold with_copy. match goal with |- context [m ?t] => assert (K : fst (m t) = NoFuel) end.
          { refine (D _ _ _ _ (good_with_iv _ _ _ _ _ _ _ G)); rewrite I3; [ cbn; rewrite Ho; reflexivity | exact Hsc ]. }
          match goal with |- context [m ?t] => destruct (m t) as [o0 s0] end. exact K.
        - exact (D _ Ho Hsc s3 G).
        - unfold with_copy. match goal with |- context [m ?t] => assert (K : fst (m t) = NoFuel) end.
          { refine (D _ _ _ _ (good_with_iv _ _ _ _ _ _ _ G)); rewrite I3; [ cbn; rewrite Ho; reflexivity | exact Hsc ]. }
          match goal with |- context [m ?t] => destruct (m t) as [o0 s0] end. exact K. }
      fold m. destruct (run_scoped SLookup m s3) as [o0 s0]. cbn [fst] in C. subst o0. reflexivity. }
    destruct (resolve_config w (run w n) c "" s1) as [o0 s0]. cbn [fst] in R. subst o0. reflexivity.
  Qed.

  (** Without the lookup options nothing else can be looked up. *)
  Lemma starving_key n : w_top w = LkConfig -> starve n -> keys_decided w sc es Options open (S n).
  Proof.
    intros Htop Hn k r rest Ek. destruct (string_dec r "lookup_options") as [->|Hr].
    { left. exists None. split; [ left; exists rest; auto | exact tidy_none ]. }
    right. right. cbn [run body]. apply div_bind. unfold lookup.
    eapply div_after with (a := r); [ apply yields_lift; unfold root; rewrite Ek; reflexivity | ].
    apply String.eqb_neq in Hr. rewrite Hr, Htop. cbn [call_lk]. apply div_bind. unfold config_lookup_at. apply div_bind.
    intros s Hs. destruct (open_shared s Hs) as [H1 H2]. apply Hn; [ exact (open_off s Hs) | exact (open_scope s Hs) | exact H1 | exact H2 ].
  Qed.

  (** How lookups end up while the lookup options are not known. *)
  Hypothesis Hkeys : forall n, (forall m, m <= n -> starve m) -> keys_decided w sc es Options open (S n).

  Lemma options_settled_by : forall n, described n \/ starve n.
  Proof.
    assert (Step : forall n, (forall m, m < n -> starve m) -> described n \/ starve n).
    { intros n Hn.
      assert (V : values_decided w sc es Options open n).
      { refine (values_known w sc es Options open open_off open_scope Hvars open_text open_key n _ n (le_n n)).
        intros m Hm _. apply Hkeys. intros m' Hm'. apply Hn. lia. }
      destruct (hierarchy_decided w sc Hw Hvars (value_in w sc es Options n) (fails_in w sc es Options n)
                  (fun v => diverges open (interpolate (run w n) true v)) V "lookup_options" "lookup_options" [] options_key_plain
                  (SDeep []) es hierarchy_usable) as [(all & H & _)|[H|H]].
      - left. left. exists all. exact H.
      - left. right. exact H.
      - right. exact (stuck_starves n H). }
    assert (All : forall n, (exists m, m < n /\ described m) \/ forall m, m < n -> starve m).
    { induction n as [|n [(m & Hm & IH)|IH]]; [ right; lia | left; exists m; split; [ lia | exact IH ] | ].
      destruct (Step n IH) as [H|H]; [ left; exists n; split; [ lia | exact H ] | ].
      right. intros m Hm. destruct (Nat.eq_dec m n) as [->|Hne]; [ exact H | apply IH; lia ]. }
    intro n. destruct (All n) as [(m & Hm & H)|H]; [ left; exact (described_more m n ltac:(lia) H) | exact (Step n H) ].
  Qed.
End Options.

Lemma options_settled w B sc c file es : (forall t, w_config w t (w_cfgpath w) = file) -> config_new (w_env w) (w_cfgpath w) file = Ok c ->
  w_top w = LkConfig -> created w B sc c es -> dependable w -> (forall x v, scope_get sc x = Some v -> wf v = true) ->
  forall n, described w sc es n \/ starve w sc c n.
Proof.
  intros Hfile Hconf Htop Hh Hw Hv. apply (options_settled_by w B sc c file es Hfile Hconf Hh Hw Hv).
  intros n Hn. apply starving_key; [ exact Htop | exact (Hn n (le_n n)) ].
Qed.
