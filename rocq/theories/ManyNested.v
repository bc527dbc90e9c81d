(** Lookups in lookups with several functions: each gives a value or nothing,
    fails, or does not end. *)

From Coq Require Import String Ascii List ZArith Bool Arith Lia.
From Verif Require Import Str Value Outcome Key Merge Fpath Config Ipl Explain State Engine Meta Fuel Session
  SpecKey SpecKeyErr SpecIpl SpecInterp SpecConfig SpecMerge SpecPath SpecLookup SpecFail SpecMux SpecMany SpecWorld
  KeyFacts KeyErrFacts ValueFacts MergeFacts MergeLookup StrFacts IplFacts InterpFacts IplExact ResolveFacts LookupExact LoaderFacts
  HierarchyExact LookupTop LookupFail FailExact FailText FailTop SettledLookup Acyclic Cycles RootFacts P_Options P_Mux MuxExact
  Decided DecidedLevels DecidedNested DecidedTop ManyExact.
Import ListNotations.
Open Scope nat_scope.
Open Scope string_scope.
Open Scope list_scope.

(** The request that a question stands for. *)
Definition asked_for (q : asking) : req :=
  match q with
  | AText t => RStr t true
  | AFind r opts => RMux (handed opts) r
  | ALook k opts => RLookup k opts
  end.

Lemma replies_one pre post : Forall (fun f => f <> LkConfig) pre -> Forall (fun f => f <> LkConfig) post ->
  configs (pre ++ LkConfig :: post) = 1.
Proof.
  assert (Z : forall l, Forall (fun f => f <> LkConfig) l -> configs l = 0).
  { induction 1 as [|f l H _ IH]; [ reflexivity | ]. destruct f; try exact IH. congruence. }
  intros H K. induction H as [|f l H _ IH]; cbn [app].
  - pose proof (Z post K) as E. unfold configs in *. cbn. rewrite E. reflexivity.
  - destruct f; try exact IH. congruence.
Qed.

Lemma replies_other w f : replies w f -> f <> LkConfig.
Proof. intros []; discriminate. Qed.

Section Nested.
  Variables (w : world) (pre post : list lkfn) (cf : list (string * rconfig)) (sh : list (string * shared)) (ps : list provider)
            (rc : rconfig) (all : option value).
  Let fs := pre ++ LkConfig :: post.
  Hypothesis Htop : w_top w = LkMux.
  Hypothesis Hmux : w_mux w = Some fs.
  Hypothesis Hpre : Forall (replies w) pre.
  Hypothesis Hpost : Forall (replies w) post.
  Hypothesis Hw : dependable w.
  Hypothesis Hd : NoDup (map p_id ps).
  Let es := map p_entry ps.
  Hypothesis Hu : Forall usable es.
  Hypothesis Hcf : aget (w_cfgpath w) cf = Some rc.
  Hypothesis Hps : rc_providers rc = ps.
  Hypothesis Hall : rc_luopts rc = as_map all.
  Hypothesis Hmod : rc_module rc = "".
  Variable sc : scope.
  Hypothesis Hvars : forall x v, scope_get sc x = Some v -> wf v = true.

  Let Hone : configs fs <= 1.
  Proof.
    unfold fs. rewrite replies_one; [ exact (le_n 1) | | ]; eapply Forall_impl; try eassumption; intro f; exact (replies_other w f).
  Qed.
  Let Hf : Forall (fun p => e_function (p_entry p) <> None) ps.
  Proof. exact (usable_functions ps Hu). Qed.
  Let Hold : forall args r l, Forall (replies w) l -> Forall (fun f => exists o, holds w sc args r f o) l.
  Proof.
    intros args r l H. eapply Forall_impl; [ | exact H ]. intros f Hfr. destruct (replies_holds w sc args r f Hw Hvars Hfr) as (o & Ho & _). eauto.
  Qed.

  Let texts n := fun t => many_answers w sc es all fs n (AText t).
  Let text_fails n := fun t => many_fails w sc es all fs n (AText t).
  Let L i := loose w i cf sh ps.

  Definition question_meets (n : nat) : Prop := forall i, iv_expl i = false -> iv_mode i = MdData -> iv_scope i = sc ->
    (forall q o, many_answers w sc es all fs n q o ->
       exists b, (forall t, q = AText t -> b = false -> o = Some (VStr t)) /\ yields (L i) (run w n (asked_for q)) (o, b)) /\
    (forall q x, many_fails w sc es all fs n q x -> breaks sh (L i) (run w n (asked_for q)) x).

  Lemma text_yields n i : question_meets n -> iv_expl i = false -> iv_mode i = MdData -> iv_scope i = sc ->
    forall t o, texts n t o -> exists b, (b = false -> o = Some (VStr t)) /\ yields (L i) (run w n (RStr t true)) (o, b).
  Proof. intros H Hi Hm Hs t o Ht. destruct (proj1 (H i Hi Hm Hs) (AText t) o Ht) as (b & B & Y). exists b. split; [ exact (B t eq_refl) | exact Y ]. Qed.

  Lemma text_values n i : question_meets n -> iv_expl i = false -> iv_mode i = MdData -> iv_scope i = sc ->
    forall v o, value_is (texts n) v o -> yields (L i) (interpolate (run w n) true v) o.
  Proof. intros H Hi Hm Hs. apply (yields_interpolate (L i) (run w n)). exact (text_yields n i H Hi Hm Hs). Qed.

  Lemma text_breaks n i : question_meets n -> iv_expl i = false -> iv_mode i = MdData -> iv_scope i = sc ->
    forall v x, value_fails (texts n) (text_fails n) v x -> breaks sh (L i) (interpolate (run w n) true v) x.
  Proof.
    intros H Hi Hm Hs. apply (breaks_interpolate sh (L i) (run w n) (texts n)); [ exact (text_yields n i H Hi Hm Hs) | ].
    intros t x Ht. exact (proj2 (H i Hi Hm Hs) (AText t) x Ht).
  Qed.

  Lemma in_data i A (m : M st A) s : iv_mode i = MdData -> L i s -> run_scoped SData m s = m s.
  Proof. intros Hm (lo & g & G). unfold run_scoped. rewrite (g_iv _ _ _ _ _ _ G). cbn [iv_with_strat iv_with_luopts iv_mode]. rewrite Hm. reflexivity. Qed.

  (** What was found is interpolated and followed. *)
  Lemma look_starts n k r rest opts : k_parts k = PStr r :: rest -> r <> "lookup_options" ->
    forall s, run w (S n) (RLookup k opts) s =
      bind (bind (bind (run w n (RMux (handed opts) r)) (fun r => ret (fst r)))
             (fun v => match v with None => ret None | Some x => run_scoped SData (bind (interpolate (run w n) true x) (dig_in k)) end))
        (fun v => ret (v, true)) s.
  Proof.
    intros Hk Hr s. cbn [run body]. unfold lookup. unfold bind at 2, lift at 1, root at 1. rewrite Hk.
    apply String.eqb_neq in Hr. unfold bind at 1. unfold bind at 3. rewrite Hr, Htop. cbn [call_lk]. reflexivity.
  Qed.

  Lemma questions_meet : forall n, question_meets n.
  Proof.
    induction n as [|n IH]; intros i Hi Hm Hs; [ split; intros q o [] | ].
    assert (Poff : forall s, L i s -> off s) by (intro s0; exact (loose_off w i cf sh ps s0 Hi)).
    assert (Psc : forall s, L i s -> iv_scope (s_iv s) = sc) by (intros s0 H0; rewrite <- Hs; exact (loose_scope w i cf sh ps s0 H0)).
    assert (Psh : forall s, L i s -> s_shared s = sh) by (intros s0 (lo & g & G); exact (g_shared _ _ _ _ _ _ G)).
    assert (Looks : forall k o, many_answers w sc es all fs n (ALook k None) o -> exists b, yields (L i) (run w n (RLookup k None)) (o, b))
      by (intros k o Hk; destruct (proj1 (IH i Hi Hm Hs) (ALook k None) o Hk) as (b & _ & Y); eauto).
    pose proof (text_yields n i IH Hi Hm Hs) as Ty. pose proof (text_values n i IH Hi Hm Hs) as Tv. pose proof (text_breaks n i IH Hi Hm Hs) as Tb.
    assert (FM : forall r opts,
      (forall x, finds w sc es all fs (value_is (texts n)) r opts x -> yields (L i) (mux_lookup w (run w n) (handed opts) r) x) /\
      (forall x, finding_fails w sc es all fs (value_is (texts n)) (value_fails (texts n) (text_fails n)) r opts x ->
         breaks sh (L i) (mux_lookup w (run w n) (handed opts) r) x)).
    { intros r opts.
      destruct (found_meets w fs cf sh ps rc all Hmux Hone Hd Hf Hcf Hps Hall Hmod n i r opts (value_is (texts n)) (value_fails (texts n) (text_fails n)) Hi Hm) as [F1 F2].
      - intros b. exact (text_values n (iv_with_redacted b i) IH Hi Hm Hs).
      - intros b. exact (text_breaks n (iv_with_redacted b i) IH Hi Hm Hs).
      - fold es in F1, F2. rewrite Hs in F1, F2. split; [ exact F1 | apply F2 ]. exists pre, post. split; [ reflexivity | ].
        exact (Hold (handed opts) r pre Hpre). }
    split.
    - intros q o H. destruct q as [t|r opts|k opts]; cbn [many_answers] in H.
      + cbn [asked_for run body].
        destruct (yields_string w sc (L i) Poff Psc (run w n) (texts n) (fun k => many_answers w sc es all fs n (ALook k None)) Ty Looks t o H) as (b & B & Y).
        exists b. split; [ intros t' E; injection E as <-; exact B | exact Y ].
      + exists true. split; [ discriminate | ]. cbn [asked_for run body].
        eapply yields_bind with (a := o); [ | apply yields_ret ]. exact (proj1 (FM r opts) o H).
      + destruct H as [(rest & Hk & ->)|(r & rest & x & Hk & Hr & Hx & Hfo)].
        * exists true. split; [ discriminate | ]. cbn [asked_for run body]. eapply yields_bind with (a := None); [ | apply yields_ret ].
          unfold lookup. eapply yields_bind with (a := "lookup_options"); [ apply yields_lift; unfold root; rewrite Hk; reflexivity | ].
          rewrite String.eqb_refl. intros s0 Hs0. exists s0. split; [ | exact Hs0 ]. rewrite node_off by exact (Poff s0 Hs0). unfold bind, run_op.
          pose proof (Poff s0 Hs0) as O0. unfold off in O0. cbn. rewrite O0. reflexivity.
        * exists true. split; [ discriminate | ]. cbn [asked_for]. intros s0 Hs0. rewrite (look_starts n k r rest opts Hk Hr s0). revert s0 Hs0.
          change (yields (L i) (bind (bind (bind (run w n (RMux (handed opts) r)) (fun r => ret (fst r)))
             (fun v => match v with None => ret None | Some x => run_scoped SData (bind (interpolate (run w n) true x) (dig_in k)) end))
             (fun v => ret (v, true))) (o, true)).
          eapply yields_bind with (a := o); [ | apply yields_ret ].
          eapply yields_bind with (a := x).
          { destruct (proj1 (IH i Hi Hm Hs) (AFind r opts) x Hx) as (b & _ & Y). eapply yields_bind; [ exact Y | apply yields_ret ]. }
          destruct x as [x|]; [ | cbn in Hfo; subst o; apply yields_ret ]. destruct Hfo as (y & Hy & Hdig).
          intros s0 Hs0. rewrite (in_data i _ _ s0 Hm Hs0). revert s0 Hs0.
          change (yields (L i) (bind (interpolate (run w n) true x) (dig_in k)) o).
          eapply yields_bind; [ exact (Tv x y Hy) | ].
          destruct k as [ks kp]. cbn in Hk. subst kp. exact (digs_dig _ Poff ks r rest y o Hdig).
    - intros q x H. destruct q as [t|r opts|k opts]; cbn [many_fails] in H; cbn [asked_for].
      + cbn [run body].
        refine (breaks_string w sc sh (L i) Poff Psc Psh (run w n) (texts n) (fun k => many_answers w sc es all fs n (ALook k None)) Ty Looks
                  (text_fails n) (fun k => many_fails w sc es all fs n (ALook k None)) _ _ t x H).
        * intros t' x' Ht'. exact (proj2 (IH i Hi Hm Hs) (AText t') x' Ht').
        * intros k' x' Hk'. exact (proj2 (IH i Hi Hm Hs) (ALook k' None) x' Hk').
      + cbn [run body]. apply breaks_now. exact (proj2 (FM r opts) x H).
      + destruct H as (r & rest & Hk & Hr & Hx). intros s0 Hs0. rewrite (look_starts n k r rest opts Hk Hr s0). revert s0 Hs0.
        change (breaks sh (L i) (bind (bind (bind (run w n (RMux (handed opts) r)) (fun r => ret (fst r)))
             (fun v => match v with None => ret None | Some x => run_scoped SData (bind (interpolate (run w n) true x) (dig_in k)) end))
             (fun v => ret (v, true))) x).
        apply breaks_now. destruct Hx as [Hx|(v & Hv & Hx)].
        * apply breaks_now. apply breaks_now. exact (proj2 (IH i Hi Hm Hs) (AFind r opts) x Hx).
        * eapply breaks_after with (a := Some v).
          { destruct (proj1 (IH i Hi Hm Hs) (AFind r opts) (Some v) Hv) as (b & _ & Y). eapply yields_bind; [ exact Y | apply yields_ret ]. }
          intros s0 Hs0. rewrite (in_data i _ _ s0 Hm Hs0). revert s0 Hs0.
          change (breaks sh (L i) (bind (interpolate (run w n) true v) (dig_in k)) x). apply breaks_now. exact (Tb v x Hx).
  Qed.

  (** ** Nothing else happens *)

  Lemma options_say_total args r opts : correct_key r -> args = handed opts -> exists lo, options_say w sc all fs r opts lo.
  Proof.
    intros Hc ->.
    assert (T : forall l, Forall (replies w) l -> exists outs, Forall2 (option_is w sc (handed opts) r all) l outs).
    { intros l H. pose proof (Hold (handed opts) r l H) as H'. clear -H'.
      induction H' as [|f l (o & Ho) _ (outs & IH)]; [ exists []; constructor | exists (o :: outs); constructor; [ apply oi_other; exact Ho | exact IH ] ]. }
    destruct (T pre Hpre) as (o1 & H1). destruct (T post Hpost) as (o2 & H2).
    destruct (correct_new r Hc) as (x0 & qs & Hx0 & Hnew). destruct (options_total all x0) as (lo & Hlo0).
    assert (Hlo : options_of all r lo) by (exists x0; split; [ exists qs; exact Hx0 | exact Hlo0 ]).
    assert (H : Forall2 (option_is w sc (handed opts) r all) fs (o1 ++ option_map VMap lo :: o2)).
    { unfold fs. apply Forall2_app; [ exact H1 | ]. constructor; [ apply oi_config; exact Hlo | exact H2 ]. }
    set (v := pure_lookup (SDeep []) (o1 ++ option_map VMap lo :: o2)).
    assert (M : exists lo', map_of v lo').
    { destruct v as [[| | | | | |m|]|]; try (eexists; apply mo_no_map; discriminate). eexists. apply mo_map. }
    destruct M as (lo' & M). exists lo'. exists (o1 ++ option_map VMap lo :: o2). auto.
  Qed.

  Section Found.
    Variables (N : nat) (i : iv) (r : string) (opts : option entries).
    Hypothesis Hi : iv_expl i = false.
    Hypothesis Hm : iv_mode i = MdData.
    Hypothesis Hs : iv_scope i = sc.
    Variables (value_is : value -> option value -> Prop) (value_fails : value -> err -> Prop).
    Hypothesis Hv : forall b v o, value_is v o -> yields (L (iv_with_redacted b i)) (interpolate (run w N) true v) o.
    Hypothesis Hx : forall b v x, value_fails v x -> breaks sh (L (iv_with_redacted b i)) (interpolate (run w N) true v) x.
    Hypothesis Hdec : forall b v, wf v = true -> (exists o, value_is v o /\ tidy o) \/ (exists x, value_fails v x) \/
      diverges (L (iv_with_redacted b i)) (interpolate (run w N) true v).

    (** With the options known, from any state that has them. *)
    Lemma found_decided :
      (exists x, finds w sc es all fs value_is r opts x /\ tidy x) \/
      (exists x, finding_fails w sc es all fs value_is value_fails r opts x) \/
      comes_after w fs cf sh ps all N i r opts Never.
    Proof.
      destruct (correct_decided r) as [Hc|(x & Hb)]; [ | right; left; exists x; apply ff_root; exact Hb ].
      destruct (correct_new r Hc) as (x0 & qs & Hx0 & Hnew).
      destruct (options_say_total (handed opts) r opts Hc eq_refl) as (lo & Ho).
      destruct (merge_total opts lo) as (mo & Hmo).
      destruct (strategy_decided mo) as [(g & Hst)|(Hno & t & Hmis)];
        [ | right; left; eexists; eapply ff_strategy; try eassumption; reflexivity ].
      destruct (conversion_decided lo) as [(cv & Hcv)|Hnt];
        [ | right; left; eexists; eapply ff_no_type; try eassumption; reflexivity ].
      assert (Hty : parsed w cv \/ exists u a x, cv = Some (u, a) /\ w_parse_type w u = Panic x).
      { destruct cv as [[u a]|]; [ | left; discriminate ]. destruct (dp_type w Hw u) as [(ty & E)|(x & E)].
        - left. intros u' a' E'. injection E' as <- <-. eauto.
        - right. exists u, a, x. auto. }
      destruct Hty as [Hty|(u & a & x & -> & E)]; [ | right; left; exists x; eapply ff_type; eassumption ].
      set (b := (iv_redacted i || hides w cv)%bool).
      set (stuck := fun v => diverges (L (iv_with_redacted b i)) (interpolate (run w N) true v)).
      assert (Hier : Forall (fun f => (exists o, datum_is w sc (handed opts) r (hierarchy_gives w sc value_is r g es) f o /\ tidy o) \/
                (exists x, datum_fails (hierarchy_fails w sc value_is value_fails r g es) f x) \/
                (f = LkConfig /\ stuck_hierarchy w sc value_is stuck r x0 g es)) fs).
      { assert (Others : forall l, Forall (replies w) l -> Forall (fun f => (exists o, datum_is w sc (handed opts) r (hierarchy_gives w sc value_is r g es) f o /\ tidy o) \/
                (exists x, datum_fails (hierarchy_fails w sc value_is value_fails r g es) f x) \/
                (f = LkConfig /\ stuck_hierarchy w sc value_is stuck r x0 g es)) l).
        { intros l Hl. eapply Forall_impl; [ | exact Hl ]. intros f Hfr. left.
          destruct (replies_holds w sc (handed opts) r f Hw Hvars Hfr) as (o & Hof & To). exists o. split; [ apply du_other; exact Hof | exact To ]. }
        unfold fs. apply Forall_app. split; [ exact (Others pre Hpre) | ]. constructor; [ | exact (Others post Hpost) ].
        destruct (hierarchy_decided w sc Hw Hvars value_is value_fails stuck (Hdec b) r x0 qs Hx0 g es Hu) as [(o & Hg & T)|[(x & Hf')|Hf']].
        - left. exists o. split; [ apply du_config; exact Hg | exact T ].
        - right. left. exists x. apply df_config. exact Hf'.
        - right. right. auto. }
      destruct (picks_decided _ _ _ g fs Hier) as [(v & Hpk & Tv)|[(x & Hrf)|Hrs]].
      2: { right. left. exists x. eapply ff_value; eassumption. }
      - assert (Hcon : (exists y, converted w cv v y /\ tidy y) \/ exists x, finding_fails w sc es all fs value_is value_fails r opts x).
        { destruct cv as [[u a]|]; [ | left; exists v; split; [ constructor | exact Tv ] ].
          destruct (Hty u a eq_refl) as (ty & Ht).
          destruct v as [v|]; [ | left; exists None; split; [ econstructor; exact Ht | exact tidy_none ] ].
          assert (New : ty <> CSensitive \/ a <> None -> (exists y, converted w (Some (u, a)) (Some v) y /\ tidy y) \/
            exists x, finding_fails w sc es all fs value_is value_fails r opts x).
          { intro Hne. destruct (dp_new w Hw ty v (match a with Some l => l | None => [] end) (Tv v eq_refl)) as [(v' & E & W)|(x & E)].
            - left. exists (Some v'). split; [ eapply cv_new; eassumption | exact (tidy_some v' W) ].
            - right. exists x. eapply ff_conversion; eassumption. }
          destruct ty as [|tx]; [ | apply New; left; discriminate ].
          destruct a as [a|]; [ apply New; right; discriminate | ].
          left. exists (Some (VSens v)). split; [ now apply cv_sensitive | apply tidy_some; exact (Tv v eq_refl) ]. }
        destruct Hcon as [(y & Hy & Ty)|K]; [ | right; left; exact K ].
        left. exists y. split; [ | exact Ty ]. split; [ exact Hc | ]. exists lo, mo, g, cv, v. auto 10.
      - right. right. exists (mk_key r (PStr x0 :: qs)), lo. split; [ exact Hnew | split; [ rewrite Hs; exact Ho | ] ]. intros lo0 g0.
        set (j := iv_with_strat g0 (iv_with_luopts lo0 i)).
        set (hierarchy := fun ft => (exists o, ft = Gives o /\ hierarchy_gives w sc value_is r g es o) \/ (ft = Never /\ stuck_hierarchy w sc value_is stuck r x0 g es)).
        apply (meets_never _ sh _ (loose w i cf sh ps)). apply (meets_never _ sh _ (loose w j cf sh ps)).
        set (ib := iv_with_redacted b (iv_with_strat (Some g) (iv_with_luopts lo j))).
        assert (Lb : forall t, loose w ib cf sh ps t <-> loose w (iv_with_redacted b i) cf sh ps t).
        { intro t0. split; intros (lo' & g' & G'); exists lo', g'; unfold ib, j in *; destruct i; exact G'. }
        assert (Hvb : forall v o, value_is v o -> yields (loose w ib cf sh ps) (interpolate (run w N) true v) o).
        { intros v o Hvo t L0. apply Lb in L0. destruct (Hv b v o Hvo t L0) as (t' & E & L'). exists t'. split; [ exact E | apply Lb; exact L' ]. }
        refine (after_meets w fs cf sh ps rc Hone Hd Hf Hcf Hps N j r (mk_key r (PStr x0 :: qs)) opts lo mo Hi Hm Hnew Hmo g Hst cv Hcv Hty hierarchy _ Never Never _ eq_refl).
        + change (iv_redacted j) with (iv_redacted i). fold b. fold ib. intros ft [(o & -> & Hho)|(-> & Hho)].
          * refine (proj1 (hierarchy_meets w cf sh ps Hd Hf N ib r (mk_key r (PStr x0 :: qs)) g value_is (fun _ _ => False) Hi Hnew Hvb _) o _); [ intros v x [] | ].
            change (iv_scope ib) with (iv_scope i). rewrite Hs. exact Hho.
          * refine (hierarchy_never w cf sh ps Hd Hf N ib r x0 qs g value_is stuck Hi Hnew Hvb _ _).
            -- intros v Hst' t L0. apply Lb in L0. exact (Hst' t L0).
            -- change (iv_scope ib) with (iv_scope i). rewrite Hs. exact Hho.
        + change (iv_redacted j) with (iv_redacted i). fold b. fold ib. apply tg_never. revert Hrs. apply reaches_impl.
          * intros f o [o' Ho'|f' o' Ho']; [ apply dt_config; left; eauto | apply dt_other; change (iv_scope ib) with (iv_scope i); rewrite Hs; exact Ho' ].
          * intros f _ [-> Hsk]. apply dt_config. right. auto.
    Qed.
  End Found.

  Definition question_decided (n : nat) : Prop := forall i, iv_expl i = false -> iv_mode i = MdData -> iv_scope i = sc ->
    forall q, (forall k opts, q = ALook k opts -> exists r rest, k_parts k = PStr r :: rest) ->
    (exists o, many_answers w sc es all fs n q o /\ tidy o) \/ (exists x, many_fails w sc es all fs n q x) \/
    diverges (L i) (run w n (asked_for q)).

  Lemma values_settled n i : question_decided n -> iv_expl i = false -> iv_mode i = MdData -> iv_scope i = sc ->
    forall v, wf v = true -> (exists o, value_is (texts n) v o /\ tidy o) \/ (exists x, value_fails (texts n) (text_fails n) v x) \/
      diverges (L i) (interpolate (run w n) true v).
  Proof.
    intros H Hi Hm Hs v W.
    apply (interpolate_decided (L i) (run w n) (texts n) (text_yields n i (questions_meet n) Hi Hm Hs) (text_fails n)); [ | exact W ].
    intro t. apply (H i Hi Hm Hs (AText t)). discriminate.
  Qed.

  Lemma questions_decided : forall n, question_decided n.
  Proof.
    induction n as [|n IH]; intros i Hi Hm Hs q Hq; [ right; right; intros s _; reflexivity | ].
    assert (Poff : forall s, L i s -> off s) by (intro s0; exact (loose_off w i cf sh ps s0 Hi)).
    assert (Psc : forall s, L i s -> iv_scope (s_iv s) = sc) by (intros s0 H0; rewrite <- Hs; exact (loose_scope w i cf sh ps s0 H0)).
    destruct q as [t|r opts|k opts].
    - refine (string_decided w sc (L i) Poff Psc (run w n) (texts n) (fun k => many_answers w sc es all fs n (ALook k None))
               (text_yields n i (questions_meet n) Hi Hm Hs) _ (text_fails n) (fun k => many_fails w sc es all fs n (ALook k None)) _ _ Hvars t).
      + intros k o Hk. destruct (proj1 (questions_meet n i Hi Hm Hs) (ALook k None) o Hk) as (b & _ & Y). eauto.
      + intro t'. apply (IH i Hi Hm Hs (AText t')). discriminate.
      + intros k r rest Hk. apply (IH i Hi Hm Hs (ALook k None)). intros k' opts' E. injection E as <- <-. eauto.
    - destruct (found_decided n i r opts Hi Hm Hs (value_is (texts n)) (value_fails (texts n) (text_fails n))) as [H|[H|H]].
      + intro b. exact (text_values n (iv_with_redacted b i) (questions_meet n) Hi Hm Hs).
      + intro b. exact (text_breaks n (iv_with_redacted b i) (questions_meet n) Hi Hm Hs).
      + intro b. exact (values_settled n (iv_with_redacted b i) IH Hi Hm Hs).
      + left. exact H.
      + right. left. exact H.
      + right. right. cbn [asked_for run body]. apply div_bind.
        exact (after_mux w fs cf sh ps rc all Hmux Hcf Hall Hmod n i r opts Hi Hm Never H).
    - destruct (Hq k opts eq_refl) as (r & rest & Hk). destruct (string_dec r "lookup_options") as [->|Hr].
      { left. exists None. split; [ left; exists rest; auto | exact tidy_none ]. }
      assert (Start : forall (Q : M st (option value)), diverges (L i) Q ->
        (forall s, run w (S n) (RLookup k opts) s = bind Q (fun v => ret (v, true)) s) -> diverges (L i) (run w (S n) (asked_for (ALook k opts)))).
      { intros Q HQ E s0 Hs0. cbn [asked_for]. rewrite E. exact (div_bind _ _ _ _ _ HQ s0 Hs0). }
      destruct (IH i Hi Hm Hs (AFind r opts)) as [(x & Hx & Tx)|[(x & Hx)|Hx]]; [ discriminate | | | ].
      + destruct x as [x|].
        2: { left. exists None. split; [ | exact tidy_none ]. right. exists r, rest, None. repeat (split; [ assumption | ]). reflexivity. }
        destruct (values_settled n i IH Hi Hm Hs x (Tx x eq_refl)) as [(y & Hy & Ty)|[(e & He)|Hdv]].
        * destruct (digs_total rest y) as (o & Ho). left. exists o. split; [ | exact (tidy_digs rest y o Ho Ty) ].
          right. exists r, rest, (Some x). repeat (split; [ assumption | ]). exists y. auto.
        * right. left. exists e. exists r, rest. split; [ exact Hk | split; [ exact Hr | ] ]. right. exists x. auto.
        * right. right. eapply Start; [ | exact (look_starts n k r rest opts Hk Hr) ].
          eapply div_after with (a := Some x).
          { destruct (proj1 (questions_meet n i Hi Hm Hs) (AFind r opts) (Some x) Hx) as (b & _ & Y). eapply yields_bind; [ exact Y | apply yields_ret ]. }
          intros s0 Hs0. rewrite (in_data i _ _ s0 Hm Hs0). revert s0 Hs0.
          change (diverges (L i) (bind (interpolate (run w n) true x) (dig_in k))). apply div_bind. exact Hdv.
      + right. left. exists x. exists r, rest. split; [ exact Hk | split; [ exact Hr | ] ]. left. exact Hx.
      + right. right. eapply Start; [ | exact (look_starts n k r rest opts Hk Hr) ]. apply div_bind. apply div_bind. exact Hx.
  Qed.
End Nested.
