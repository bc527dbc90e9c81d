(** A lookup with several functions, one of which reads the configuration, gives
    what its specification says. *)

From Coq Require Import String Ascii List ZArith Bool Arith Lia.
From Verif Require Import Str Value Outcome Key Merge Fpath Config Ipl Explain State Engine Meta Fuel Session
  SpecKey SpecIpl SpecInterp SpecConfig SpecMerge SpecLookup SpecMux
  KeyFacts ValueFacts MergeFacts MergeLookup StrFacts IplFacts InterpFacts IplExact ResolveFacts LookupExact
  HierarchyExact LookupTop P_Mux.
Import ListNotations.
Open Scope nat_scope.
Open Scope string_scope.
Open Scope list_scope.

(** ** States in which options and strategy may be those of another lookup *)

Definition loose (w : world) (i : iv) (cf : list (string * rconfig)) (sh : list (string * shared)) (ps : list provider)
           (s : st) : Prop :=
  exists lo g, good w (iv_with_strat g (iv_with_luopts lo i)) cf sh ps s.

Lemma good_loose w i cf sh ps s : good w i cf sh ps s -> loose w i cf sh ps s.
Proof.
  intro G. exists (iv_luopts i), (iv_strat i).
  replace (iv_with_strat (iv_strat i) (iv_with_luopts (iv_luopts i) i)) with i by (destruct i; reflexivity). exact G.
Qed.

Lemma loose_loose w i lo g cf sh ps s : loose w (iv_with_strat g (iv_with_luopts lo i)) cf sh ps s -> loose w i cf sh ps s.
Proof.
  intros (lo' & g' & G). exists lo', g'.
  replace (iv_with_strat g' (iv_with_luopts lo' i))
    with (iv_with_strat g' (iv_with_luopts lo' (iv_with_strat g (iv_with_luopts lo i)))) by (destruct i; reflexivity).
  exact G.
Qed.

Lemma loose_of w i cf sh ps s : iv_expl i = false -> loose w i cf sh ps s ->
  exists i' cf' sh', iv_expl i' = false /\ iv_scope i' = iv_scope i /\ good w i' cf' sh' ps s.
Proof. intros Hi (lo & g & G). exists (iv_with_strat g (iv_with_luopts lo i)), cf, sh. auto. Qed.

Lemma loose_all w i cf sh ps A (m : M st A) a : iv_expl i = false ->
  (forall i' cf' sh', iv_expl i' = false -> iv_scope i' = iv_scope i -> yields (good w i' cf' sh' ps) m a) ->
  yields (loose w i cf sh ps) m a.
Proof.
  intros Hi H s (lo & g & G). destruct (H (iv_with_strat g (iv_with_luopts lo i)) cf sh Hi eq_refl s G) as (s' & E & G').
  exists s'. split; [ exact E | exists lo, g; exact G' ].
Qed.

Lemma loose_off w i cf sh ps s : iv_expl i = false -> loose w i cf sh ps s -> off s.
Proof. intros Hi (lo & g & G). exact (good_off w (iv_with_strat g (iv_with_luopts lo i)) cf sh ps Hi s G). Qed.
Lemma loose_scope w i cf sh ps s : loose w i cf sh ps s -> iv_scope (s_iv s) = iv_scope i.
Proof. intros (lo & g & G). exact (good_scope w _ cf sh ps s G). Qed.

(** ** The list of functions *)

(** How many of them read the configuration. *)
Fixpoint configs (fs : list lkfn) : nat :=
  match fs with
  | [] => 0
  | LkConfig :: fs => S (configs fs)
  | _ :: fs => configs fs
  end.

Lemma configs_app a b : configs (a ++ b) = configs a + configs b.
Proof. induction a as [|f a IH]; [ reflexivity | ]. cbn [app configs]. destruct f; rewrite IH; reflexivity. Qed.

Lemma configs_source w sc r f o fs : source_has w sc r f o -> configs (f :: fs) = configs fs.
Proof. intros []; reflexivity. Qed.

(** A function that reads no configuration. *)
Lemma source_gives w rec sc r f o opts : source_has w sc r f o -> gives sc (call_lk w rec f opts r) o.
Proof.
  intros [| |n v H|]; cbn [call_lk].
  - apply gives_ret.
  - unfold scope_lookup. intros s Hs Ho. exists s. split; [ | apply asked_refl ].
    unfold bind, run_op, ret. rewrite Hs. reflexivity.
  - apply gives_call_fn. intro t. apply H.
  - apply gives_ret.
Qed.

Section Mux.
  Variables (w : world) (fs : list lkfn) (cf : list (string * rconfig)) (sh : list (string * shared)) (ps : list provider)
            (rc : rconfig) (all : option value).
  Hypothesis Hmux : w_mux w = Some fs.
  Hypothesis Hone : configs fs <= 1.
  Hypothesis Hd : NoDup (map p_id ps).
  Hypothesis Hf : Forall (fun p => e_function (p_entry p) <> None) ps.
  Hypothesis Hcf : aget (w_cfgpath w) cf = Some rc.
  Hypothesis Hps : rc_providers rc = ps.
  Hypothesis Hall : rc_luopts rc = as_map all.
  Hypothesis Hmod : rc_module rc = "".
  Let es := map p_entry ps.

  Lemma config_there rec i s : good w i cf sh ps s -> get_config w rec (w_cfgpath w) "" s = (Ok rc, s).
  Proof.
    intro G. unfold get_config.
    replace (if String.eqb (w_cfgpath w) "" then w_cfgpath w else w_cfgpath w) with (w_cfgpath w)
      by (destruct (String.eqb (w_cfgpath w) ""); reflexivity).
    unfold bind, run_op. rewrite (g_configs _ _ _ _ _ _ G), Hcf. reflexivity.
  Qed.

  (** *** The question for lookup options *)

  Lemma option_run rec i r opts : iv_expl i = false -> iv_mode i = MdLookup -> plain_key r ->
    forall f o, options_from w (iv_scope i) all r f o -> yields (good w i cf sh ps) (call_lk w rec f opts r) o.
  Proof.
    intros Hi Hm Hp f o [lo Hlo|f' o' H].
    - intros s G. exists s. split; [ | exact G ]. cbn [call_lk]. unfold config_lookup_at.
      unfold bind at 1. rewrite (config_there rec i s G). unfold bind at 1, lift at 1. rewrite (plain_new r Hp).
      unfold bind at 1, run_op at 1. rewrite (g_iv _ _ _ _ _ _ G), Hm.
      unfold bind, lift. rewrite (options_for_model rc all r lo (mk_key r [PStr r]) Hall Hmod eq_refl Hlo). reflexivity.
    - apply yields_gives; [ exact Hi | exact (source_gives w rec _ r f' o' opts H) ].
  Qed.

  Lemma options_run rec i r opts outs : iv_expl i = false -> iv_mode i = MdLookup -> plain_key r ->
    Forall2 (options_from w (iv_scope i) all r) fs outs ->
    yields (good w i cf sh ps) (merging (SDeep []) fs (fun f => call_lk w rec f opts r)) (pure_lookup (SDeep []) outs).
  Proof.
    intros Hi Hm Hp H.
    apply (yields_picks _ (good_off w i cf sh ps Hi) lkfn _ (options_from w (iv_scope i) all r)).
    - intros f o _ Hfo. exact (option_run rec i r opts Hi Hm Hp f o Hfo).
    - apply pk_merge; [ discriminate | exact H ].
  Qed.

  Lemma options_scoped rec i r opts outs s : iv_expl i = false -> plain_key r ->
    Forall2 (options_from w (iv_scope i) all r) fs outs -> good w i cf sh ps s ->
    exists s', run_scoped SLookup (merging (SDeep []) fs (fun f => call_lk w rec f opts r)) s
               = (Ok (pure_lookup (SDeep []) outs), s') /\ good w i cf sh ps s'.
  Proof.
    intros Hi Hp H G. unfold run_scoped. rewrite (g_iv _ _ _ _ _ _ G).
    assert (C : exists s', with_copy (fun j => iv_with_mode MdLookup (iv_with_expl (iv_expl j && (x_options (s_ex s) || x_only (s_ex s))) j))
                             (merging (SDeep []) fs (fun f => call_lk w rec f opts r)) s
                           = (Ok (pure_lookup (SDeep []) outs), s') /\ good w i cf sh ps s').
    { apply (copy_run w i _ cf sh ps _ _ _ s G). apply options_run; [ | reflexivity | exact Hp | exact H ].
      cbn. rewrite Hi. reflexivity. }
    destruct (iv_mode i) eqn:Em; [ exact C | | exact C ].
    exact (options_run rec i r opts outs Hi Em Hp H s G).
  Qed.

  (** *** The question for data *)

  (** Before the configuration is asked the strategy is the one that was set. *)
  Definition stage (i : iv) (g : strategy) (fresh : bool) (s : st) : Prop :=
    if fresh then good w i cf sh ps s /\ iv_strat i = Some g else loose w i cf sh ps s.
  Definition left_over (fresh : bool) (l : list lkfn) : Prop := if fresh then configs l <= 1 else configs l = 0.

  Section Data.
    Variables (rec : req -> M st res) (i : iv) (r : string) (opts : entries) (g : strategy)
              (value_is : value -> option value -> Prop).
    Hypothesis Hi : iv_expl i = false.
    Hypothesis Hm : iv_mode i = MdData.
    Hypothesis Hp : plain_key r.
    Hypothesis Hv : forall v o, value_is v o -> yields (loose w i cf sh ps) (interpolate rec true v) o.
    Let call := fun f => call_lk w rec f opts r.
    Let gives := hierarchy_gives w (iv_scope i) value_is r g es.

    Lemma stage_loose b s : stage i g b s -> loose w i cf sh ps s.
    Proof. destruct b; [ intros [G _]; exact (good_loose _ _ _ _ _ _ G) | auto ]. Qed.

    Lemma call_run b f l o s : left_over b (f :: l) -> stage i g b s ->
      value_from w (iv_scope i) gives r f o ->
      exists b' s', call f s = (Ok o, s') /\ stage i g b' s' /\ left_over b' l.
    Proof.
      intros Hl Hs Hfrom. revert Hl. destruct Hfrom as [o' H|f' o' H]; intro Hl.
      - destruct b; [ | cbn in Hl; discriminate Hl ]. destruct Hs as [G Hg]. exists false.
        assert (Y : exists s', merge_hierarchy w rec (mk_key r [PStr r]) ps (Some g) s = (Ok o', s') /\ loose w i cf sh ps s').
        { unfold merge_hierarchy.
          refine (hierarchy_yields w rec (iv_scope i) ps (loose w i cf sh ps) _ _ value_is Hv (mk_key r [PStr r]) r g o' (plain_new r Hp) Hf H s
                    (good_loose _ _ _ _ _ _ G)).
          - intros s' L. exact (loose_of w i cf sh ps s' Hi L).
          - intros A m a Q. exact (loose_all w i cf sh ps A m a Hi (frames_yields w _ ps A m a Hd Q)). }
        destruct Y as (s' & E & L). exists s'. split; [ | split; [ exact L | cbn in *; lia ] ].
        unfold call. cbn [call_lk]. unfold config_lookup_at. unfold bind at 1. rewrite (config_there rec i s G).
        unfold bind at 1, lift at 1. rewrite (plain_new r Hp). unfold bind at 1, run_op at 1.
        rewrite (g_iv _ _ _ _ _ _ G), Hm. unfold bind at 1, run_op at 1. rewrite (g_iv _ _ _ _ _ _ G), Hg, Hps. exact E.
      - assert (Hl' : left_over b l) by (unfold left_over in *; rewrite (configs_source _ _ _ _ _ _ H) in Hl; exact Hl).
        exists b. destruct b.
        + destruct Hs as [G Hg].
          destruct (yields_gives w i cf sh ps _ _ _ Hi (source_gives w rec _ r f' o' opts H) s G) as (s' & E & G').
          exists s'. split; [ exact E | split; [ split; assumption | exact Hl' ] ].
        + destruct (loose_all w i cf sh ps _ (call f') o' Hi) with (s := s) as (s' & E & G'); [ | exact Hs | ].
          { intros i' cf' sh' X Y. apply yields_gives; [ exact X | ]. rewrite Y. exact (source_gives w rec _ r f' o' opts H). }
          exists s'. split; [ exact E | split; [ exact G' | exact Hl' ] ].
    Qed.

    Lemma calls_run : forall l1 b l2 outs s, left_over b (l1 ++ l2) -> stage i g b s ->
      Forall2 (value_from w (iv_scope i) gives r) l1 outs ->
      exists b' s', consults call l1 s outs s' /\ stage i g b' s' /\ left_over b' l2.
    Proof.
      induction l1 as [|f l1 IH]; intros b l2 outs s Hl Hs H; inversion H as [|? o ? outs' Hfo Hr]; subst.
      - exists b, s. split; [ constructor | auto ].
      - destruct (call_run b f (l1 ++ l2) o s Hl Hs Hfo) as (b1 & s1 & E1 & S1 & L1).
        destruct (IH b1 l2 outs' s1 L1 S1 Hr) as (b2 & s2 & C2 & S2 & L2).
        exists b2, s2. split; [ exact (con_cons _ f l1 s o s1 outs' s2 E1 C2) | auto ].
    Qed.

    Lemma calls_none l : Forall (fun f => value_from w (iv_scope i) gives r f None) l ->
      Forall2 (value_from w (iv_scope i) gives r) l (map (fun _ => None) l).
    Proof. induction 1; constructor; auto. Qed.

    Lemma nones_in (l : list lkfn) (o : option value) : In o (map (fun _ => None) l) -> o = None.
    Proof. intro H. apply in_map_iff in H as (x & <- & _). reflexivity. Qed.

    Lemma picks_taken l v s : configs l <= 1 -> good w i cf sh ps s -> iv_strat i = Some g ->
      picks (value_from w (iv_scope i) gives r) g l v ->
      exists s', taken call g l s v s' /\ loose w i cf sh ps s'.
    Proof.
      intros Hl G Hg H. assert (S0 : stage i g true s) by (split; assumption).
      remember g as g0 eqn:Eg in H. destruct H as [pre x post v Hpre Hx|l Hn|g1 l outs Hne Ha]; rewrite <- Eg.
      - destruct (calls_run pre true (x :: post) _ s Hl S0 (calls_none pre Hpre)) as (b1 & s1 & C1 & S1 & L1).
        destruct (call_run b1 x post (Some v) s1 L1 S1 Hx) as (b2 & s2 & E2 & S2 & L2).
        exists s2. split; [ exact (tk_first _ pre x post s _ s1 v s2 C1 (nones_in pre) E2) | exact (stage_loose b2 s2 S2) ].
      - rewrite <- (app_nil_r l) in Hl.
        destruct (calls_run l true [] _ s Hl S0 (calls_none l Hn)) as (b1 & s1 & C1 & S1 & L1).
        exists s1. split; [ exact (tk_none _ l s _ s1 C1 (nones_in l)) | exact (stage_loose b1 s1 S1) ].
      - rewrite <- (app_nil_r l) in Hl.
        destruct (calls_run l true [] _ s Hl S0 Ha) as (b1 & s1 & C1 & S1 & L1).
        exists s1. split; [ exact (tk_merge _ g1 l s outs s1 Hne C1) | exact (stage_loose b1 s1 S1) ].
    Qed.
  End Data.

  Lemma data_run N i r opts lo mo g c v x (value_is : value -> option value -> Prop) s :
    iv_expl i = false -> iv_mode i = MdData -> plain_key r ->
    (forall b v o, value_is v o -> yields (loose w (iv_with_redacted b i) cf sh ps) (interpolate (run w N) true v) o) ->
    merge_option opts lo mo -> strategy_is mo g -> conversion_is lo c ->
    picks (value_from w (iv_scope i) (hierarchy_gives w (iv_scope i) value_is r g es) r) g fs v ->
    converted w c v x -> good w i cf sh ps s ->
    exists s', (bind (lift (new_key r)) (fun k =>
                run_scoped (SNode NLookup (k_source k))
                  (bind (set_merge (mgets "merge" (match opts with Some o => o | None => [] end)) lo) (fun _ =>
                   lookup_and_convert w
                     (bind (run_op OStrat) (fun s =>
                      match s with
                      | None => panic nil_deref
                      | Some s => merging s fs (fun f => call_lk w (run w N) f (match opts with Some o => o | None => [] end) r)
                      end)))))) s = (Ok x, s') /\ loose w i cf sh ps s'.
  Proof.
    intros Hi Hm Hp Hv Hmo Hst Hc Hpk Hx G. set (o := match opts with Some o => o | None => [] end).
    unfold bind at 1, lift at 1. rewrite (plain_new r Hp). rewrite node_off by exact (good_off w i cf sh ps Hi s G).
    destruct (set_merge_run w i cf sh ps opts lo mo g s Hi Hmo Hst G) as (s1 & E1 & G1). fold o in E1.
    unfold bind at 1. rewrite E1. set (i1 := iv_with_strat (Some g) (iv_with_luopts lo i)) in *.
    set (fn := bind (run_op OStrat) _).
    assert (FN : forall b t, good w (iv_with_redacted b i1) cf sh ps t ->
              exists t', fn t = (Ok v, t') /\ loose w (iv_with_redacted b i) cf sh ps t').
    { intros b t Gt. set (ib := iv_with_redacted b i1) in *.
      assert (Xb : iv_expl ib = false) by exact Hi.
      assert (Lb : forall t, loose w ib cf sh ps t <-> loose w (iv_with_redacted b i) cf sh ps t).
      { intro t0. split; intros (lo' & g' & G'); exists lo', g'; destruct i; exact G'. }
      destruct (picks_taken (run w N) ib r o g value_is Xb Hm Hp) with (l := fs) (v := v) (s := t) as (t' & T & L'); try assumption; [ | reflexivity | ].
      { intros v' o' Hv' t0 L0. apply Lb in L0. destruct (Hv b v' o' Hv' t0 L0) as (t1 & Et & L1).
        exists t1. split; [ exact Et | apply Lb; exact L1 ]. }
      exists t'. split; [ | apply Lb; exact L' ]. unfold fn. unfold bind, run_op. rewrite (g_iv _ _ _ _ _ _ Gt). cbn [ib i1 iv_with_redacted iv_with_strat iv_strat].
      exact (merging_taken _ (call_off w N o r) g fs t v t' (good_off w ib cf sh ps Xb t Gt) T). }
    assert (Ri : forall j, iv_with_redacted (iv_redacted j) j = j) by (intros []; reflexivity).
    assert (Plain : exists s', fn s1 = (Ok v, s') /\ loose w i cf sh ps s').
    { destruct (FN (iv_redacted i) s1) as (s' & E & L).
      - replace (iv_redacted i) with (iv_redacted i1) by reflexivity. rewrite Ri. exact G1.
      - rewrite Ri in L. exists s'. split; assumption. }
    assert (Red : exists s', run_scoped SRedacted fn s1 = (Ok v, s') /\ loose w i cf sh ps s').
    { unfold run_scoped. rewrite (g_iv _ _ _ _ _ _ G1). change (iv_redacted i1) with (iv_redacted i).
      destruct (iv_redacted i) eqn:Er; [ exact Plain | ].
      destruct (FN true (with_iv (iv_with_redacted true i1) s1) (good_with_iv _ _ _ _ _ _ _ G1)) as (s' & E & (lo' & g' & G')).
      rewrite E. eexists. split; [ reflexivity | ]. exists lo', g'. rewrite (g_iv _ _ _ _ _ _ G').
      replace (iv_with_redacted false (iv_with_strat g' (iv_with_luopts lo' (iv_with_redacted true i))))
        with (iv_with_strat g' (iv_with_luopts lo' i)) by (destruct i; cbn in *; subst; reflexivity).
      exact (good_with_iv _ _ _ _ _ _ _ G'). }
    assert (Any : forall ty (a : option (list value)),
      exists s', (match Some (ty, a) with Some (CSensitive, _) => run_scoped SRedacted fn | _ => fn end) s1 = (Ok v, s')
                 /\ loose w i cf sh ps s').
    { intros [|t] a; [ exact Red | exact Plain ]. }
    unfold lookup_and_convert, extract_conversion. unfold bind at 1. unfold bind at 1. unfold run_op at 1.
    rewrite (g_iv _ _ _ _ _ _ G1). cbn [i1 iv_with_strat iv_with_luopts iv_luopts]. rewrite (conversion_model lo c Hc).
    destruct Hx as [o'|t a ty Ht|t y Ht|t a ty y y' Ht Hty Hnew]; cbn [option_map fst snd].
    - unfold ret at 1. destruct Plain as (s2 & E2 & L2). unfold bind at 1. rewrite E2. exists s2. split; [ | exact L2 ]. destruct o'; reflexivity.
    - unfold bind at 1, lift at 1. rewrite Ht. unfold ret at 1. destruct (Any ty a) as (s2 & E2 & L2).
      unfold bind at 1. rewrite E2. exists s2. split; [ reflexivity | exact L2 ].
    - unfold bind at 1, lift at 1. rewrite Ht. unfold ret at 1. destruct (Any CSensitive None) as (s2 & E2 & L2).
      unfold bind at 1. rewrite E2. exists s2. split; [ reflexivity | exact L2 ].
    - unfold bind at 1, lift at 1. rewrite Ht. unfold ret at 1. destruct (Any ty a) as (s2 & E2 & L2).
      unfold bind at 1. rewrite E2. exists s2. split; [ | exact L2 ]. unfold bind, lift, convert, ret.
      destruct ty as [|tt]; [ destruct a as [a|]; [ | destruct Hty; congruence ] | ]; rewrite Hnew; reflexivity.
  Qed.

  (** *** A nested lookup *)

  Lemma map_of_model o lo : map_of o lo -> as_map o = lo.
  Proof. intros [m|o' H]; [ reflexivity | ]. destruct o' as [[]|]; try reflexivity. destruct (H _ eq_refl). Qed.

  Lemma mux_run N i r opts x (value_is : value -> option value -> Prop) :
    iv_expl i = false -> iv_mode i = MdData -> plain_key r ->
    (forall b v o, value_is v o -> yields (loose w (iv_with_redacted b i) cf sh ps) (interpolate (run w N) true v) o) ->
    found_under w (iv_scope i) es all fs value_is r opts x ->
    yields (loose w i cf sh ps) (mux_lookup w (run w N) (match opts with Some o => o | None => [] end) r) x.
  Proof.
    intros Hi Hm Hp Hv (outs & lo & mo & g & c & v & Ho & Hlo & Hmo & Hst & Hc & Hpk & Hx) s (lo0 & g0 & G).
    set (j := iv_with_strat g0 (iv_with_luopts lo0 i)) in *.
    unfold mux_lookup. rewrite Hmux.
    destruct (options_scoped (run w N) j r (match opts with Some o => o | None => [] end) outs s Hi Hp Ho G) as (s1 & E1 & G1).
    unfold bind at 1. rewrite E1. unfold run_scoped at 1. rewrite (g_iv _ _ _ _ _ _ G1). change (iv_mode j) with (iv_mode i). rewrite Hm.
    rewrite (map_of_model _ _ Hlo).
    destruct (data_run N j r opts lo mo g c v x value_is s1 Hi Hm Hp) as (s2 & E2 & L2); try assumption.
    exists s2. split; [ exact E2 | exact (loose_loose _ _ _ _ _ _ _ _ L2) ].
  Qed.

  Hypothesis Htop : w_top w = LkMux.

  Lemma yields_mux_answers : forall n i, iv_expl i = false -> iv_mode i = MdData ->
    forall q o, mux_answers w (iv_scope i) es all fs n q o ->
    match q with
    | QStr t => exists b, (b = false -> o = Some (VStr t)) /\ yields (loose w i cf sh ps) (run w (2 * n) (RStr t true)) (o, b)
    | QKey k => exists b, yields (loose w i cf sh ps) (run w (2 * n) (RLookup k None)) (o, b)
    end.
  Proof.
    induction n as [|n IH]; intros i Hi Hm q o H; [ destruct H | ].
    replace (2 * S n) with (S (S (2 * n))) by lia. cbn [run].
    change (body w (run w (2 * n))) with (run w (S (2 * n))).
    assert (Hs : forall i, iv_expl i = false -> iv_mode i = MdData -> forall t o, mux_answers w (iv_scope i) es all fs n (QStr t) o ->
       forall N, 2 * n <= N -> exists b, (b = false -> o = Some (VStr t)) /\ yields (loose w i cf sh ps) (run w N (RStr t true)) (o, b)).
    { intros j Xj Mj t o' Ht N HN. destruct (IH j Xj Mj (QStr t) o' Ht) as (b & B & Y).
      exists b. split; [ exact B | exact (yields_more w _ _ N _ _ HN Y) ]. }
    assert (Hl : forall k o, mux_answers w (iv_scope i) es all fs n (QKey k) o ->
       exists b, yields (loose w i cf sh ps) (run w (S (2 * n)) (RLookup k None)) (o, b)).
    { intros k o' Hk. destruct (IH i Hi Hm (QKey k) o' Hk) as (b & Y).
      exists b. refine (yields_more w _ _ (S (2 * n)) _ _ _ Y). lia. }
    assert (Hv : forall j, iv_expl j = false -> iv_mode j = MdData -> iv_scope j = iv_scope i -> forall N, 2 * n <= N -> forall v o,
       value_is (fun t => mux_answers w (iv_scope i) es all fs n (QStr t)) v o ->
       yields (loose w j cf sh ps) (interpolate (run w N) true v) o).
    { intros j Xj Mj Sj N HN. apply (yields_interpolate (loose w j cf sh ps) (run w N)).
      intros t o' Ht. rewrite <- Sj in Ht. exact (Hs j Xj Mj t o' Ht N HN). }
    assert (Poff : forall s, loose w i cf sh ps s -> off s) by (intro s0; exact (loose_off w i cf sh ps s0 Hi)).
    assert (Psc : forall s, loose w i cf sh ps s -> iv_scope (s_iv s) = iv_scope i) by exact (loose_scope w i cf sh ps).
    destruct q as [t|k]; cbn [mux_answers] in H.
    - refine (yields_string w (iv_scope i) (loose w i cf sh ps) Poff Psc (run w (S (2 * n))) _ _ _ Hl t o H).
      intros t' o' Ht'. exact (Hs i Hi Hm t' o' Ht' (S (2 * n)) ltac:(lia)).
    - destruct H as (r & rest & x & Ek & Hr & Hp & Hfu & Hfo). exists true.
      cbn [body]. eapply yields_bind with (a := o); [ | apply yields_ret ].
      unfold lookup. eapply yields_bind with (a := r); [ apply yields_lift; unfold root; rewrite Ek; reflexivity | ].
      apply String.eqb_neq in Hr. rewrite Hr. rewrite Htop. cbn [call_lk].
      eapply yields_bind with (a := x).
      + eapply yields_bind with (a := (x, true)); [ | apply yields_ret ].
        change (run w (S (2 * n)) (RMux [] r)) with (bind (mux_lookup w (run w (2 * n)) [] r) (fun v => ret (v, true))).
        eapply yields_bind; [ | apply yields_ret ].
        refine (mux_run (2 * n) i r None x _ Hi Hm Hp _ Hfu).
        intros b v o' Hvo. refine (Hv (iv_with_redacted b i) Hi Hm eq_refl (2 * n) (le_n _) v o' Hvo).
      + destruct x as [x|]; [ | cbn in Hfo; subst o; apply yields_ret ]. destruct Hfo as (y & Hy & Hdig).
        intros s0 (lo & g & G). unfold run_scoped. rewrite (g_iv _ _ _ _ _ _ G). cbn [iv_with_strat iv_with_luopts iv_mode]. rewrite Hm.
        assert (L : loose w i cf sh ps s0) by (exists lo, g; exact G). revert s0 lo g G L.
        enough (Y : yields (loose w i cf sh ps) (bind (interpolate (run w (S (2 * n))) true x) (dig_in k)) o)
          by (intros s0 _ _ _ L; exact (Y s0 L)).
        eapply yields_bind; [ exact (Hv i Hi Hm eq_refl (S (2 * n)) ltac:(lia) x y Hy) | ].
        destruct k as [ks kp]. cbn in Ek. subst kp. exact (digs_dig _ Poff ks r rest y o Hdig).
  Qed.
End Mux.

(** ** The lookup from the configuration file on *)

Section Top.
  Variables (w : world) (n : nat) (on_disk : string -> bool) (matching : string -> list string).
  Hypothesis Hstat : forall t p, w_stat w t p = on_disk p.
  Hypothesis Hglob : forall t p, w_glob w t p = matching p.
  Variable N : nat.
  Hypothesis HN : 2 * n <= S (S N).
  Variable sc : scope.
  Variables (c : config) (file : cfg_file).
  Hypothesis Hfile : forall t, w_config w t (w_cfgpath w) = file.
  Hypothesis Hconf : config_new (w_env w) (w_cfgpath w) file = Ok c.
  Variables (pre post : list lkfn).
  Let fs := pre ++ LkConfig :: post.
  Hypothesis Hmux : w_mux w = Some fs.
  Hypothesis Hpre : ~ In LkConfig pre.
  Hypothesis Hpost : ~ In LkConfig post.
  Hypothesis Htop : w_top w = LkMux.
  Let i0 := new_iv sc false.

  Lemma no_configs l : ~ In LkConfig l -> configs l = 0.
  Proof.
    induction l as [|f l IH]; [ reflexivity | ]. intro H.
    assert (IH' : configs l = 0) by (apply IH; intro Q; apply H; right; exact Q).
    destruct f; try exact IH'. destruct H. left. reflexivity.
  Qed.
  Lemma one_config : configs fs <= 1.
  Proof. unfold fs. rewrite configs_app. cbn [configs]. rewrite (no_configs pre Hpre), (no_configs post Hpost). lia. Qed.

  Lemma options_source all r f o : f <> LkConfig -> options_from w sc all r f o -> source_has w sc r f o.
  Proof. intros Hne H. inversion H; subst; [ congruence | assumption ]. Qed.

  (** The functions that read no configuration change nothing but the trace. *)
  Lemma sources_run rec r opts all : forall l outs, ~ In LkConfig l -> Forall2 (options_from w sc all r) l outs ->
    forall s, iv_scope (s_iv s) = sc -> off s ->
    exists s', consults (fun f => call_lk w rec f opts r) l s outs s' /\ asked s s'.
  Proof.
    induction l as [|f l IH]; intros outs Hl H; inversion H as [|? o ? outs' Hfo Hr]; subst; intros s Hs Ho.
    - exists s. split; [ constructor | apply asked_refl ].
    - assert (Hne : f <> LkConfig) by (intro E; apply Hl; left; exact E).
      destruct (source_gives w rec _ r f o opts (options_source all r f o Hne Hfo) s Hs Ho) as (s1 & E1 & A1).
      pose proof (asked_iv _ _ A1) as I1.
      destruct (IH outs' (fun Q => Hl (or_intror Q)) Hr s1) as (s2 & C2 & A2).
      { rewrite I1. exact Hs. }
      { unfold off. rewrite I1. exact Ho. }
      exists s2. split; [ exact (con_cons _ f l s o s1 outs' s2 E1 C2) | ].
      exact (asked_trans _ _ _ A1 A2).
  Qed.

  Lemma first_options_run es all r outs opts s : s_iv s = i0 -> ready w c es all s ->
    hierarchy_is w on_disk matching sc c es -> plain_key r -> all_options w sc es n all ->
    Forall2 (options_from w sc all r) fs outs ->
    exists rc s', run_scoped SLookup (merging (SDeep []) fs (fun f => call_lk w (run w (S (S N))) f opts r)) s
                  = (Ok (pure_lookup (SDeep []) outs), s') /\
      map p_entry (rc_providers rc) = es /\ NoDup (map p_id (rc_providers rc)) /\
      rc_luopts rc = as_map all /\ rc_module rc = "" /\
      exists sh, aget (w_cfgpath w) sh = Some (ShLoaded c) /\
      good w i0 [(w_cfgpath w, rc)] sh (rc_providers rc) s'.
  Proof.
    intros Hs Hrd Hh Hp Ha Ho.
    apply Forall2_app_inv_l in Ho as (o1 & o2 & H1 & H2 & ->).
    inversion H2 as [|? o ? o3 Hcfg H3]; subst.
    assert (Hlo : exists lo, options_for all r lo /\ o = option_map VMap lo).
    { inversion Hcfg as [lo Hlo|f o' Hsrc]; subst; [ exists lo; auto | inversion Hsrc ]. }
    destruct Hlo as (lo & Hlo & ->).
    unfold run_scoped. rewrite Hs. cbn [i0 new_iv iv_mode]. unfold with_copy. rewrite Hs.
    set (f := fun j : iv => iv_with_mode MdLookup (iv_with_expl (iv_expl j && (x_options (s_ex s) || x_only (s_ex s))) j)).
    change (iv_with_mode MdLookup (iv_with_expl (iv_expl i0 && (x_options (s_ex s) || x_only (s_ex s))) i0)) with (f i0).
    set (rec := run w (S (S N))). set (call := fun f => call_lk w rec f opts r).
    destruct (sources_run rec r opts all pre o1 Hpre H1 (with_iv (f i0) s) eq_refl eq_refl) as (s1 & C1 & A1).
    assert (I1 : s_iv s1 = f i0) by (rewrite (asked_iv _ _ A1); reflexivity).
    assert (Hn : n <= S (S N)) by lia.
    destruct (get_config_ready w n N Hn sc c file Hfile Hconf (f i0) es all s1 eq_refl eq_refl I1)
      as (rc & s2 & E2 & R1 & R2 & R3 & R4 & sh & Sh & G2).
    { destruct Hrd as [[Hc Hsh]|(rc & R1 & R2 & R3 & R4 & sh & Sh & G)]; destruct A1 as [t ->].
      - left. split; [ exact Hc | exact Hsh ].
      - right. exists rc. repeat (split; [ assumption | ]). exists sh. split; [ exact Sh | ].
        destruct G as [G1 G2 G3 G4]. constructor; assumption. }
    { exact (hierarchy_created w on_disk matching sc c es N Hstat Hglob Hh). }
    { exact Ha. }
    assert (Ec : call LkConfig s1 = (Ok (option_map VMap lo), s2)).
    { unfold call. cbn [call_lk]. unfold config_lookup_at. unfold bind at 1. unfold rec. rewrite E2.
      unfold bind at 1, lift at 1. rewrite (plain_new r Hp).
      unfold bind at 1, run_op at 1. rewrite (g_iv _ _ _ _ _ _ G2). cbn [f iv_with_mode iv_mode].
      unfold bind, lift. rewrite (options_for_model rc all r lo (mk_key r [PStr r]) R3 R4 eq_refl Hlo). reflexivity. }
    destruct (sources_run rec r opts all post o3 Hpost H3 s2) as (s3 & C3 & A3).
    { rewrite (g_iv _ _ _ _ _ _ G2). reflexivity. }
    { exact (good_off w (f i0) _ _ _ eq_refl s2 G2). }
    pose proof (good_asked _ _ _ _ _ _ _ G2 A3) as G3.
    assert (C : consults call fs (with_iv (f i0) s) (o1 ++ option_map VMap lo :: o3) s3).
    { unfold fs. clear - C1 Ec C3. induction C1 as [s0|x l s0 v s' outs s'' E C1 IH].
      - exact (con_cons _ LkConfig post s0 _ s2 o3 s3 Ec C3).
      - exact (con_cons _ x _ s0 v s' _ s3 E (IH Ec)). }
    rewrite (merging_off call (call_off w (S (S N)) opts r) (SDeep []) fs (with_iv (f i0) s) _ s3 eq_refl ltac:(discriminate) C).
    exists rc, (with_iv i0 s3). split; [ reflexivity | ]. repeat (split; [ assumption | ]).
    exists sh. split; [ exact Sh | ]. exact (good_with_iv _ _ _ _ _ _ _ G3).
  Qed.

  Lemma mux_lookup_again es all k opts o s : s_iv s = i0 -> ready w c es all s ->
    hierarchy_is w on_disk matching sc c es -> all_options w sc es n all -> mux_finds w sc es all fs n k opts o ->
    exists s', lookup w (run w (S (S (S N)))) k opts s = (Ok o, s') /\ s_iv s' = i0 /\ ready w c es all s'.
  Proof.
    intros Hs Hrd Hh Ha (r & rest & x & Hk & Hr & Hp & (outs & lo & mo & g & cv & v & Ho & Hlo & Hmo & Hst & Hcv & Hpk & Hx) & Hfo).
    set (op := match opts with Some o => o | None => [] end).
    destruct (first_options_run es all r outs op s Hs Hrd Hh Hp Ha Ho) as (rc & s1 & E1 & R1 & R2 & R3 & R4 & sh & Sh & G1).
    set (cf := [(w_cfgpath w, rc)]) in *. set (ps := rc_providers rc) in *.
    assert (Fn : Forall (fun p => e_function (p_entry p) <> None) ps).
    { destruct Hh as (d & ds & _ & H2 & _). apply (proj1 (Forall_map p_entry (fun e => e_function e <> None) _)). rewrite R1. exact (resolved_functions _ _ _ _ _ _ _ _ _ H2). }
    assert (Hcf : aget (w_cfgpath w) cf = Some rc) by (unfold cf; cbn [aget]; rewrite String.eqb_refl; reflexivity).
    assert (Hv : forall j, iv_expl j = false -> iv_mode j = MdData -> iv_scope j = sc -> forall K, S (S N) <= K -> forall v o,
       value_is (fun t => mux_answers w sc es all fs n (QStr t)) v o ->
       yields (loose w j cf sh ps) (interpolate (run w K) true v) o).
    { intros j Xj Mj Sj K HK. apply (yields_interpolate (loose w j cf sh ps) (run w K)).
      intros t o' Ht. rewrite <- Sj, <- R1 in Ht.
      destruct (yields_mux_answers w fs cf sh ps rc all Hmux one_config R2 Fn Hcf eq_refl R3 R4 Htop n j Xj Mj (QStr t) o' Ht) as (b & B & Y).
      exists b. split; [ exact B | ]. refine (yields_more w _ _ K _ _ _ Y). lia. }
    assert (Fin : forall t, good w i0 cf sh ps t -> s_iv t = i0 /\ ready w c es all t).
    { intros t G. pose proof (g_iv _ _ _ _ _ _ G) as It. split; [ exact It | ]. right. exists rc. rewrite It.
      repeat (split; [ assumption | ]). exists sh. split; assumption. }
    set (fd := fun (e : explainer) (j : iv) => iv_with_mode MdData (iv_with_expl (iv_expl j && negb (x_only e)) j)).
    assert (E2 : exists s2, mux_lookup w (run w (S (S N))) op r s = (Ok x, s2) /\ good w i0 cf sh ps s2).
    { unfold mux_lookup. rewrite Hmux. fold fs. unfold bind at 1. rewrite E1. rewrite (map_of_model _ _ Hlo).
      unfold run_scoped at 1. rewrite (g_iv _ _ _ _ _ _ G1). cbn [i0 new_iv iv_mode].
      unfold with_copy. rewrite (g_iv _ _ _ _ _ _ G1). fold (fd (s_ex s1) i0). 
      destruct (data_run w fs cf sh ps rc one_config R2 Fn Hcf eq_refl (S (S N)) (fd (s_ex s1) i0) r opts lo mo g cv v x
                  (value_is (fun t => mux_answers w sc es all fs n (QStr t))) (with_iv (fd (s_ex s1) i0) s1)) as (s2 & E2 & (lo' & g' & G2));
        try assumption; try reflexivity.
      - intros b v' o' Hv'. refine (Hv _ _ _ _ (S (S N)) (le_n _) v' o' Hv'); reflexivity.
      - change (iv_scope (fd (s_ex s1) i0)) with sc. rewrite R1. exact Hpk.
      - exact (good_with_iv _ _ _ _ _ _ _ G1).
      - fold op in E2.
        match goal with |- context [let (_, _) := ?t in _] => replace t with (Ok x, s2) by (symmetry; exact E2) end.
        eexists. split; [ reflexivity | ]. exact (good_with_iv _ _ _ _ _ _ _ G2). }
    destruct E2 as (s2 & E2 & G2).
    unfold lookup. unfold bind at 1, lift at 1, root at 1. rewrite Hk.
    apply String.eqb_neq in Hr. rewrite Hr. rewrite Htop. cbn [call_lk]. fold op.
    change (run w (S (S (S N))) (RMux op r)) with (bind (mux_lookup w (run w (S (S N))) op r) (fun v => ret (v, true))).
    unfold bind at 1. unfold bind at 1. unfold bind at 1. rewrite E2. cbn [ret fst].
    destruct x as [x|].
    - destruct Hfo as (y & Hy & Hdig). unfold run_scoped. rewrite (g_iv _ _ _ _ _ _ G2). cbn [i0 new_iv iv_mode].
      unfold with_copy. rewrite (g_iv _ _ _ _ _ _ G2). fold (fd (s_ex s2) i0).
      assert (Y : yields (loose w (fd (s_ex s2) i0) cf sh ps) (bind (interpolate (run w (S (S (S N)))) true x) (dig_in k)) o).
      { eapply yields_bind with (a := y).
        - refine (Hv _ _ _ _ (S (S (S N))) _ x y Hy); [ reflexivity | reflexivity | reflexivity | lia ].
        - destruct k as [ks kp]. cbn in Hk. subst kp.
          refine (digs_dig _ _ ks r rest y o Hdig). intro t. apply loose_off. reflexivity. }
      destruct (Y (with_iv (fd (s_ex s2) i0) s2) (good_loose _ _ _ _ _ _ (good_with_iv _ _ _ _ _ _ _ G2))) as (s3 & E3 & (lo' & g' & G3)).
      match goal with |- context [let (_, _) := ?t in _] => replace t with (Ok o, s3) by (symmetry; exact E3) end.
      eexists. split; [ reflexivity | ]. apply Fin. exact (good_with_iv _ _ _ _ _ _ _ G3).
    - cbn in Hfo. subst o. exists s2. split; [ reflexivity | exact (Fin s2 G2) ].
  Qed.

  Lemma mux_lookup_run es k opts o s : s_iv s = i0 -> s_configs s = [] -> shared_ok w c s ->
    hierarchy_is w on_disk matching sc c es -> mux_gives w sc es fs n k opts o ->
    exists s', lookup w (run w (S (S (S N)))) k opts s = (Ok o, s') /\ shared_ok w c s'.
  Proof.
    intros Hs Hc Hsh Hh (all & Ha & F).
    destruct (mux_lookup_again es all k opts o s Hs (or_introl (conj Hc Hsh)) Hh Ha F) as (s' & E & _ & R).
    exists s'. split; [ exact E | exact (ready_shared w c es all s' R) ].
  Qed.
End Top.
