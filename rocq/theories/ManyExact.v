(** A lookup with several functions, one of which reads the configuration: what
    is found, how it fails and when it does not end, in one go. *)

From Coq Require Import String Ascii List ZArith Bool Arith Lia.
From Verif Require Import Str Value Outcome Key Merge Fpath Config Ipl Explain State Engine Meta Fuel Session
  SpecKey SpecKeyErr SpecIpl SpecInterp SpecConfig SpecMerge SpecPath SpecLookup SpecFail SpecMux SpecMany SpecWorld
  KeyFacts KeyErrFacts ValueFacts MergeFacts MergeLookup StrFacts IplFacts InterpFacts IplExact ResolveFacts LookupExact LoaderFacts
  HierarchyExact LookupTop LookupFail FailExact FailText FailTop SettledLookup Acyclic Cycles RootFacts P_Options P_Mux MuxExact
  Decided DecidedLevels DecidedTop.
Import ListNotations.
Open Scope nat_scope.
Open Scope string_scope.
Open Scope list_scope.

(** ** What becomes of a computation *)

Inductive fate (A : Type) : Type :=
| Gives (a : A)
| Fails (x : err)
| Never.
Arguments Gives {A} a.
Arguments Fails {A} x.
Arguments Never {A}.

(** From [P] it ends in [Q] with a result, fails and leaves [sh] shared, or does
    not end. *)
Definition lands {A} (sh : list (string * shared)) (Q : st -> Prop) (r : outcome A * st) (f : fate A) : Prop :=
  match f with
  | Gives a => exists s', r = (Ok a, s') /\ Q s'
  | Fails x => exists s', r = (Panic x, s') /\ s_shared s' = sh
  | Never => fst r = NoFuel
  end.
Definition meets {A} (sh : list (string * shared)) (P Q : st -> Prop) (m : M st A) (f : fate A) : Prop :=
  forall s, P s -> lands sh Q (m s) f.

(** The same for another type of result. *)
Definition cast {A B} (f : fate A) : fate B :=
  match f with Gives _ => Never | Fails x => Fails x | Never => Never end.

Lemma lands_bind A B sh Q R (m : M st A) (k : A -> M st B) a f s : lands sh Q (m s) (Gives a) -> meets sh Q R (k a) f ->
  lands sh R (bind m k s) f.
Proof. intros (s' & E & Hq) H. unfold bind. rewrite E. exact (H s' Hq). Qed.

Lemma lands_stop A B sh Q R (m : M st A) (k : A -> M st B) f s : (forall a, f <> Gives a) -> lands sh Q (m s) f -> lands sh R (bind m k s) (cast f).
Proof.
  intros Hf H. unfold bind. destruct f as [a|x|]; [ destruct (Hf a eq_refl) | | ]; cbn in *.
  - destruct H as (s' & -> & H). eauto.
  - destruct (m s) as [o s']. cbn in H. subst o. reflexivity.
Qed.

Lemma meets_yields A sh P (m : M st A) a : meets sh P P m (Gives a) <-> yields P m a.
Proof. split; intros H s Hs; exact (H s Hs). Qed.
Lemma meets_breaks A sh P Q (m : M st A) x : meets sh P Q m (Fails x) <-> breaks sh P m x.
Proof. split; intros H s Hs; exact (H s Hs). Qed.
Lemma meets_never A sh P Q (m : M st A) : meets sh P Q m Never <-> diverges P m.
Proof. split; intros H s Hs; exact (H s Hs). Qed.

Lemma lands_weak A sh (Q Q' : st -> Prop) (r : outcome A * st) f : (forall s, Q s -> Q' s) -> lands sh Q r f -> lands sh Q' r f.
Proof. intros H. destruct f; cbn; [ | auto | auto ]. intros (s' & E & K). eauto. Qed.

(** ** Merging with no explainer stops where a function does *)

Lemma loop_halts {L} (f : L -> M st (option value)) g pre p post : forall s outs s1, consults f pre s outs s1 ->
  (forall v, fst (f p s1) <> Ok v) -> forall memo, merge_loop f g memo (pre ++ p :: post) s = f p s1.
Proof.
  intros s outs s1 C. induction C as [s|x l s v s' outs s'' E C IH]; intros H memo.
  - cbn [app merge_loop]. unfold bind. destruct (f p s) as [[v|e| |] s']; try reflexivity. destruct (H v eq_refl).
  - cbn [app merge_loop]. unfold bind. rewrite E. apply IH. exact H.
Qed.

Lemma merging_halts {L} (f : L -> M st (option value)) (Hoff : forall x s, off s -> off (snd (f x s))) g pre p post s outs s1 :
  off s -> consults f pre s outs s1 -> (g = SFirst -> forall o, In o outs -> o = None) ->
  (forall v, fst (f p s1) <> Ok v) -> merging g (pre ++ p :: post) f s = f p s1.
Proof.
  intros Hs C Hn H.
  assert (First : g = SFirst -> merging g (pre ++ p :: post) f s = f p s1).
  { intros ->. rewrite (merging_first f Hoff _ s Hs). rewrite (first_loop_stop f pre s outs s1 p post C (Hn eq_refl)). cbn [first_loop].
    unfold bind. destruct (f p s1) as [[v|e| |] s']; try reflexivity. destruct (H v eq_refl). }
  assert (Two : with_merge g (bind (merge_loop f g None (pre ++ p :: post)) (report_some report_result)) s = f p s1).
  { unfold with_merge. rewrite node_off by exact Hs. unfold bind. rewrite (loop_halts f g pre p post s outs s1 C H).
    destruct (f p s1) as [[v|e| |] s']; try reflexivity. destruct (H v eq_refl). }
  assert (One : pre = [] -> post = [] -> bind (f p) (fun v => ret (merge_single g v)) s = f p s1).
  { intros -> _. inversion C; subst. unfold bind. destruct (f p s1) as [[v|e| |] s']; try reflexivity. destruct (H v eq_refl). }
  destruct g; [ exact (First eq_refl) | | | ]; clear First; unfold merging, merge_lookup;
    (destruct pre as [|a [|b pre]]; [ destruct post as [|q post]; [ exact (One eq_refl eq_refl) | exact Two ] | exact Two | exact Two ]).
Qed.

(** ** Functions that read no configuration *)

Lemma holds_gives w rec sc args r f o : holds w sc args r f o -> gives sc (call_lk w rec f args r) o.
Proof.
  intros [| |n v H|]; cbn [call_lk].
  - apply gives_ret.
  - unfold scope_lookup. intros s Hs Ho. exists s. split; [ | apply asked_refl ].
    unfold bind, run_op, ret. rewrite Hs. reflexivity.
  - apply gives_call_fn. exact H.
  - apply gives_ret.
Qed.

Lemma holds_config w sc args r f o fs : holds w sc args r f o -> configs (f :: fs) = configs fs.
Proof. intros []; reflexivity. Qed.

Lemma replies_holds w sc args r f : dependable w -> (forall x v, scope_get sc x = Some v -> wf v = true) -> replies w f ->
  exists o, holds w sc args r f o /\ tidy o.
Proof.
  intros Hw Hv [| |n H|].
  - exists (environment (w_env w) r). split; [ constructor | apply tidy_environment ].
  - exists (scope_get sc r). split; [ constructor | ]. intros v E. exact (Hv r v E).
  - destruct (H args r) as (v & E). exists v. split; [ constructor; exact E | ].
    destruct (dp_call w Hw (FnTop n) (ALookupKey args r)) as [(v' & E' & T)|(x & E')].
    + specialize (E []). specialize (E' []). rewrite E in E'. injection E' as <-. exact T.
    + specialize (E []). specialize (E' []). congruence.
  - exists None. split; [ constructor | exact tidy_none ].
Qed.

Lemma picks_impl {L} (f g : L -> option value -> Prop) s l o : (forall x o, f x o -> g x o) -> picks f s l o -> picks g s l o.
Proof.
  intros H [pre x post v Hpre Hx|l' Hn|g1 l' outs Hne Ha].
  - apply pk_first; [ | exact (H _ _ Hx) ]. exact (Forall_impl _ (fun y Hy => H y None Hy) Hpre).
  - apply pk_none. exact (Forall_impl _ (fun y Hy => H y None Hy) Hn).
  - apply pk_merge; [ exact Hne | ]. induction Ha; constructor; auto.
Qed.

Lemma reaches_impl {L} (f g : L -> option value -> Prop) (p q : L -> err -> Prop) s l x :
  (forall x o, f x o -> g x o) -> (forall y e, p y e -> q y e) -> reaches_failure f p s l x -> reaches_failure g q s l x.
Proof.
  intros H K [pre y post e Hpre Hy|g1 pre y post outs e Hne Ha Hy].
  - apply rf_first; [ | exact (K _ _ Hy) ]. exact (Forall_impl _ (fun z Hz => H z None Hz) Hpre).
  - apply rf_merge with (outs := outs); [ exact Hne | | exact (K _ _ Hy) ]. induction Ha; constructor; auto.
Qed.

Section Many.
  Variables (w : world) (fs : list lkfn) (cf : list (string * rconfig)) (sh : list (string * shared)) (ps : list provider)
            (rc : rconfig) (all : option value).
  Hypothesis Hmux : w_mux w = Some fs.
  Hypothesis Hone : configs fs <= 1.
  Hypothesis Hd : NoDup (map p_id ps).
  Hypothesis Hf : Forall (fun p => e_function (p_entry p) <> None) ps.
  Hypothesis Hcf : aget (w_cfgpath w) cf = Some rc.
  Hypothesis Hps : rc_providers rc = ps.
  Hypothesis Hall : rc_luopts rc = as_map all.
  Hypothesis Hmod : rc_module rc = "".
  Let es := map p_entry ps.

  Lemma loose_breaks i A (m : M st A) e : iv_expl i = false ->
    (forall i' cf', iv_expl i' = false -> iv_scope i' = iv_scope i -> breaks sh (good w i' cf' sh ps) m e) ->
    breaks sh (loose w i cf sh ps) m e.
  Proof. intros Hi H s (lo & g & G). exact (H (iv_with_strat g (iv_with_luopts lo i)) cf Hi eq_refl s G). Qed.

  (** *** The question for lookup options *)

  Lemma option_yields rec i r rk args : iv_expl i = false -> iv_mode i = MdLookup -> new_key r = Ok rk ->
    forall f o, option_is w (iv_scope i) args r all f o -> yields (good w i cf sh ps) (call_lk w rec f args r) o.
  Proof.
    intros Hi Hm Hp f o [lo Hlo|f' o' H].
    - intros s G. exists s. split; [ | exact G ]. cbn [call_lk]. unfold config_lookup_at.
      unfold bind at 1. rewrite (config_there w cf sh ps rc Hcf rec i s G). unfold bind at 1, lift at 1. rewrite Hp.
      unfold bind at 1, run_op at 1. rewrite (g_iv _ _ _ _ _ _ G), Hm.
      unfold bind, lift. rewrite (options_of_model rc all r lo rk Hall Hmod Hp Hlo). reflexivity.
    - apply yields_gives; [ exact Hi | exact (holds_gives w rec _ args r f' o' H) ].
  Qed.

  Lemma options_scoped_yields rec i r rk args outs : iv_expl i = false -> new_key r = Ok rk ->
    Forall2 (option_is w (iv_scope i) args r all) fs outs ->
    yields (good w i cf sh ps) (run_scoped SLookup (merging (SDeep []) fs (fun f => call_lk w rec f args r))) (pure_lookup (SDeep []) outs).
  Proof.
    intros Hi Hp H s G.
    assert (Y : forall i', iv_expl i' = false -> iv_mode i' = MdLookup -> iv_scope i' = iv_scope i ->
      yields (good w i' cf sh ps) (merging (SDeep []) fs (fun f => call_lk w rec f args r)) (pure_lookup (SDeep []) outs)).
    { intros i' Xi Mi Si.
      apply (yields_picks _ (good_off w i' cf sh ps Xi) lkfn _ (option_is w (iv_scope i) args r all)).
      - intros f o _ Hfo. rewrite <- Si in Hfo. exact (option_yields rec i' r rk args Xi Mi Hp f o Hfo).
      - apply pk_merge; [ discriminate | exact H ]. }
    unfold run_scoped. rewrite (g_iv _ _ _ _ _ _ G).
    assert (C : exists s', with_copy (fun j => iv_with_mode MdLookup (iv_with_expl (iv_expl j && (x_options (s_ex s) || x_only (s_ex s))) j))
                             (merging (SDeep []) fs (fun f => call_lk w rec f args r)) s
                           = (Ok (pure_lookup (SDeep []) outs), s') /\ good w i cf sh ps s').
    { apply (copy_run w i _ cf sh ps _ _ _ s G). apply Y; [ | reflexivity | reflexivity ]. cbn. rewrite Hi. reflexivity. }
    destruct (iv_mode i) eqn:Em; [ exact C | exact (Y i Hi Em eq_refl s G) | exact C ].
  Qed.

  (** A root that is no key: the configuration refuses it. *)
  Lemma options_scoped_breaks rec i r args x pre post outs : iv_expl i = false -> misspelt r x -> fs = pre ++ LkConfig :: post ->
    Forall2 (holds w (iv_scope i) args r) pre outs ->
    breaks sh (good w i cf sh ps) (run_scoped SLookup (merging (SDeep []) fs (fun f => call_lk w rec f args r))) x.
  Proof.
    intros Hi Hp Hfs H s G. apply new_key_refused in Hp.
    assert (Y : forall i', iv_expl i' = false -> iv_scope i' = iv_scope i ->
      breaks sh (good w i' cf sh ps) (merging (SDeep []) fs (fun f => call_lk w rec f args r)) x).
    { intros i' Xi Si.
      apply (breaks_merging w (iv_scope i') sh ps _ (good_of w i' cf sh ps Xi)
               (fun f => call_lk w rec f args r) (holds w (iv_scope i) args r) (fun f y => f = LkConfig /\ y = x)).
      - intros f o _ Hfo. apply yields_gives; [ exact Xi | ]. rewrite Si. exact (holds_gives w rec _ args r f o Hfo).
      - intros f y _ [-> ->] s0 G0. exists s0. split; [ | exact (g_shared _ _ _ _ _ _ G0) ]. cbn [call_lk]. unfold config_lookup_at.
        unfold bind at 1. rewrite (config_there w cf sh ps rc Hcf rec i' s0 G0). unfold bind, lift. rewrite Hp. reflexivity.
      - rewrite Hfs. apply rf_merge with (outs := outs); [ discriminate | exact H | auto ]. }
    unfold run_scoped. rewrite (g_iv _ _ _ _ _ _ G).
    assert (C : exists s', with_copy (fun j => iv_with_mode MdLookup (iv_with_expl (iv_expl j && (x_options (s_ex s) || x_only (s_ex s))) j))
                             (merging (SDeep []) fs (fun f => call_lk w rec f args r)) s = (Panic x, s') /\ s_shared s' = sh).
    { apply (copy_breaks w i _ cf sh ps _ _ _ s G). apply Y; [ | reflexivity ]. cbn. rewrite Hi. reflexivity. }
    destruct (iv_mode i) eqn:Em; [ exact C | exact (Y i Hi eq_refl s G) | exact C ].
  Qed.

  (** *** The question for data *)

  Section Data.
    Variables (N : nat) (i : iv) (r : string) (rk : key) (args : entries) (g : strategy).
    Let rec := run w N.
    Hypothesis Hi : iv_expl i = false.
    Hypothesis Hm : iv_mode i = MdData.
    Hypothesis Hg : iv_strat i = Some g.
    Hypothesis Hp : new_key r = Ok rk.
    (** What becomes of the hierarchy. *)
    Variable hierarchy : fate (option value) -> Prop.
    Hypothesis Hh : forall ft, hierarchy ft -> meets sh (loose w i cf sh ps) (loose w i cf sh ps) (merging g ps (merge_locations w rec rk g)) ft.
    Let call := fun f => call_lk w rec f args r.
    Let stage := stage w cf sh ps i g.

    Inductive datum : lkfn -> fate (option value) -> Prop :=
    | dt_config : forall ft, hierarchy ft -> datum LkConfig ft
    | dt_other : forall f o, holds w (iv_scope i) args r f o -> datum f (Gives o).

    Lemma call_lands b f l ft s : left_over b (f :: l) -> stage b s -> datum f ft ->
      match ft with
      | Gives o => exists b' s', call f s = (Ok o, s') /\ stage b' s' /\ left_over b' l
      | _ => lands sh (fun _ => True) (call f s) ft
      end.
    Proof.
      intros Hl Hs Hfrom. revert Hl. destruct Hfrom as [ft H|f' o' H]; intro Hl.
      - destruct b; [ | cbn in Hl; discriminate Hl ]. destruct Hs as [G Hg'].
        pose proof (Hh ft H s (good_loose _ _ _ _ _ _ G)) as Y.
        assert (E : call LkConfig s = merging g ps (merge_locations w rec rk g) s).
        { unfold call. cbn [call_lk]. unfold config_lookup_at. unfold bind at 1. rewrite (config_there w cf sh ps rc Hcf rec i s G).
          unfold bind at 1, lift at 1. rewrite Hp. unfold bind at 1, run_op at 1.
          rewrite (g_iv _ _ _ _ _ _ G), Hm. unfold bind at 1, run_op at 1. rewrite (g_iv _ _ _ _ _ _ G), Hg, Hps. reflexivity. }
        rewrite E. destruct ft as [o|x|]; cbn [lands] in *.
        + destruct Y as (s' & E' & L). exists false, s'. split; [ exact E' | split; [ exact L | cbn in *; lia ] ].
        + exact Y.
        + exact Y.
      - assert (Hl' : left_over b l) by (unfold left_over in *; rewrite (holds_config _ _ _ _ _ _ _ H) in Hl; exact Hl).
        exists b. destruct b.
        + destruct Hs as [G Hg'].
          destruct (yields_gives w i cf sh ps _ _ _ Hi (holds_gives w rec _ args r f' o' H) s G) as (s' & E & G').
          exists s'. split; [ exact E | split; [ split; assumption | exact Hl' ] ].
        + destruct (loose_all w i cf sh ps _ (call f') o' Hi) with (s := s) as (s' & E & G'); [ | exact Hs | ].
          { intros i' cf' sh' X Y. apply yields_gives; [ exact X | ]. rewrite Y. exact (holds_gives w rec _ args r f' o' H). }
          exists s'. split; [ exact E | split; [ exact G' | exact Hl' ] ].
    Qed.

    Lemma calls_consult : forall l1 b l2 outs s, left_over b (l1 ++ l2) -> stage b s ->
      Forall2 (fun f o => datum f (Gives o)) l1 outs ->
      exists b' s', consults call l1 s outs s' /\ stage b' s' /\ left_over b' l2.
    Proof.
      induction l1 as [|f l1 IH]; intros b l2 outs s Hl Hs H;
        (destruct outs as [|o outs']; [ try solve [ inversion H ] | try solve [ inversion H ]; inversion H as [|? ? ? ? Hfo Hr] ]).
      - exists b, s. split; [ constructor | auto ].
      - destruct (call_lands b f (l1 ++ l2) (Gives o) s Hl Hs Hfo) as (b1 & s1 & E1 & S1 & L1).
        destruct (IH b1 l2 outs' s1 L1 S1 Hr) as (b2 & s2 & C2 & S2 & L2).
        exists b2, s2. split; [ exact (con_cons _ f l1 s o s1 outs' s2 E1 C2) | auto ].
    Qed.

    Lemma nones l : Forall (fun f => datum f (Gives None)) l -> Forall2 (fun f o => datum f (Gives o)) l (map (fun _ => None) l).
    Proof. induction 1; constructor; auto. Qed.

    (** What becomes of the functions together. *)
    Inductive together : fate (option value) -> Prop :=
    | tg_gives : forall o, picks (fun f o => datum f (Gives o)) g fs o -> together (Gives o)
    | tg_fails : forall x, reaches_failure (fun f o => datum f (Gives o)) (fun f x => datum f (Fails x)) g fs x -> together (Fails x)
    | tg_never : reaches_failure (fun f o => datum f (Gives o)) (fun f _ => datum f Never) g fs EOther -> together Never.

    Lemma together_meets ft : together ft -> meets sh (good w i cf sh ps) (loose w i cf sh ps) (merging g fs call) ft.
    Proof.
      intros H s G. assert (S0 : stage true s) by (split; assumption).
      assert (Ho : off s) by exact (good_off w i cf sh ps Hi s G).
      assert (Hoff : forall f s, off s -> off (snd (call f s))) by exact (call_off w N args r).
      assert (Stop : forall pre p post outs ft', fs = pre ++ p :: post -> Forall2 (fun f o => datum f (Gives o)) pre outs ->
        (g = SFirst -> forall o, In o outs -> o = None) -> (forall o, ft' <> Gives o) -> datum p ft' ->
        lands sh (loose w i cf sh ps) (merging g fs call s) ft').
      { intros pre p post outs ft' Efs Hpre Hnone Hft Hpt.
        assert (Hl : left_over true (pre ++ p :: post)) by (cbn; rewrite <- Efs; exact Hone).
        destruct (calls_consult pre true (p :: post) outs s Hl S0 Hpre) as (b1 & s1 & C1 & S1 & L1).
        pose proof (call_lands b1 p post ft' s1 L1 S1 Hpt) as Q. rewrite Efs.
        rewrite (merging_halts call Hoff g pre p post s outs s1 Ho C1 Hnone).
        - destruct ft' as [o|x|]; [ destruct (Hft o eq_refl) | exact Q | exact Q ].
        - intros v Ev. destruct ft' as [o|x|]; [ destruct (Hft o eq_refl) | | ]; cbn [lands] in Q.
          + destruct Q as (s' & E & _). rewrite E in Ev. discriminate.
          + rewrite Q in Ev. discriminate. }
      destruct H as [o H|x H|H].
      - assert (T : exists s', taken call g fs s o s' /\ loose w i cf sh ps s').
        { pose proof Hone as Hl. revert Hl. remember g as g0 eqn:Eg in H. remember fs as l0 eqn:El in H.
          destruct H as [pre x post v Hpre Hx|l Hn|g1 l outs Hne Ha]; rewrite <- El; rewrite <- Eg; intro Hl.
          - destruct (calls_consult pre true (x :: post) _ s Hl S0 (nones pre Hpre)) as (b1 & s1 & C1 & S1 & L1).
            destruct (call_lands b1 x post (Gives (Some v)) s1 L1 S1 Hx) as (b2 & s2 & E2 & S2 & L2).
            exists s2. split; [ exact (tk_first _ pre x post s _ s1 v s2 C1 (nones_in pre) E2) | exact (stage_loose w cf sh ps i g b2 s2 S2) ].
          - rewrite <- (app_nil_r l) in Hl.
            destruct (calls_consult l true [] _ s Hl S0 (nones l Hn)) as (b1 & s1 & C1 & S1 & L1).
            exists s1. split; [ exact (tk_none _ l s _ s1 C1 (nones_in l)) | exact (stage_loose w cf sh ps i g b1 s1 S1) ].
          - rewrite <- (app_nil_r l) in Hl.
            destruct (calls_consult l true [] _ s Hl S0 Ha) as (b1 & s1 & C1 & S1 & L1).
            exists s1. split; [ exact (tk_merge _ g1 l s outs s1 Hne C1) | exact (stage_loose w cf sh ps i g b1 s1 S1) ]. }
        destruct T as (s' & T & L). exists s'. split; [ | exact L ]. exact (merging_taken call Hoff g fs s o s' Ho T).
      - remember g as g0 eqn:Eg in H. remember fs as l0 eqn:El in H. destruct H as [pre p post x Hpre Hx|g1 pre p post outs x Hne Ha Hx].
        + refine (Stop pre p post _ (Fails x) (eq_sym El) (nones pre Hpre) (fun _ => nones_in pre) _ Hx). discriminate.
        + refine (Stop pre p post outs (Fails x) (eq_sym El) Ha _ _ Hx); [ congruence | discriminate ].
      - remember EOther as y eqn:Ey in H. clear Ey. remember g as g0 eqn:Eg in H. remember fs as l0 eqn:El in H. destruct H as [pre p post x Hpre Hx|g1 pre p post outs x Hne Ha Hx].
        + refine (Stop pre p post _ Never (eq_sym El) (nones pre Hpre) (fun _ => nones_in pre) _ Hx). discriminate.
        + refine (Stop pre p post outs Never (eq_sym El) Ha _ _ Hx); [ congruence | discriminate ].
    Qed.
  End Data.

  (** *** What the hierarchy comes to *)

  Lemma hierarchy_meets N i r rk g (value_is : value -> option value -> Prop) (value_fails : value -> err -> Prop) :
    iv_expl i = false -> new_key r = Ok rk ->
    (forall v o, value_is v o -> yields (loose w i cf sh ps) (interpolate (run w N) true v) o) ->
    (forall v x, value_fails v x -> breaks sh (loose w i cf sh ps) (interpolate (run w N) true v) x) ->
    (forall o, hierarchy_gives w (iv_scope i) value_is r g es o -> meets sh (loose w i cf sh ps) (loose w i cf sh ps) (merging g ps (merge_locations w (run w N) rk g)) (Gives o)) /\
    (forall x, hierarchy_fails w (iv_scope i) value_is value_fails r g es x -> meets sh (loose w i cf sh ps) (loose w i cf sh ps) (merging g ps (merge_locations w (run w N) rk g)) (Fails x)).
  Proof.
    intros Hi Hp Hv Hx.
    assert (Of : forall s, loose w i cf sh ps s -> exists i' cf' sh', iv_expl i' = false /\ iv_scope i' = iv_scope i /\ good w i' cf' sh' ps s)
      by (intro s0; exact (loose_of w i cf sh ps s0 Hi)).
    assert (All : forall A (m : M st A) a, (forall i' cf' sh', iv_expl i' = false -> iv_scope i' = iv_scope i -> yields (good w i' cf' sh' ps) m a) ->
      yields (loose w i cf sh ps) m a) by (intros A m a; exact (loose_all w i cf sh ps A m a Hi)).
    split.
    - intros o H. exact (hierarchy_yields w (run w N) (iv_scope i) ps (loose w i cf sh ps) Of (fun A m a Q => All A m a (frames_yields w _ ps A m a Hd Q)) value_is Hv rk r g o Hp Hf H).
    - intros x H. refine (hierarchy_breaks w (run w N) (iv_scope i) sh ps Hd (loose w i cf sh ps) Of All _ value_is Hv value_fails Hx rk r g x Hp Hf H).
      intros A m e. exact (loose_breaks i A m e Hi).
  Qed.

  Lemma hierarchy_never N i r x0 qs g (value_is : value -> option value -> Prop) (stuck : value -> Prop) :
    iv_expl i = false -> new_key r = Ok (mk_key r (PStr x0 :: qs)) ->
    (forall v o, value_is v o -> yields (loose w i cf sh ps) (interpolate (run w N) true v) o) ->
    (forall v, stuck v -> diverges (loose w i cf sh ps) (interpolate (run w N) true v)) ->
    stuck_hierarchy w (iv_scope i) value_is stuck r x0 g es ->
    meets sh (loose w i cf sh ps) (loose w i cf sh ps) (merging g ps (merge_locations w (run w N) (mk_key r (PStr x0 :: qs)) g)) Never.
  Proof.
    intros Hi Hp Hv Hx H.
    assert (Of : forall s, loose w i cf sh ps s -> exists i' cf' sh', iv_expl i' = false /\ iv_scope i' = iv_scope i /\ good w i' cf' sh' ps s)
      by (intro s0; exact (loose_of w i cf sh ps s0 Hi)).
    assert (All : forall A (m : M st A) a, (forall i' cf' sh', iv_expl i' = false -> iv_scope i' = iv_scope i -> yields (good w i' cf' sh' ps) m a) ->
      yields (loose w i cf sh ps) m a) by (intros A m a; exact (loose_all w i cf sh ps A m a Hi)).
    exact (hierarchy_stuck w (run w N) (iv_scope i) ps Hd (loose w i cf sh ps) Of All value_is Hv stuck Hx r x0 qs Hp g Hf H).
  Qed.

  (** *** Conversion *)

  Inductive turned (cv : option (string * option (list value))) (v : option value) : fate (option value) -> Prop :=
  | tu_gives : forall x, converted w cv v x -> turned cv v (Gives x)
  | tu_fails : forall t a ty v0 x, cv = Some (t, a) -> w_parse_type w t = Ok ty -> ty <> CSensitive \/ a <> None -> v = Some v0 ->
      w_new w ty v0 (match a with Some l => l | None => [] end) = Panic x -> turned cv v (Fails x).
  Definition carried cv (ft ft' : fate (option value)) : Prop :=
    match ft with Gives v => turned cv v ft' | Fails x => ft' = Fails x | Never => ft' = Never end.
  Definition parsed (cv : option (string * option (list value))) : Prop :=
    forall t a, cv = Some (t, a) -> exists ty, w_parse_type w t = Ok ty.

  Lemma converted_parsed cv v x : converted w cv v x -> parsed cv.
  Proof. intros [o|t a ty Ht|t y Ht|t a ty y y' Ht Hty Hnew] t0 a0 E; try discriminate; injection E as <- <-; eauto. Qed.

  Lemma redacted_lands b i A (m : M st A) ft s : iv_redacted i = false ->
    meets sh (good w (iv_with_redacted true i) cf sh ps) (loose w (iv_with_redacted true i) cf sh ps) m ft -> b = true ->
    good w i cf sh ps s -> lands sh (loose w i cf sh ps) (run_scoped SRedacted m s) ft.
  Proof.
    intros Hr H _ G. unfold run_scoped. rewrite (g_iv _ _ _ _ _ _ G), Hr.
    pose proof (H (with_iv (iv_with_redacted true i) s) (good_with_iv _ _ _ _ _ _ _ G)) as K.
    destruct ft as [a|x|]; cbn [lands] in *.
    - destruct K as (s' & E & (lo' & g' & G')). rewrite E. eexists. split; [ reflexivity | ]. exists lo', g'. rewrite (g_iv _ _ _ _ _ _ G').
      replace (iv_with_redacted false (iv_with_strat g' (iv_with_luopts lo' (iv_with_redacted true i))))
        with (iv_with_strat g' (iv_with_luopts lo' i)) by (destruct i; cbn in *; subst; reflexivity).
      exact (good_with_iv _ _ _ _ _ _ _ G').
    - destruct K as (s' & E & G'). rewrite E. eexists. split; [ reflexivity | exact G' ].
    - destruct (m _) as [o s'] eqn:E. cbn [fst] in K. subst o. reflexivity.
  Qed.

  Lemma converting_lands i lo cv (fn : M st (option value)) ft ft' t : iv_luopts i = lo -> conversion_is lo cv -> parsed cv ->
    meets sh (good w (iv_with_redacted (iv_redacted i || hides w cv) i) cf sh ps)
             (loose w (iv_with_redacted (iv_redacted i || hides w cv) i) cf sh ps) fn ft ->
    carried cv ft ft' -> good w i cf sh ps t -> lands sh (loose w i cf sh ps) (lookup_and_convert w fn t) ft'.
  Proof.
    intros Hl Hcv Hty Hfn Hft G.
    assert (Ri : forall j, iv_with_redacted (iv_redacted j) j = j) by (intros []; reflexivity).
    assert (Run : lands sh (loose w i cf sh ps)
              ((match cv with Some (u, _) => match w_parse_type w u with Ok CSensitive => run_scoped SRedacted fn | _ => fn end | None => fn end) t) ft).
    { destruct (hides w cv) eqn:Eh.
      - assert (E : (match cv with Some (u, _) => match w_parse_type w u with Ok CSensitive => run_scoped SRedacted fn | _ => fn end | None => fn end) = run_scoped SRedacted fn).
        { unfold hides in Eh. destruct cv as [[u a]|]; [ | discriminate ]. destruct (w_parse_type w u) as [[|]| | |]; try discriminate. reflexivity. }
        rewrite E. clear E. destruct (iv_redacted i) eqn:Er.
        + unfold run_scoped. rewrite (g_iv _ _ _ _ _ _ G), Er. cbn [orb] in Hfn. rewrite <- Er, Ri in Hfn. exact (Hfn t G).
        + exact (redacted_lands true i _ fn ft t Er Hfn eq_refl G).
      - assert (E : (match cv with Some (u, _) => match w_parse_type w u with Ok CSensitive => run_scoped SRedacted fn | _ => fn end | None => fn end) = fn).
        { unfold hides in Eh. destruct cv as [[u a]|]; [ | reflexivity ]. destruct (w_parse_type w u) as [[|]| | |]; try discriminate; reflexivity. }
        rewrite E. clear E. rewrite orb_false_r, Ri in Hfn. exact (Hfn t G). }
    unfold lookup_and_convert, extract_conversion. unfold bind at 1. unfold bind at 1. unfold run_op at 1.
    rewrite (g_iv _ _ _ _ _ _ G), Hl, (conversion_model lo cv Hcv).
    destruct cv as [[u a]|]; cbn [option_map fst snd].
    - destruct (Hty u a eq_refl) as (ty & Ht). rewrite Ht in Run. unfold bind at 1, lift at 1. rewrite Ht. unfold ret at 1.
      assert (Run' : lands sh (loose w i cf sh ps) ((match Some (ty, a) with Some (CSensitive, _) => run_scoped SRedacted fn | _ => fn end) t) ft)
        by (destruct ty; exact Run). clear Run. rename Run' into Run.
      destruct ft as [v|x|]; cbn [carried] in Hft.
      + eapply lands_bind; [ exact Run | ]. intros t1 L1. destruct Hft as [x Hx|t0 a0 ty0 v0 x E Ht0 Hty0 Ev Hnew].
        * remember (Some (u, a)) as cv eqn:Ec in Hx. destruct Hx as [o|t2 a2 ty2 Ht2|t2 y Ht2|t2 a2 ty2 y y' Ht2 Hty2 Hnew];
            [ discriminate Ec | | | ]; injection Ec as E3 E4; subst t2; try subst a2; try (rewrite Ht in Ht2; injection Ht2 as Ety).
          -- exists t1. split; [ reflexivity | exact L1 ].
          -- subst a. rewrite Ety. exists t1. split; [ reflexivity | exact L1 ].
          -- rewrite Ety. exists t1. split; [ | exact L1 ]. unfold bind, lift, convert, ret.
             destruct ty2 as [|tt]; [ destruct a as [a|]; [ | destruct Hty2; congruence ] | ]; rewrite Hnew; reflexivity.
        * injection E as E3 E4. subst t0 a0. rewrite Ht in Ht0. injection Ht0 as Ety. rewrite Ety, Ev. exists t1.
          split; [ | destruct L1 as (? & ? & G1); exact (g_shared _ _ _ _ _ _ G1) ]. unfold bind, lift, convert.
          destruct ty0 as [|tt]; [ destruct a as [a|]; [ | destruct Hty0; congruence ] | ]; rewrite Hnew; reflexivity.
      + subst ft'. apply (lands_stop _ _ sh (loose w i cf sh ps) (loose w i cf sh ps) _ _ (Fails x) t); [ discriminate | exact Run ].
      + subst ft'. apply (lands_stop _ _ sh (loose w i cf sh ps) (loose w i cf sh ps) _ _ Never t); [ discriminate | exact Run ].
    - unfold ret at 1. destruct ft as [v|x|]; cbn [carried] in Hft.
      + eapply lands_bind; [ exact Run | ]. intros t1 L1. destruct Hft as [x Hx|t0 a0 ty0 v0 x E]; [ | discriminate E ].
        remember None as cv eqn:Ec in Hx. destruct Hx as [o|t2 a2 ty2 Ht2|t2 y Ht2|t2 a2 ty2 y y' Ht2 Hty2 Hnew]; try discriminate Ec.
        exists t1. split; [ destruct o; reflexivity | exact L1 ].
      + subst ft'. apply (lands_stop _ _ sh (loose w i cf sh ps) (loose w i cf sh ps) _ _ (Fails x) t); [ discriminate | exact Run ].
      + subst ft'. apply (lands_stop _ _ sh (loose w i cf sh ps) (loose w i cf sh ps) _ _ Never t); [ discriminate | exact Run ].
  Qed.

  (** *** After the lookup options are known *)

  Definition afterwards (N : nat) (r : string) (opts : option entries) (lo : option entries) : M st (option value) :=
    bind (set_merge (mgets "merge" (handed opts)) lo) (fun _ =>
      lookup_and_convert w
        (bind (run_op OStrat) (fun s =>
         match s with
         | None => panic nil_deref
         | Some s => merging s fs (fun f => call_lk w (run w N) f (handed opts) r)
         end))).

  Section After.
    Variables (N : nat) (i : iv) (r : string) (rk : key) (opts lo : option entries) (mo : option value).
    Hypothesis Hi : iv_expl i = false.
    Hypothesis Hm : iv_mode i = MdData.
    Hypothesis Hp : new_key r = Ok rk.
    Hypothesis Hmo : merge_option opts lo mo.
    Let after := afterwards N r opts lo.

    Lemma after_unknown t : (forall s, ~ strategy_is mo s) -> misnamed mo t ->
      meets sh (good w i cf sh ps) (loose w i cf sh ps) after (Fails (EErr ("unknown merge strategy '" ++ t ++ "'"))).
    Proof.
      intros Hno Hn s G. unfold after, afterwards. unfold set_merge. unfold bind at 1. unfold bind at 1.
      unfold handed. rewrite (merge_source w opts lo mo i cf sh ps s Hmo Hi G).
      unfold bind, lift, run_op. rewrite (strategy_unknown mo Hno), (misnamed_text mo t Hn).
      eexists. split; [ reflexivity | exact (g_shared _ _ _ _ _ _ G) ].
    Qed.

    Variable g : strategy.
    Hypothesis Hst : strategy_is mo g.
    Let i1 := iv_with_strat (Some g) (iv_with_luopts lo i).

    Lemma after_no_type : no_type lo -> meets sh (good w i cf sh ps) (loose w i cf sh ps) after (Fails (EErr "interface conversion")).
    Proof.
      intros Hnt s G. unfold after, afterwards.
      destruct (set_merge_run w i cf sh ps opts lo mo g s Hi Hmo Hst G) as (t1 & E & G2). fold (handed opts) in E.
      unfold bind at 1. rewrite E. exists t1. split; [ | exact (g_shared _ _ _ _ _ _ G2) ].
      unfold lookup_and_convert, extract_conversion, bind, run_op.
      rewrite (g_iv _ _ _ _ _ _ G2). cbn [iv_with_strat iv_with_luopts iv_luopts].
      destruct (no_type_model lo Hnt) as (v & a & Ev & Hv). rewrite Ev.
      destruct v; try reflexivity. destruct (Hv _ eq_refl).
    Qed.

    Lemma after_type u a x : conversion_is lo (Some (u, a)) -> w_parse_type w u = Panic x ->
      meets sh (good w i cf sh ps) (loose w i cf sh ps) after (Fails x).
    Proof.
      intros Hcv Ht s G. unfold after, afterwards.
      destruct (set_merge_run w i cf sh ps opts lo mo g s Hi Hmo Hst G) as (t1 & E & G2). fold (handed opts) in E.
      unfold bind at 1. rewrite E. exists t1. split; [ | exact (g_shared _ _ _ _ _ _ G2) ].
      unfold lookup_and_convert, extract_conversion, bind, run_op.
      rewrite (g_iv _ _ _ _ _ _ G2). cbn [iv_with_strat iv_with_luopts iv_luopts]. rewrite (conversion_model lo _ Hcv).
      cbn [option_map fst snd]. unfold lift. rewrite Ht. reflexivity.
    Qed.

    (** Values are asked for by an invocation that may hide what it says. *)
    Variables (cv : option (string * option (list value))).
    Hypothesis Hcv : conversion_is lo cv.
    Hypothesis Hty : parsed cv.
    Let ib := iv_with_redacted (iv_redacted i || hides w cv) i1.
    Variable hierarchy : fate (option value) -> Prop.
    Hypothesis Hh : forall ft, hierarchy ft -> meets sh (loose w ib cf sh ps) (loose w ib cf sh ps) (merging g ps (merge_locations w (run w N) rk g)) ft.

    Lemma after_meets ft ft' : together ib r (handed opts) g hierarchy ft -> carried cv ft ft' ->
      meets sh (good w i cf sh ps) (loose w i cf sh ps) after ft'.
    Proof.
      intros Ht Hc s G. unfold after, afterwards.
      destruct (set_merge_run w i cf sh ps opts lo mo g s Hi Hmo Hst G) as (t1 & E & G2). fold (handed opts) in E.
      unfold bind at 1. rewrite E. clear E. fold i1 in G2.
      apply lands_weak with (Q := loose w i1 cf sh ps); [ intros t L; exact (loose_loose _ _ _ _ _ _ _ _ L) | ].
      refine (converting_lands i1 lo cv _ ft ft' t1 eq_refl Hcv Hty _ Hc G2).
      intros t Gt. change (iv_redacted i1) with (iv_redacted i) in *. fold ib in Gt |- *.
      unfold bind, run_op. rewrite (g_iv _ _ _ _ _ _ Gt). cbn [ib i1 iv_with_redacted iv_with_strat iv_strat].
      exact (together_meets N ib r rk (handed opts) g Hi Hm eq_refl Hp hierarchy Hh ft Ht t Gt).
    Qed.
  End After.

  (** *** The whole *)

  Lemma mux_start N i r rk opts lo s : iv_expl i = false -> iv_mode i = MdData -> new_key r = Ok rk ->
    options_say w (iv_scope i) all fs r opts lo -> loose w i cf sh ps s ->
    exists s1 lo0 g0, good w (iv_with_strat g0 (iv_with_luopts lo0 i)) cf sh ps s1 /\
      mux_lookup w (run w N) (handed opts) r s = afterwards N r opts lo s1.
  Proof.
    intros Hi Hm Hp (outs & Ho & Hlo) (lo0 & g0 & G). set (j := iv_with_strat g0 (iv_with_luopts lo0 i)) in *.
    destruct (options_scoped_yields (run w N) j r rk (handed opts) outs Hi Hp Ho s G) as (s1 & E1 & G1).
    exists s1, lo0, g0. split; [ exact G1 | ]. unfold mux_lookup. rewrite Hmux.
    unfold bind at 1. rewrite E1. unfold run_scoped at 1. rewrite (g_iv _ _ _ _ _ _ G1). change (iv_mode j) with (iv_mode i). rewrite Hm.
    rewrite (map_of_model _ _ Hlo). unfold bind at 1, lift at 1. rewrite Hp. rewrite node_off by exact (good_off w j cf sh ps Hi s1 G1). reflexivity.
  Qed.

  (** What is found, and how it fails, when values do what they must. *)
  Section Found.
    Variables (N : nat) (i : iv) (r : string) (opts : option entries).
    Variables (value_is : value -> option value -> Prop) (value_fails : value -> err -> Prop).
    Hypothesis Hi : iv_expl i = false.
    Hypothesis Hm : iv_mode i = MdData.
    Hypothesis Hv : forall b v o, value_is v o -> yields (loose w (iv_with_redacted b i) cf sh ps) (interpolate (run w N) true v) o.
    Hypothesis Hx : forall b v x, value_fails v x -> breaks sh (loose w (iv_with_redacted b i) cf sh ps) (interpolate (run w N) true v) x.

    (** From any strategy and options that the invocation has. *)
    Definition comes_after (ft : fate (option value)) : Prop :=
      exists rk lo, new_key r = Ok rk /\ options_say w (iv_scope i) all fs r opts lo /\
        forall lo0 g0, meets sh (good w (iv_with_strat g0 (iv_with_luopts lo0 i)) cf sh ps) (loose w i cf sh ps) (afterwards N r opts lo) ft.

    Let Hier : forall b rk g lo lo0 g0, new_key r = Ok rk -> let j := iv_with_strat g0 (iv_with_luopts lo0 i) in
      let ib := iv_with_redacted b (iv_with_strat (Some g) (iv_with_luopts lo j)) in
      (forall o, hierarchy_gives w (iv_scope i) value_is r g es o -> meets sh (loose w ib cf sh ps) (loose w ib cf sh ps) (merging g ps (merge_locations w (run w N) rk g)) (Gives o)) /\
      (forall x, hierarchy_fails w (iv_scope i) value_is value_fails r g es x -> meets sh (loose w ib cf sh ps) (loose w ib cf sh ps) (merging g ps (merge_locations w (run w N) rk g)) (Fails x)).
    Proof.
      intros b rk g lo lo0 g0 Hp j ib.
      assert (Lb : forall t, loose w ib cf sh ps t <-> loose w (iv_with_redacted b i) cf sh ps t).
      { intro t0. split; intros (lo' & g' & G'); exists lo', g'; unfold ib, j in *; destruct i; exact G'. }
      apply (hierarchy_meets N ib r rk g value_is value_fails Hi Hp).
      - intros v o Hvo t L. apply Lb in L. destruct (Hv b v o Hvo t L) as (t' & E & L'). exists t'. split; [ exact E | apply Lb; exact L' ].
      - intros v x Hvx t L. apply Lb in L. exact (Hx b v x Hvx t L).
    Qed.

    Let back : forall lo0 g0 m (ft : fate (option value)), let j := iv_with_strat g0 (iv_with_luopts lo0 i) in
      meets sh (good w j cf sh ps) (loose w j cf sh ps) m ft -> meets sh (good w j cf sh ps) (loose w i cf sh ps) m ft.
    Proof.
      intros lo0 g0 m ft j H s G. apply lands_weak with (Q := loose w j cf sh ps); [ | exact (H s G) ].
      intros t L. exact (loose_loose _ _ _ _ _ _ _ _ L).
    Qed.

    Lemma finds_after x : finds w (iv_scope i) es all fs value_is r opts x -> comes_after (Gives x).
    Proof.
      intros (Hc & lo & mo & g & cv & v & Ho & Hmo & Hst & Hcv & Hpk & Hcon).
      destruct (correct_new r Hc) as (x0 & qs & _ & Hp). exists (mk_key r (PStr x0 :: qs)), lo.
      split; [ exact Hp | split; [ exact Ho | ] ]. intros lo0 g0. apply back.
      set (j := iv_with_strat g0 (iv_with_luopts lo0 i)) in *.
      set (hierarchy := fun ft => exists o, ft = Gives o /\ hierarchy_gives w (iv_scope i) value_is r g es o).
      apply (after_meets N j r (mk_key r (PStr x0 :: qs)) opts lo mo Hi Hm Hp Hmo g Hst cv Hcv (converted_parsed _ _ _ Hcon) hierarchy) with (ft := Gives v).
      + intros ft (o & -> & Hho). exact (proj1 (Hier _ _ g lo lo0 g0 Hp) o Hho).
      + apply tg_gives. revert Hpk. apply picks_impl. intros f o Hfo. destruct Hfo as [o Ho'|f o Ho']; [ apply dt_config; exists o; auto | apply dt_other; exact Ho' ].
      + cbn. apply tu_gives. exact Hcon.
    Qed.

    Lemma fails_after x : finding_fails w (iv_scope i) es all fs value_is value_fails r opts x -> misspelt r x \/ comes_after (Fails x).
    Proof.
      intros [Hb|lo mo t Hc Ho Hmo Hno Hmis ->|lo mo g Hc Ho Hmo Hst Hnt ->|lo mo g t a Hc Ho Hmo Hst Hcv Ht|lo mo g cv Hc Ho Hmo Hst Hcv Hty Hrf|lo mo g t a ty v Hc Ho Hmo Hst Hcv Ht Hne Hpk Hnew];
        [ left; exact Hb | right.. ].
      all: destruct (correct_new r Hc) as (x0 & qs & _ & Hp); exists (mk_key r (PStr x0 :: qs)), lo;
        (split; [ exact Hp | split; [ exact Ho | ] ]); intros lo0 g0; apply back;
        set (j := iv_with_strat g0 (iv_with_luopts lo0 i)) in *.
      + exact (after_unknown N j r opts lo mo Hi Hmo t Hno Hmis).
      + exact (after_no_type N j r opts lo mo Hi Hmo g Hst Hnt).
      + exact (after_type N j r opts lo mo Hi Hmo g Hst t a x Hcv Ht).
      + set (hierarchy := fun ft => (exists o, ft = Gives o /\ hierarchy_gives w (iv_scope i) value_is r g es o) \/
                                    (exists y, ft = Fails y /\ hierarchy_fails w (iv_scope i) value_is value_fails r g es y)).
        refine (after_meets N j r (mk_key r (PStr x0 :: qs)) opts lo mo Hi Hm Hp Hmo g Hst cv Hcv Hty hierarchy _ (Fails x) (Fails x) _ eq_refl).
        * intros ft [(o & -> & Hho)|(y & -> & Hho)]; [ exact (proj1 (Hier _ _ g lo lo0 g0 Hp) o Hho) | exact (proj2 (Hier _ _ g lo lo0 g0 Hp) y Hho) ].
        * apply tg_fails. revert Hrf. apply reaches_impl.
          -- intros f o [o' Ho'|f' o' Ho']; [ apply dt_config; left; eauto | apply dt_other; exact Ho' ].
          -- intros f y [y' Hy']. apply dt_config. right. eauto.
      + set (hierarchy := fun ft => exists o, ft = Gives o /\ hierarchy_gives w (iv_scope i) value_is r g es o).
        assert (Hty : parsed (Some (t, a))) by (intros t1 a1 E1; injection E1 as <- <-; eauto).
        refine (after_meets N j r (mk_key r (PStr x0 :: qs)) opts lo mo Hi Hm Hp Hmo g Hst (Some (t, a)) Hcv Hty hierarchy _ (Gives (Some v)) (Fails x) _ _).
        * intros ft (o & -> & Hho). exact (proj1 (Hier _ _ g lo lo0 g0 Hp) o Hho).
        * apply tg_gives. revert Hpk. apply picks_impl. intros f o Hfo. destruct Hfo as [o Ho'|f o Ho']; [ apply dt_config; exists o; auto | apply dt_other; exact Ho' ].
        * cbn. eapply tu_fails; eauto.
    Qed.

    (** The same of a lookup in a lookup. *)
    Lemma after_mux ft : comes_after ft -> meets sh (loose w i cf sh ps) (loose w i cf sh ps) (mux_lookup w (run w N) (handed opts) r) ft.
    Proof.
      intros (rk & lo & Hp & Ho & H) s L.
      destruct (mux_start N i r rk opts lo s Hi Hm Hp Ho L) as (s1 & lo0 & g0 & G1 & E). rewrite E. exact (H lo0 g0 s1 G1).
    Qed.

    Lemma found_meets :
      (forall x, finds w (iv_scope i) es all fs value_is r opts x -> yields (loose w i cf sh ps) (mux_lookup w (run w N) (handed opts) r) x) /\
      ((exists pre post, fs = pre ++ LkConfig :: post /\ Forall (fun f => exists o, holds w (iv_scope i) (handed opts) r f o) pre) ->
       forall x, finding_fails w (iv_scope i) es all fs value_is value_fails r opts x -> breaks sh (loose w i cf sh ps) (mux_lookup w (run w N) (handed opts) r) x).
    Proof.
      split.
      - intros x H. exact (after_mux (Gives x) (finds_after x H)).
      - intros (pre & post & Efs & Hpre) x Hff. destruct (fails_after x Hff) as [Hb|H]; [ | exact (after_mux (Fails x) H) ].
        intros s L.
        assert (Outs : exists outs, Forall2 (holds w (iv_scope i) (handed opts) r) pre outs).
        { clear -Hpre. induction Hpre as [|f l (o & Ho) _ (outs & IH)]; [ exists []; constructor | exists (o :: outs); constructor; assumption ]. }
        destruct Outs as (outs & Outs). destruct L as (lo0 & g0 & G). set (j := iv_with_strat g0 (iv_with_luopts lo0 i)) in *.
        destruct (options_scoped_breaks (run w N) j r (handed opts) x pre post outs Hi Hb Efs Outs s G) as (s1 & E1 & G1).
        exists s1. split; [ | exact G1 ]. unfold mux_lookup. rewrite Hmux. unfold bind at 1. rewrite E1. reflexivity.
    Qed.
  End Found.
End Many.
