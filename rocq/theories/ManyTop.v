(** Lookups of sessions whose configuration is one of several functions that are
    asked: the first question makes the configuration known. *)

From Coq Require Import String Ascii List ZArith Bool Arith Lia.
From Verif Require Import Str Value Outcome Key Merge Fpath Config Ipl Explain State Engine Meta Fuel Session
  SpecKey SpecKeyErr SpecIpl SpecInterp SpecConfig SpecMerge SpecPath SpecLookup SpecFail SpecMux SpecMany SpecWorld
  KeyFacts KeyErrFacts ValueFacts MergeFacts MergeLookup StrFacts IplFacts InterpFacts IplExact ResolveFacts LookupExact LoaderFacts
  HierarchyExact LookupTop LookupFail FailExact FailText FailTop SettledLookup Acyclic Cycles RootFacts P_Options P_Mux MuxExact
  AnswerFacts FailMore Decided DecidedLevels DecidedNested DecidedOptions DecidedTop DeepEntry DeepConfig ManyExact ManyNested.
Import ListNotations.
Open Scope nat_scope.
Open Scope string_scope.
Open Scope list_scope.

(** An outcome that is no result, for another type of result. *)
Definition recast {A B} (o : outcome A) : outcome B :=
  match o with Ok _ => NoFuel | Panic x => Panic x | Hang => Hang | NoFuel => NoFuel end.

Lemma bind_stops {A B} (m : M st A) (f : A -> M st B) s o s' : (forall a, o <> Ok a) -> m s = (o, s') -> bind m f s = (recast o, s').
Proof. intros H E. unfold bind. rewrite E. destruct o as [a|x| |]; [ destruct (H a eq_refl) | | | ]; reflexivity. Qed.

Lemma recast_stops {A B} (o : outcome A) : forall b : B, recast o <> Ok b.
Proof. destruct o; discriminate. Qed.
Lemma recast_twice {A B C} (o : outcome A) : (forall a, o <> Ok a) -> @recast B C (recast o) = recast o.
Proof. intro H. destruct o as [a|x| |]; [ destruct (H a eq_refl) | | | ]; reflexivity. Qed.

Lemma copy_lands w i f cf sh ps A (m : M st A) s ft : good w i cf sh ps s ->
  meets sh (good w (f i) cf sh ps) (loose w (f i) cf sh ps) m ft -> lands sh (good w i cf sh ps) (with_copy f m s) ft.
Proof.
  intros G H. unfold with_copy. specialize (H (with_iv (f (s_iv s)) s)). rewrite (g_iv _ _ _ _ _ _ G) in *.
  specialize (H (good_with_iv _ _ _ _ _ _ _ G)).
  destruct ft as [a|x|]; cbn [lands] in *.
  - destruct H as (s' & E & (lo & g & G')). rewrite E. eexists. split; [ reflexivity | ]. exact (good_with_iv _ _ _ _ _ _ _ G').
  - destruct H as (s' & E & G'). rewrite E. eexists. split; [ reflexivity | exact G' ].
  - destruct (m (with_iv (f i) s)) as [o s']. exact H.
Qed.

Lemma consults_through {L} (f : L -> M st (option value)) pre x post s outs s1 v s2 outs' s3 :
  consults f pre s outs s1 -> f x s1 = (Ok v, s2) -> consults f post s2 outs' s3 -> consults f (pre ++ x :: post) s (outs ++ v :: outs') s3.
Proof.
  intros C E D. induction C as [s|y l s u s' outs s'' E' C IH]; [ exact (con_cons _ x post s v s2 outs' s3 E D) | ].
  exact (con_cons _ y _ s u s' _ s3 E' (IH E)).
Qed.

Section Top.
  Variables (w : world) (pre post : list lkfn).
  Let fs := pre ++ LkConfig :: post.
  Hypothesis Htop : w_top w = LkMux.
  Hypothesis Hmux : w_mux w = Some fs.
  Hypothesis Hpre : Forall (replies w) pre.
  Hypothesis Hpost : Forall (replies w) post.
  Hypothesis Hw : dependable w.
  Variable sc : scope.
  Hypothesis Hvars : forall x v, scope_get sc x = Some v -> wf v = true.

  Let Hone : configs fs <= 1.
  Proof.
    unfold fs. rewrite replies_one; [ exact (le_n 1) | | ]; eapply Forall_impl; try eassumption; intro f; exact (replies_other w f).
  Qed.

  (** The functions that read no configuration change nothing but the trace. *)
  Lemma others_run rec args r : forall l outs, Forall2 (holds w sc args r) l outs ->
    forall s, iv_scope (s_iv s) = sc -> off s ->
    exists s', consults (fun f => call_lk w rec f args r) l s outs s' /\ asked s s'.
  Proof.
    induction l as [|f l IH]; intros outs H s Hs Ho; inversion H as [|? o ? outs' Hfo Hr]; subst.
    - exists s. split; [ constructor | apply asked_refl ].
    - destruct (holds_gives w rec _ args r f o Hfo s eq_refl Ho) as (s1 & E1 & A1).
      pose proof (asked_iv _ _ A1) as I1.
      destruct (IH outs' Hr s1) as (s2 & C2 & A2).
      { rewrite I1. reflexivity. }
      { unfold off. rewrite I1. exact Ho. }
      exists s2. split; [ exact (con_cons _ f l s o s1 outs' s2 E1 C2) | ]. exact (asked_trans _ _ _ A1 A2).
  Qed.

  Lemma others_hold args r l : Forall (replies w) l -> exists outs, Forall2 (holds w sc args r) l outs.
  Proof.
    induction 1 as [|f l Hf _ (outs & IH)]; [ exists []; constructor | ].
    destruct (replies_holds w sc args r f Hw Hvars Hf) as (o & Ho & _). exists (o :: outs). constructor; assumption.
  Qed.

  (** ** Without the configuration nothing is found *)

  Section Stops.
    Variables (F : nat) (o : outcome rconfig) (S' : list (string * shared) -> Prop) (s : st).
    Hypothesis Hno : forall rc, o <> Ok rc.
    Hypothesis Hs : iv_scope (s_iv s) = sc.
    Hypothesis Ho : off s.
    Hypothesis Hget : forall t, iv_scope (s_iv t) = sc -> off t -> s_configs t = s_configs s -> s_shared t = s_shared s ->
      exists t', get_config w (run w F) (w_cfgpath w) "" t = (o, t') /\ S' (s_shared t').

    Lemma asking_stops args r t : iv_scope (s_iv t) = sc -> off t -> s_configs t = s_configs s -> s_shared t = s_shared s ->
      exists t', merging (SDeep []) fs (fun f => call_lk w (run w F) f args r) t = (recast o, t') /\ S' (s_shared t').
    Proof.
      intros Ts To Tc Th. destruct (others_hold args r pre Hpre) as (outs & Houts).
      destruct (others_run (run w F) args r pre outs Houts t Ts To) as (t1 & C1 & A1).
      destruct (asked_kept _ _ _ A1 Ts To) as [Ts1 To1].
      destruct (Hget t1 Ts1 To1) as (t2 & E2 & K2).
      { destruct A1 as [tr ->]. exact Tc. }
      { destruct A1 as [tr ->]. exact Th. }
      exists t2. split; [ | exact K2 ].
      assert (E : call_lk w (run w F) LkConfig args r t1 = (recast o, t2)).
      { cbn [call_lk]. unfold config_lookup_at. exact (bind_stops _ _ _ _ _ Hno E2). }
      unfold fs. rewrite (merging_halts (fun f => call_lk w (run w F) f args r) (call_off w F args r) (SDeep []) pre LkConfig post t outs t1 To C1); [ exact E | discriminate | ].
      intros v Ev. rewrite E in Ev. exact (recast_stops o v Ev).
    Qed.

    Lemma mux_stops args r : exists s', mux_lookup w (run w F) args r s = (recast o, s') /\ S' (s_shared s').
    Proof.
      unfold mux_lookup. rewrite Hmux.
      assert (E : exists s', run_scoped SLookup (merging (SDeep []) fs (fun f => call_lk w (run w F) f args r)) s = (recast o, s') /\ S' (s_shared s')).
      { assert (C : forall f : iv -> iv, iv_scope (f (s_iv s)) = sc -> iv_expl (f (s_iv s)) = false ->
          exists s', with_copy f (merging (SDeep []) fs (fun f => call_lk w (run w F) f args r)) s = (recast o, s') /\ S' (s_shared s')).
        { intros f Fs Fo. unfold with_copy.
          destruct (asking_stops args r (with_iv (f (s_iv s)) s) Fs Fo eq_refl eq_refl) as (t' & E & K). rewrite E.
          eexists. split; [ reflexivity | exact K ]. }
        unfold off in Ho. unfold run_scoped. destruct (iv_mode (s_iv s)).
        - apply C; [ exact Hs | cbn; rewrite Ho; reflexivity ].
        - apply asking_stops; auto.
        - apply C; [ exact Hs | cbn; rewrite Ho; reflexivity ]. }
      destruct E as (s' & E & K). exists s'. split; [ | exact K ].
      rewrite (bind_stops _ _ _ _ _ (recast_stops o) E). rewrite recast_twice by exact Hno. reflexivity.
    Qed.

    Lemma run_stops k opts r ps : k_parts k = PStr r :: ps -> r <> "lookup_options" ->
      exists s', lookup w (run w (S F)) k opts s = (recast o, s') /\ S' (s_shared s').
    Proof.
      intros Hk Hr. destruct (mux_stops (handed opts) r) as (s' & E & K). exists s'. split; [ | exact K ].
      unfold lookup. unfold bind at 1, lift at 1, root at 1. rewrite Hk. apply String.eqb_neq in Hr. rewrite Hr, Htop. cbn [call_lk].
      change (run w (S F) (RMux (match opts with Some o => o | None => [] end) r))
        with (bind (mux_lookup w (run w F) (handed opts) r) (fun v => ret (v, true))).
      assert (E1 : bind (mux_lookup w (run w F) (handed opts) r) (fun v => ret (v, true)) s = (recast o, s')).
      { rewrite (bind_stops _ _ _ _ _ (recast_stops o) E). rewrite recast_twice by exact Hno. reflexivity. }
      assert (E2 : bind (bind (mux_lookup w (run w F) (handed opts) r) (fun v => ret (v, true))) (fun r0 => ret (fst r0)) s = (recast o, s')).
      { rewrite (bind_stops _ _ _ _ _ (recast_stops o) E1). rewrite recast_twice by exact Hno. reflexivity. }
      rewrite (bind_stops _ _ _ _ _ (recast_stops o) E2). rewrite recast_twice by exact Hno. reflexivity.
    Qed.
  End Stops.

  Variables (c : config) (file : cfg_file).
  Hypothesis Hfile : forall t, w_config w t (w_cfgpath w) = file.
  Hypothesis Hconf : config_new (w_env w) (w_cfgpath w) file = Ok c.

  (** Without the lookup options nothing else can be looked up. *)
  Lemma starving_keys es n : (forall m, m <= n -> starve w sc c m) -> keys_decided w sc es Options (open w sc c es) (S n).
  Proof.
    intros Hn k r rest Ek. destruct (string_dec r "lookup_options") as [->|Hr].
    { left. exists None. split; [ left; exists rest; auto | exact tidy_none ]. }
    right. right. intros s Hs. rewrite (look_starts w Htop n k r rest None Ek Hr s). apply fst_bind. apply fst_bind. apply fst_bind.
    destruct n as [|m]; [ reflexivity | ].
    change (run w (S m) (RMux (handed None) r)) with (bind (mux_lookup w (run w m) (handed None) r) (fun v => ret (v, true))).
    apply fst_bind. destruct (open_shared w sc c es s Hs) as [H1 H2].
    destruct (mux_stops m NoFuel (fun _ => True) s) with (args := handed None) (r := r) as (s' & E & _).
    - discriminate.
    - exact (open_scope w sc c es s Hs).
    - exact (open_off w sc c es s Hs).
    - intros t Ts To Tc Th.
      assert (K : fst (get_config w (run w m) (w_cfgpath w) "" t) = NoFuel).
      { apply (Hn m); [ lia | exact To | exact Ts | congruence | ]. unfold shared_ok in *. rewrite Th. exact H2. }
      destruct (get_config w (run w m) (w_cfgpath w) "" t) as [o t']. cbn [fst] in K. subst o. eauto.
    - rewrite E. reflexivity.
  Qed.

  (** ** With the configuration *)

  Variables (N : nat) (es : list entry).
  Hypothesis Hh : created w (S (S N)) sc c es.
  Let i0 := new_iv sc false.
  Let id := iv_with_mode MdData (iv_with_expl false i0).

  Lemma options_settle n : described w sc es n \/ starve w sc c n.
  Proof. exact (options_settled_by w (S (S N)) sc c file es Hfile Hconf Hh Hw Hvars (starving_keys es) n). Qed.

  (** What is known of the configuration. *)
  Record knows (all : option value) (rc : rconfig) (sh : list (string * shared)) : Prop := mk_knows {
    kn_entries : map p_entry (rc_providers rc) = es;
    kn_ids : NoDup (map p_id (rc_providers rc));
    kn_options : rc_luopts rc = as_map all;
    kn_module : rc_module rc = "";
    kn_shared : aget (w_cfgpath w) sh = Some (ShLoaded c)
  }.

  Section Known.
    Variables (n : nat) (all : option value).
    Hypothesis HN : n <= S (S N).
    Hypothesis Ha : all_options w sc es n all.
    Variable s : st.
    Hypothesis Hs : s_iv s = i0.
    Hypothesis Hrd : ready w c es all s.
    Let rec := run w (S (S N)).

    (** The configuration is read when it is asked. *)
    Lemma config_asked args r outs : Forall2 (holds w sc args r) pre outs -> exists rc sh s1 s2,
      let f := fun j : iv => iv_with_mode MdLookup (iv_with_expl (iv_expl j && (x_options (s_ex s) || x_only (s_ex s))) j) in
      consults (fun f => call_lk w rec f args r) pre (with_iv (f i0) s) outs s1 /\
      get_config w rec (w_cfgpath w) "" s1 = (Ok rc, s2) /\ knows all rc sh /\
      good w (f i0) [(w_cfgpath w, rc)] sh (rc_providers rc) s2.
    Proof.
      intro Houts.
      set (f := fun j : iv => iv_with_mode MdLookup (iv_with_expl (iv_expl j && (x_options (s_ex s) || x_only (s_ex s))) j)).
      destruct (others_run rec args r pre outs Houts (with_iv (f i0) s) eq_refl eq_refl) as (s1 & C1 & A1).
      assert (I1 : s_iv s1 = f i0) by (rewrite (asked_iv _ _ A1); reflexivity).
      assert (X1 : ready w c es all s1).
      { destruct Hrd as [[X1 X2]|(rc & R1 & R2 & R3 & R4 & sh & Sh & G)].
        - left. destruct A1 as [t ->]. split; [ exact X1 | exact X2 ].
        - right. exists rc. repeat (split; [ assumption | ]). exists sh. split; [ exact Sh | ]. rewrite I1.
          exact (good_asked _ _ _ _ _ _ _ (good_with_iv _ _ (f i0) _ _ _ _ G) A1). }
      destruct (get_config_ready w n N HN sc c file Hfile Hconf (f i0) es all s1 eq_refl eq_refl I1 X1 Hh Ha)
        as (rc & s2 & E2 & R1 & R2 & R3 & R4 & sh & Sh & G2).
      exists rc, sh, s1, s2. split; [ exact C1 | ]. split; [ exact E2 | ]. split; [ constructor; assumption | exact G2 ].
    Qed.

    Lemma options_known r rk opts lo : new_key r = Ok rk -> options_say w sc all fs r opts lo ->
      exists rc sh v s', run_scoped SLookup (merging (SDeep []) fs (fun f => call_lk w rec f (handed opts) r)) s = (Ok v, s') /\
        map_of v lo /\ knows all rc sh /\ good w i0 [(w_cfgpath w, rc)] sh (rc_providers rc) s'.
    Proof.
      intros Hp (outs & Ho & Hlo). unfold fs in Ho.
      apply Forall2_app_inv_l in Ho as (o1 & o2 & H1 & H2 & ->).
      inversion H2 as [|? o ? o3 Hcfg H3]; subst.
      assert (Hrest : forall l outs, Forall (replies w) l -> Forall2 (option_is w sc (handed opts) r all) l outs -> Forall2 (holds w sc (handed opts) r) l outs).
      { clear. intros l outs Hl H. induction H as [|f o l outs Hf _ IH]; [ constructor | ].
        inversion Hl as [|? ? Hr Hl']; subst. constructor; [ | exact (IH Hl') ].
        destruct Hf as [lo Hlo|f o Ho]; [ inversion Hr | exact Ho ]. }
      assert (Hlo' : exists l, options_of all r l /\ o = option_map VMap l).
      { inversion Hcfg as [l Hl|f o' Hsrc]; subst; [ exists l; auto | inversion Hsrc ]. }
      destruct Hlo' as (l & Hl & ->).
      destruct (config_asked (handed opts) r o1 (Hrest _ _ Hpre H1)) as (rc & sh & s1 & s2 & C1 & E2 & K & G2).
      set (f := fun j : iv => iv_with_mode MdLookup (iv_with_expl (iv_expl j && (x_options (s_ex s) || x_only (s_ex s))) j)) in *.
      set (call := fun f => call_lk w rec f (handed opts) r) in *.
      assert (Ec : call LkConfig s1 = (Ok (option_map VMap l), s2)).
      { unfold call. cbn [call_lk]. unfold config_lookup_at. unfold bind at 1. rewrite E2.
        unfold bind at 1, lift at 1. rewrite Hp.
        unfold bind at 1, run_op at 1. rewrite (g_iv _ _ _ _ _ _ G2). cbn [f iv_with_mode iv_mode].
        unfold bind, lift. rewrite (options_of_model rc all r l rk (kn_options _ _ _ K) (kn_module _ _ _ K) Hp Hl). reflexivity. }
      destruct (others_run rec (handed opts) r post o3 (Hrest _ _ Hpost H3) s2) as (s3 & C3 & A3).
      { rewrite (g_iv _ _ _ _ _ _ G2). reflexivity. }
      { exact (good_off w (f i0) _ _ _ eq_refl s2 G2). }
      pose proof (good_asked _ _ _ _ _ _ _ G2 A3) as G3.
      assert (C : consults call fs (with_iv (f i0) s) (o1 ++ option_map VMap l :: o3) s3).
      { exact (consults_through call pre LkConfig post _ _ s1 _ s2 o3 s3 C1 Ec C3). }
      exists rc, sh, (pure_lookup (SDeep []) (o1 ++ option_map VMap l :: o3)), (with_iv i0 s3).
      split; [ | split; [ exact Hlo | split; [ exact K | exact (good_with_iv _ _ _ _ _ _ _ G3) ] ] ].
      unfold run_scoped. rewrite Hs. cbn [i0 new_iv iv_mode]. unfold with_copy. rewrite Hs. fold i0. change (iv_with_mode MdLookup (iv_with_expl (iv_expl i0 && (x_options (s_ex s) || x_only (s_ex s))) i0)) with (f i0).
      rewrite (merging_off call (call_off w (S (S N)) (handed opts) r) (SDeep []) fs (with_iv (f i0) s) _ s3 eq_refl ltac:(discriminate) C).
      reflexivity.
    Qed.

    (** A root that is no key: the configuration is read all the same. *)
    Lemma root_refused args r x : misspelt r x -> exists s', mux_lookup w rec args r s = (Panic x, s') /\ shared_ok w c s'.
    Proof.
      intro Hb. apply new_key_refused in Hb. destruct (others_hold args r pre Hpre) as (outs & Houts).
      destruct (config_asked args r outs Houts) as (rc & sh & s1 & s2 & C1 & E2 & K & G2).
      set (f := fun j : iv => iv_with_mode MdLookup (iv_with_expl (iv_expl j && (x_options (s_ex s) || x_only (s_ex s))) j)) in *.
      assert (Ec : call_lk w rec LkConfig args r s1 = (Panic x, s2)).
      { cbn [call_lk]. unfold config_lookup_at. unfold bind at 1. rewrite E2. unfold bind, lift. rewrite Hb. reflexivity. }
      assert (Em : merging (SDeep []) fs (fun f => call_lk w rec f args r) (with_iv (f i0) s) = (Panic x, s2)).
      { unfold fs. rewrite (merging_halts (fun f => call_lk w rec f args r) (call_off w (S (S N)) args r) (SDeep []) pre LkConfig post (with_iv (f i0) s) outs s1 eq_refl C1);
          [ exact Ec | discriminate | ]. intros v Ev. fold rec in Ev. rewrite Ec in Ev. discriminate. }
      exists (with_iv i0 s2). split; [ | right; change (s_shared (with_iv i0 s2)) with (s_shared s2); rewrite (g_shared _ _ _ _ _ _ G2); exact (kn_shared _ _ _ K) ].
      unfold mux_lookup. rewrite Hmux. unfold bind at 1. unfold run_scoped at 1. rewrite Hs. cbn [i0 new_iv iv_mode]. unfold with_copy. rewrite Hs. fold i0.
      change (iv_with_mode MdLookup (iv_with_expl (iv_expl i0 && (x_options (s_ex s) || x_only (s_ex s))) i0)) with (f i0).
      rewrite Em. reflexivity.
    Qed.

    (** What is found afterwards. *)
    Lemma mux_known r opts : correct_key r -> exists rc sh, knows all rc sh /\
      forall ft, comes_after w fs [(w_cfgpath w, rc)] sh (rc_providers rc) all (S (S N)) id r opts ft ->
        lands sh (good w i0 [(w_cfgpath w, rc)] sh (rc_providers rc)) (mux_lookup w rec (handed opts) r s) ft.
    Proof.
      intros Hc'. destruct (correct_new r Hc') as (x0 & qs & _ & Hp).
      destruct (options_say_total w pre post all Hpre Hpost Hw sc Hvars (handed opts) r opts Hc' eq_refl) as (lo & Ho).
      destruct (options_known r _ opts lo Hp Ho) as (rc & sh & v & s1 & E1 & Hlo & K & G1).
      exists rc, sh. split; [ exact K | ]. intros ft (rk & lo' & _ & Ho' & M).
      change (iv_scope id) with sc in Ho'.
      assert (Hlo' : map_of v lo').
      { destruct (options_known r _ opts lo' Hp Ho') as (rc2 & sh2 & v2 & s2 & E2 & Hlo2 & _ & _). rewrite E1 in E2. injection E2 as <- <-. exact Hlo2. }
      unfold mux_lookup. rewrite Hmux. unfold bind at 1. unfold rec in *. rewrite E1. rewrite (map_of_model _ _ Hlo').
      unfold run_scoped at 1. rewrite (g_iv _ _ _ _ _ _ G1). cbn [i0 new_iv iv_mode].
      set (fd := fun j : iv => iv_with_mode MdData (iv_with_expl (iv_expl j && negb (x_only (s_ex s1))) j)).
      apply (copy_lands w i0 fd); [ exact G1 | ]. change (fd i0) with id.
      intros t Gt. specialize (M (iv_luopts id) (iv_strat id) t).
      unfold bind at 1, lift at 1. rewrite Hp. rewrite node_off by exact (good_off w id _ _ _ eq_refl t Gt). exact (M Gt).
    Qed.

    Lemma mux_lands r opts ft : correct_key r ->
      (forall rc sh, knows all rc sh -> comes_after w fs [(w_cfgpath w, rc)] sh (rc_providers rc) all (S (S N)) id r opts ft) ->
      exists rc sh, knows all rc sh /\
        lands sh (good w i0 [(w_cfgpath w, rc)] sh (rc_providers rc)) (mux_lookup w rec (handed opts) r s) ft.
    Proof. intros Hc' H. destruct (mux_known r opts Hc') as (rc & sh & K & L). exists rc, sh. auto. Qed.

    Lemma top_starts k opts r ps : k_parts k = PStr r :: ps -> r <> "lookup_options" ->
      lookup w (run w (S (S (S N)))) k opts s =
      bind (mux_lookup w rec (handed opts) r)
        (fun v => match v with None => ret None | Some x => run_scoped SData (bind (interpolate (run w (S (S (S N)))) true x) (dig_in k)) end) s.
    Proof.
      intros Hk Hr. unfold lookup. unfold bind at 1, lift at 1, root at 1. rewrite Hk. apply String.eqb_neq in Hr. rewrite Hr, Htop. cbn [call_lk].
      change (run w (S (S (S N))) (RMux (match opts with Some o => o | None => [] end) r))
        with (bind (mux_lookup w rec (handed opts) r) (fun v => ret (v, true))).
      unfold bind, ret. destruct (mux_lookup w rec (handed opts) r s) as [[v|x| |] s']; reflexivity.
    Qed.

    (** *** Values, with more steps than they need *)
    Let texts m := fun t => many_answers w sc es all fs m (AText t).
    Let text_fails m := fun t => many_fails w sc es all fs m (AText t).
    Let Us : Forall usable es.
    Proof. exact (proj1 Hh). Qed.

    Let meet rc sh : knows all rc sh -> forall m, question_meets w pre post [(w_cfgpath w, rc)] sh (rc_providers rc) all sc m.
    Proof.
      intros K m. refine (questions_meet w pre post [(w_cfgpath w, rc)] sh (rc_providers rc) rc all Htop Hmux Hpre Hpost Hw (kn_ids _ _ _ K) _ _ eq_refl
        (kn_options _ _ _ K) (kn_module _ _ _ K) sc Hvars m); [ rewrite (kn_entries _ _ _ K); exact Us | ].
      cbn [aget]. rewrite String.eqb_refl. reflexivity.
    Qed.

    Lemma texts_at rc sh m j i : knows all rc sh -> m <= j -> iv_expl i = false -> iv_mode i = MdData -> iv_scope i = sc ->
      forall t o, texts m t o -> exists b, (b = false -> o = Some (VStr t)) /\
        yields (loose w i [(w_cfgpath w, rc)] sh (rc_providers rc)) (run w j (RStr t true)) (o, b).
    Proof.
      intros K Hj Hi Hm Hsc t o Ht. pose proof (meet rc sh K m i Hi Hm Hsc) as [Q _]. rewrite (kn_entries _ _ _ K) in Q.
      destruct (Q (AText t) o Ht) as (b & B & Y). exists b. split; [ exact (B t eq_refl) | exact (yields_more w _ m j _ _ Hj Y) ].
    Qed.
    Lemma values_at rc sh m j i : knows all rc sh -> m <= j -> iv_expl i = false -> iv_mode i = MdData -> iv_scope i = sc ->
      forall v o, value_is (texts m) v o -> yields (loose w i [(w_cfgpath w, rc)] sh (rc_providers rc)) (interpolate (run w j) true v) o.
    Proof. intros K Hj Hi Hm Hsc. apply yields_interpolate. exact (texts_at rc sh m j i K Hj Hi Hm Hsc). Qed.
    Lemma values_fail_at rc sh m j i : knows all rc sh -> m <= j -> iv_expl i = false -> iv_mode i = MdData -> iv_scope i = sc ->
      forall v x, value_fails (texts m) (text_fails m) v x ->
      breaks sh (loose w i [(w_cfgpath w, rc)] sh (rc_providers rc)) (interpolate (run w j) true v) x.
    Proof.
      intros K Hj Hi Hm Hsc. apply (breaks_interpolate sh _ (run w j) (texts m)); [ exact (texts_at rc sh m j i K Hj Hi Hm Hsc) | ].
      intros t x Ht. pose proof (meet rc sh K m i Hi Hm Hsc) as [_ Q]. rewrite (kn_entries _ _ _ K) in Q.
      exact (breaks_more w sh _ m j _ _ Hj (Q (AText t) x Ht)).
    Qed.

    Let fns rc sh : knows all rc sh -> Forall (fun p => e_function (p_entry p) <> None) (rc_providers rc).
    Proof. intro K. apply usable_functions. rewrite (kn_entries _ _ _ K). exact Us. Qed.
    Let there (rc : rconfig) : aget (w_cfgpath w) [(w_cfgpath w, rc)] = Some rc.
    Proof. cbn [aget]. rewrite String.eqb_refl. reflexivity. Qed.
    Let kept rc sh t : knows all rc sh -> s_shared t = sh -> shared_ok w c t.
    Proof. intros K E. right. rewrite E. exact (kn_shared _ _ _ K). Qed.

    Let readied rc sh t : knows all rc sh -> good w i0 [(w_cfgpath w, rc)] sh (rc_providers rc) t -> s_iv t = i0 /\ ready w c es all t.
    Proof.
      intros [K1 K2 K3 K4 K5] G. pose proof (g_iv _ _ _ _ _ _ G) as E. split; [ exact E | ]. right. exists rc.
      repeat (split; [ assumption | ]). exists sh. split; [ exact K5 | ]. rewrite E. exact G.
    Qed.

    Lemma finds_lands m r opts x : m <= S (S N) -> finds w sc es all fs (value_is (texts m)) r opts x ->
      exists rc sh s1, knows all rc sh /\ good w i0 [(w_cfgpath w, rc)] sh (rc_providers rc) s1 /\ mux_lookup w rec (handed opts) r s = (Ok x, s1).
    Proof.
      intros Hm H. destruct (mux_lands r opts (Gives x) (proj1 H)) as (rc & sh & K & s1 & E & G); [ | exists rc, sh, s1; auto ].
      intros rc sh K.
      apply (finds_after w fs [(w_cfgpath w, rc)] sh (rc_providers rc) rc all Hone (kn_ids _ _ _ K) (fns rc sh K) (there rc) eq_refl
               (S (S N)) id r opts (value_is (texts m)) (value_fails (texts m) (text_fails m)) eq_refl eq_refl).
      - intros b v o Hv. refine (values_at rc sh m (S (S N)) _ K Hm _ _ _ v o Hv); reflexivity.
      - intros b v e Hv. refine (values_fail_at rc sh m (S (S N)) _ K Hm _ _ _ v e Hv); reflexivity.
      - rewrite (kn_entries _ _ _ K). exact H.
    Qed.

    (** A found value is interpolated and followed. *)
    Lemma follow_lands rc sh s1 k x ft : good w i0 [(w_cfgpath w, rc)] sh (rc_providers rc) s1 ->
      meets sh (loose w id [(w_cfgpath w, rc)] sh (rc_providers rc)) (loose w id [(w_cfgpath w, rc)] sh (rc_providers rc))
        (bind (interpolate (run w (S (S (S N)))) true x) (dig_in k)) ft ->
      lands sh (good w i0 [(w_cfgpath w, rc)] sh (rc_providers rc))
        (run_scoped SData (bind (interpolate (run w (S (S (S N)))) true x) (dig_in k)) s1) ft.
    Proof.
      intros G H. unfold run_scoped. rewrite (g_iv _ _ _ _ _ _ G). cbn [i0 new_iv iv_mode].
      set (fd := fun j : iv => iv_with_mode MdData (iv_with_expl (iv_expl j && negb (x_only (s_ex s1))) j)).
      apply (copy_lands w i0 fd); [ exact G | ]. change (fd i0) with id.
      intros t Gt. exact (H t (good_loose _ _ _ _ _ _ Gt)).
    Qed.

    Lemma many_run m k opts o : m <= S (S N) -> many_answers w sc es all fs m (ALook k opts) o ->
      exists s', lookup w (run w (S (S (S N)))) k opts s = (Ok o, s') /\ s_iv s' = i0 /\ ready w c es all s'.
    Proof.
      intro Hm. destruct m as [|n1]; [ intros [] | ]. intros [(rest & Hk & ->)|(r & rest & x & Hk & Hr & Hx & Hfo)].
      - exists s. split; [ | exact (conj Hs Hrd) ]. unfold lookup, bind, lift, root. rewrite Hk. cbn [String.eqb Ascii.eqb Bool.eqb].
        assert (Ho : off s) by (unfold off; rewrite Hs; reflexivity).
        rewrite node_off by exact Ho. rewrite report_off by exact Ho. reflexivity.
      - destruct n1 as [|n2]; [ destruct Hx | ]. rewrite (top_starts k opts r rest Hk Hr).
        destruct (finds_lands n2 r opts x ltac:(lia) Hx) as (rc & sh & s1 & K & G1 & E1). unfold bind at 1. rewrite E1.
        destruct x as [x|].
        + destruct Hfo as (y & Hy & Hdig).
          destruct (follow_lands rc sh s1 k x (Gives o) G1) as (s2 & E2 & G2).
          * apply meets_yields. eapply yields_bind with (a := y).
            -- refine (values_at rc sh (S n2) (S (S (S N))) id K _ _ _ _ x y Hy); [ lia | reflexivity.. ].
            -- destruct k as [ks kp]. cbn in Hk. subst kp. refine (digs_dig _ _ ks r rest y o Hdig). intro t. apply loose_off. reflexivity.
          * exists s2. split; [ exact E2 | exact (readied rc sh s2 K G2) ].
        + cbn in Hfo. subst o. exists s1. split; [ reflexivity | exact (readied rc sh s1 K G1) ].
    Qed.

    Lemma many_failing m k opts x : m <= S (S N) -> many_fails w sc es all fs m (ALook k opts) x ->
      exists s', lookup w (run w (S (S (S N)))) k opts s = (Panic x, s') /\ shared_ok w c s'.
    Proof.
      intro Hm. destruct m as [|n1]; [ intros [] | ]. intros (r & rest & Hk & Hr & Hx). rewrite (top_starts k opts r rest Hk Hr).
      destruct Hx as [Hx|(v & Hv & Hx)].
      - destruct n1 as [|n2]; [ destruct Hx | ].
        assert (Q : exists s', mux_lookup w rec (handed opts) r s = (Panic x, s') /\ shared_ok w c s').
        { destruct (correct_decided r) as [Hc'|(y & Hy)].
          - destruct (mux_lands r opts (Fails x) Hc') as (rc & sh & K & s1 & E & G); [ | exists s1; split; [ exact E | exact (kept rc sh s1 K G) ] ].
            intros rc sh K.
            destruct (fails_after w fs [(w_cfgpath w, rc)] sh (rc_providers rc) rc all Hone (kn_ids _ _ _ K) (fns rc sh K) (there rc) eq_refl
                        (S (S N)) id r opts (value_is (texts n2)) (value_fails (texts n2) (text_fails n2)) eq_refl eq_refl) with (x := x) as [Hb|H].
            + intros b v o Hv. refine (values_at rc sh n2 (S (S N)) _ K _ _ _ _ v o Hv); [ lia | reflexivity.. ].
            + intros b v e Hv. refine (values_fail_at rc sh n2 (S (S N)) _ K _ _ _ _ v e Hv); [ lia | reflexivity.. ].
            + rewrite (kn_entries _ _ _ K). exact Hx.
            + exfalso. apply new_key_refused in Hb. destruct (correct_new r Hc') as (x0 & qs & _ & Hp). congruence.
            + exact H.
          - assert (Eb : misspelt r x).
            { destruct Hx as [Hb|lo mo t Hc' _ _ _ _ _|lo mo g Hc' _ _ _ _ _|lo mo g t a Hc' _ _ _ _ _|lo mo g cv Hc' _ _ _ _ _ _|lo mo g t a ty v Hc' _ _ _ _ _ _ _ _];
                [ exact Hb | exfalso.. ]; destruct (correct_new r Hc') as (x0 & qs & _ & Hp); apply new_key_refused in Hy; congruence. }
            exact (root_refused (handed opts) r x Eb). }
        destruct Q as (s' & E & Hok). exists s'. unfold bind. rewrite E. auto.
      - destruct n1 as [|n2]; [ destruct Hv | ].
        destruct (finds_lands n2 r opts (Some v) ltac:(lia) Hv) as (rc & sh & s1 & K & G1 & E1). unfold bind at 1. rewrite E1.
        destruct (follow_lands rc sh s1 k v (Fails x) G1) as (s2 & E2 & G2).
        + apply meets_breaks. apply breaks_now.
          refine (values_fail_at rc sh (S n2) (S (S (S N))) id K _ _ _ _ v x Hx); [ lia | reflexivity.. ].
        + exists s2. split; [ exact E2 | exact (kept rc sh s2 K G2) ].
    Qed.

    (** Nothing else happens. *)
    Lemma many_settles k opts r rest : k_parts k = PStr r :: rest -> r <> "lookup_options" ->
      (exists o, many_answers w sc es all fs (S (S (S (S N)))) (ALook k opts) o) \/
      (exists x, many_fails w sc es all fs (S (S (S (S N)))) (ALook k opts) x) \/
      fst (lookup w (run w (S (S (S N)))) k opts s) = NoFuel.
    Proof.
      intros Hk Hr. set (F := S (S N)) in *.
      assert (Dec : forall rc sh, knows all rc sh -> forall m, question_decided w pre post [(w_cfgpath w, rc)] sh (rc_providers rc) all sc m).
      { intros rc sh K m. refine (questions_decided w pre post [(w_cfgpath w, rc)] sh (rc_providers rc) rc all Htop Hmux Hpre Hpost Hw (kn_ids _ _ _ K) _ (there rc) eq_refl
          (kn_options _ _ _ K) (kn_module _ _ _ K) sc Hvars m). rewrite (kn_entries _ _ _ K). exact Us. }
      assert (Val : forall rc sh, knows all rc sh -> forall m i, iv_expl i = false -> iv_mode i = MdData -> iv_scope i = sc ->
        forall v, wf v = true -> (exists o, value_is (texts m) v o /\ tidy o) \/ (exists x, value_fails (texts m) (text_fails m) v x) \/
          diverges (loose w i [(w_cfgpath w, rc)] sh (rc_providers rc)) (interpolate (run w m) true v)).
      { intros rc sh K m i Hi Hm Hsc v W.
        assert (U : Forall usable (map p_entry (rc_providers rc))) by (rewrite (kn_entries _ _ _ K); exact Us).
        pose proof (values_settled w pre post [(w_cfgpath w, rc)] sh (rc_providers rc) rc all Htop Hmux Hpre Hpost Hw (kn_ids _ _ _ K) U (there rc) eq_refl
          (kn_options _ _ _ K) (kn_module _ _ _ K) sc Hvars m i (Dec rc sh K m) Hi Hm Hsc v W) as Q.
        rewrite (kn_entries _ _ _ K) in Q. exact Q. }
      destruct (correct_decided r) as [Hc'|(x & Hb)].
      2: { right. left. exists x. exists r, rest. split; [ exact Hk | split; [ exact Hr | left ] ]. apply ff_root. exact Hb. }
      assert (Fd : forall rc sh, knows all rc sh ->
        (exists x, finds w sc es all fs (value_is (texts F)) r opts x /\ tidy x) \/
        (exists x, finding_fails w sc es all fs (value_is (texts F)) (value_fails (texts F) (text_fails F)) r opts x) \/
        comes_after w fs [(w_cfgpath w, rc)] sh (rc_providers rc) all F id r opts Never).
      { intros rc sh K.
        assert (U : Forall usable (map p_entry (rc_providers rc))) by (rewrite (kn_entries _ _ _ K); exact Us).
        pose proof (found_decided w pre post [(w_cfgpath w, rc)] sh (rc_providers rc) rc all Hpre Hpost Hw (kn_ids _ _ _ K) U (there rc) eq_refl
          sc Hvars F id r opts eq_refl eq_refl eq_refl (value_is (texts F)) (value_fails (texts F) (text_fails F))) as Q.
        rewrite (kn_entries _ _ _ K) in Q. apply Q.
        - intros b v o Hv. refine (values_at rc sh F F _ K (le_n _) _ _ _ v o Hv); reflexivity.
        - intros b v x Hv. refine (values_fail_at rc sh F F _ K (le_n _) _ _ _ v x Hv); reflexivity.
        - intros b v W. apply (Val rc sh K F); try reflexivity. exact W. }
      assert (D : (exists x, finds w sc es all fs (value_is (texts F)) r opts x /\ tidy x) \/
        (exists x, finding_fails w sc es all fs (value_is (texts F)) (value_fails (texts F) (text_fails F)) r opts x) \/
        exists rc sh, knows all rc sh /\ lands sh (good w i0 [(w_cfgpath w, rc)] sh (rc_providers rc)) (mux_lookup w rec (handed opts) r s) Never).
      { destruct (mux_known r opts Hc') as (rc & sh & K & L).
        destruct (Fd rc sh K) as [H|[H|H]]; [ left; exact H | right; left; exact H | right; right ].
        exists rc, sh. split; [ exact K | exact (L Never H) ]. }
      destruct D as [(x & Hx & Tx)|[(x & Hx)|(rc & sh & K & E)]].
      - destruct x as [x|].
        2: { left. exists None. right. exists r, rest, None. split; [ exact Hk | split; [ exact Hr | split; [ exact Hx | reflexivity ] ] ]. }
        destruct (finds_lands F r opts (Some x) (le_n _) Hx) as (rc & sh & s1 & K & G1 & E1).
        destruct (Val rc sh K (S F) id eq_refl eq_refl eq_refl x (Tx x eq_refl)) as [(y & Hy & Ty)|[(e & He)|Hdv]].
        + destruct (digs_total rest y) as (o & Ho). left. exists o. right. exists r, rest, (Some x).
          split; [ exact Hk | split; [ exact Hr | split; [ exact Hx | ] ] ]. exists y. auto.
        + right. left. exists e. exists r, rest. split; [ exact Hk | split; [ exact Hr | ] ]. right. exists x. auto.
        + right. right. subst F. rewrite (top_starts k opts r rest Hk Hr). unfold bind at 1. rewrite E1.
          apply (follow_lands rc sh s1 k x Never G1). apply meets_never. apply div_bind. exact Hdv.
      - right. left. exists x. exists r, rest. split; [ exact Hk | split; [ exact Hr | ] ]. left. exact Hx.
      - right. right. subst F. rewrite (top_starts k opts r rest Hk Hr). apply fst_bind. exact E.
    Qed.
  End Known.
End Top.

(** ** When there is no configuration to ask *)

Section Get.
  Variables (w : world) (F : nat) (sc : scope) (file : cfg_file).
  Hypothesis Hfile : forall t, w_config w t (w_cfgpath w) = file.

  Section Readable.
    Variable c : config.
    Hypothesis Hconf : config_new (w_env w) (w_cfgpath w) file = Ok c.
    Let both : M st (list provider * list provider) :=
      bind (create_providers w (run w F) c (c_hierarchy c)) (fun ps =>
      bind (create_providers w (run w F) c (c_default_hierarchy c)) (fun ds => ret (ps, ds))).

    Lemma get_starts s : s_configs s = [] -> shared_ok w c s -> exists s1 (f : rconfig -> M st rconfig),
      get_config w (run w F) (w_cfgpath w) "" s = bind (resolve_config w (run w F) c "") f s1 /\
      s_iv s1 = s_iv s /\ aget (w_cfgpath w) (s_shared s1) = Some (ShLoaded c).
    Proof.
      intros Hc Hsh. destruct (shared_run w c file Hfile Hconf s Hsh) as (s1 & E1 & I1 & C1 & S1).
      exists s1. eexists. split; [ | split; [ exact I1 | exact S1 ] ]. unfold get_config.
      replace (if String.eqb (w_cfgpath w) "" then w_cfgpath w else w_cfgpath w) with (w_cfgpath w)
        by (destruct (String.eqb (w_cfgpath w) ""); reflexivity).
      unfold bind at 1. unfold run_op at 1. rewrite Hc. cbn [aget]. unfold bind at 1. rewrite E1. reflexivity.
    Qed.

    Lemma get_refused x s : stops sc both x -> iv_scope (s_iv s) = sc -> off s -> s_configs s = [] -> shared_ok w c s ->
      exists s', get_config w (run w F) (w_cfgpath w) "" s = (Panic x, s') /\ aget (w_cfgpath w) (s_shared s') = Some (ShLoaded c).
    Proof.
      intros Hb Hs Ho Hc Hsh. destruct (get_starts s Hc Hsh) as (s1 & f & -> & I1 & S1).
      destruct (Hb s1) as (s2 & E2 & K2); [ rewrite I1; exact Hs | unfold off; rewrite I1; exact Ho | ].
      exists s2. split; [ | rewrite K2; exact S1 ]. unfold bind at 1, resolve_config, bind at 1, run_scoped at 1.
      assert (O1 : iv_expl (s_iv s1) = false) by (rewrite I1; exact Ho). rewrite O1. fold both. rewrite E2. reflexivity.
    Qed.

    Lemma get_endless s : endless sc both -> iv_scope (s_iv s) = sc -> off s -> s_configs s = [] -> shared_ok w c s ->
      exists s', get_config w (run w F) (w_cfgpath w) "" s = (NoFuel, s').
    Proof.
      intros Hb Hs Ho Hc Hsh. destruct (get_starts s Hc Hsh) as (s1 & f & -> & I1 & S1).
      assert (E : fst (bind (resolve_config w (run w F) c "") f s1) = NoFuel).
      { apply fst_bind. unfold resolve_config. apply fst_bind. unfold run_scoped at 1.
        assert (O1 : iv_expl (s_iv s1) = false) by (rewrite I1; exact Ho). rewrite O1.
        apply Hb; [ rewrite I1; exact Hs | unfold off; rewrite I1; exact Ho ]. }
      destruct (bind (resolve_config w (run w F) c "") f s1) as [o s2]. cbn in E. subst o. eauto.
    Qed.
  End Readable.

  Lemma get_locked x s : config_new (w_env w) (w_cfgpath w) file = Panic x -> s_configs s = [] -> forall first,
    (first = Panic x /\ aget (w_cfgpath w) (s_shared s) = None) \/ (first = Hang /\ aget (w_cfgpath w) (s_shared s) = Some ShLocked) ->
    exists s', get_config w (run w F) (w_cfgpath w) "" s = (first, s') /\ aget (w_cfgpath w) (s_shared s') = Some ShLocked.
  Proof.
    intros Hconf Hc first H. unfold get_config.
    replace (if String.eqb (w_cfgpath w) "" then w_cfgpath w else w_cfgpath w) with (w_cfgpath w)
      by (destruct (String.eqb (w_cfgpath w) ""); reflexivity).
    unfold bind at 1. unfold run_op at 1. rewrite Hc. cbn [aget]. unfold bind at 1. unfold shared_config. unfold bind at 1. unfold run_op at 1.
    destruct H as [[-> E]|[-> E]]; rewrite E.
    - unfold load_config, ask, bind, run_op, lift, ret. rewrite Hfile, Hconf.
      eexists. split; [ reflexivity | ]. cbn. rewrite String.eqb_refl. reflexivity.
    - eexists. split; [ reflexivity | exact E ].
  Qed.
End Get.

Lemma get_options_fail w n N sc c file es x s : (forall t, w_config w t (w_cfgpath w) = file) ->
  config_new (w_env w) (w_cfgpath w) file = Ok c -> n <= S (S N) -> created w (S (S N)) sc c es ->
  hierarchy_fails w sc (value_in w sc es Options n) (fails_in w sc es Options n) "lookup_options" (SDeep []) es x ->
  iv_scope (s_iv s) = sc -> off s -> s_configs s = [] -> shared_ok w c s ->
  exists s', get_config w (run w (S (S N))) (w_cfgpath w) "" s = (Panic x, s') /\ aget (w_cfgpath w) (s_shared s') = Some (ShLoaded c).
Proof.
  intros Hfile Hconf HN Hh Hx Hs Ho Hc Hsh. destruct (get_starts w (S (S N)) file Hfile c Hconf s Hc Hsh) as (s1 & f & -> & I1 & S1).
  destruct (resolve_breaks w n N HN sc (s_iv s) c es x s1 Ho Hs I1 Hh Hx) as (s2 & E2 & S2).
  exists s2. unfold bind. rewrite E2. split; [ reflexivity | rewrite S2; exact S1 ].
Qed.
