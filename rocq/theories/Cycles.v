(** Lookups that lead back to themselves never end. *)

From Coq Require Import String Ascii List ZArith Bool Arith Lia.
From Verif Require Import Str Value Outcome Key Merge Fpath Config Ipl Explain State Engine Meta Fuel
  SpecKey SpecIpl SpecInterp SpecConfig SpecMerge SpecLookup
  KeyFacts ValueFacts MergeFacts MergeLookup StrFacts IplFacts InterpFacts IplExact ResolveFacts
  LookupExact HierarchyExact LookupTop SettledLookup RootFacts.
Import ListNotations.
Open Scope nat_scope.
Open Scope string_scope.
Open Scope list_scope.

(** An expression that makes a lookup of a key with the given root. *)
Definition refers (x r : string) : Prop :=
  ~ has "}" x /\ exists name arg ps, calls (trim_space x) name arg /\
    In name ["lookup"; "hiera"; "alias"; "strict_alias"] /\ written_key arg (PStr r :: ps).

(** The first level that has the key has a text for it that is one lookup, and
    the root of that lookup is one of the same keys again. *)
Definition endless (w : world) (es : list entry) (stuck : string -> Prop) : Prop :=
  forall r, stuck r -> r <> "lookup_options" /\ plain_key r /\
    exists pre e post m x r', es = pre ++ e :: post /\
      Forall (fun e => exists l, level_is w e l /\ under r l = None) pre /\
      level_is w e (Some m) /\ mgets r m = Some (VStr ("%{" ++ x ++ "}")) /\ refers x r' /\ stuck r'.

(** Code that does not end. *)
Definition diverges {A} (P : st -> Prop) (m : M st A) : Prop := forall s, P s -> fst (m s) = NoFuel.

Lemma div_bind P A B (m : M st A) (f : A -> M st B) : diverges P m -> diverges P (bind m f).
Proof. intros H s Hs. unfold bind. specialize (H s Hs). destruct (m s) as [o s']. cbn [fst] in H. subst o. reflexivity. Qed.
Lemma div_after P A B (m : M st A) (f : A -> M st B) a : yields P m a -> diverges P (f a) -> diverges P (bind m f).
Proof. intros Hm Hf s Hs. destruct (Hm s Hs) as (s' & E & Hs'). unfold bind. rewrite E. exact (Hf s' Hs'). Qed.

Section Off.
  Variable P : st -> Prop.
  Hypothesis Poff : forall s, P s -> off s.

  Lemma div_node A k i (m : M st A) : diverges P m -> diverges P (run_scoped (SNode k i) m).
  Proof. intros H s Hs. rewrite node_off by exact (Poff s Hs). exact (H s Hs). Qed.

  Lemma div_merging L (f : L -> M st (option value)) s pre x post :
    Forall (fun y => yields P (f y) None) pre -> diverges P (f x) -> diverges P (merging s (pre ++ x :: post) f).
  Proof.
    intros Hp Hx.
    assert (F : diverges P (first_loop f (pre ++ x :: post))).
    { induction Hp as [|y l Hy _ IH]; cbn [app first_loop]; [ apply div_bind; exact Hx | ].
      eapply div_after; [ exact Hy | exact IH ]. }
    assert (G : forall memo, diverges P (merge_loop f s memo (pre ++ x :: post))).
    { clear F. induction Hp as [|y l Hy _ IH]; intro memo; cbn [app merge_loop]; [ apply div_bind; exact Hx | ].
      eapply div_after; [ exact Hy | ]. apply IH. }
    assert (E : (pre = [] /\ post = []) \/ exists a b r, pre ++ x :: post = a :: b :: r).
    { destruct pre as [|p [|p2 pre]]; [ destruct post as [|q post]; [ left; auto | ] | | ]; right; eexists _, _, _; reflexivity. }
    destruct E as [[-> ->]|(a & b & r & E)].
    - cbn [app]. unfold merging, merge_lookup. destruct s; [ exact Hx | | | ]; apply div_bind; exact Hx.
    - rewrite E in *. unfold merging, merge_lookup.
      destruct s; [ apply div_bind; exact F | | | ]; apply div_node; apply div_bind; apply G.
  Qed.
End Off.

Section Stuck.
  Variables (w : world) (i : iv) (cf : list (string * rconfig)) (sh : list (string * shared)) (rc : rconfig).
  Let ps := rc_providers rc.
  Hypothesis Hi : iv_expl i = false.
  Hypothesis Hd : NoDup (map p_id ps).
  Hypothesis Hf : Forall (fun p => e_function (p_entry p) <> None) ps.
  Hypothesis Htop : w_top w = LkConfig.
  Variable st : strategy.
  Hypothesis Hm : iv_mode i = MdData.
  Hypothesis Hst : iv_strat i = Some st.
  Hypothesis Hrc : aget (w_cfgpath w) cf = Some rc.
  Let P := good w i cf sh ps.
  Variable stuck : string -> Prop.
  Hypothesis Hend : endless w (map p_entry ps) stuck.

  Lemma level_yields_none rec r s p l : plain_key r -> In p ps -> level_is w (p_entry p) l -> under r l = None ->
    yields P (merge_locations w rec (mk_key r [PStr r]) s p) None.
  Proof.
    intros Hp Hin Hl Hu.
    refine (yields_locations w rec (iv_scope i) ps P (good_of w i cf sh ps Hi) (fun A m a => good_frames w i cf sh ps Hi A m a Hd) (fun _ _ => False) _ (mk_key r [PStr r]) r s p None Hin (plain_new r Hp) _ _).
    - intros v o [].
    - exact (proj1 (Forall_forall _ _) Hf p Hin).
    - exact (level_none w (iv_scope i) _ r s (p_entry p) l Hp Hl Hu).
  Qed.

  (** A text that only leads on. *)
  Lemma stuck_text rec x r : refers x r ->
    (forall k rest, k_parts k = PStr r :: rest -> diverges P (rec (RLookup k None))) ->
    diverges P (istr w rec ("%{" ++ x ++ "}") true).
  Proof.
    intros (Hb & name & arg & rest & Hc & Hn & Hk) Hrec. unfold istr.
    assert (C : contains "%{" ("%{" ++ x ++ "}") = true) by (apply contains_has; exists "", (x ++ "}")%string; reflexivity).
    rewrite C. cbn [negb]. apply div_bind. apply (div_node P (good_off w i cf sh ps Hi)). apply div_bind.
    destruct (alone_cut x Hb) as [Hw Ha].
    assert (Et : tokens ("%{" ++ x ++ "}") = toks [("", x)] "") by (rewrite <- Ha; apply tokens_cut; exact Hw).
    rewrite Et. cbn [toks istr_loop]. rewrite (calls_nonempty _ _ _ Hc).
    destruct Hn as [<-|[<-|[<-|[<-|[]]]]].
    - eapply div_after; [ apply yields_lift; exact (calls_md _ _ _ Hc) | ]. cbn [fst snd is_alias andb String.eqb].
      eapply div_after; [ apply yields_lift; exact (written_key_new _ _ Hk) | ]. apply div_bind.
      exact (Hrec (mk_key arg (PStr r :: rest)) rest eq_refl).
    - eapply div_after; [ apply yields_lift; exact (calls_md _ _ _ Hc) | ]. cbn [fst snd is_alias andb String.eqb].
      eapply div_after; [ apply yields_lift; exact (written_key_new _ _ Hk) | ]. apply div_bind.
      exact (Hrec (mk_key arg (PStr r :: rest)) rest eq_refl).
    - eapply div_after; [ apply yields_lift; exact (alias_md _ false _ Hc) | ]. cbn [fst snd].
      rewrite String.eqb_refl. cbn [negb andb is_alias].
      eapply div_after; [ apply yields_lift; exact (written_key_new _ _ Hk) | ]. apply div_bind.
      exact (Hrec (mk_key arg (PStr r :: rest)) rest eq_refl).
    - eapply div_after; [ apply yields_lift; exact (alias_md _ true _ Hc) | ]. cbn [fst snd].
      rewrite String.eqb_refl. cbn [negb andb is_alias].
      eapply div_after; [ apply yields_lift; exact (written_key_new _ _ Hk) | ]. apply div_bind.
      exact (Hrec (mk_key arg (PStr r :: rest)) rest eq_refl).
  Qed.

  (** The hierarchy, when texts that lead on do not end. *)
  Lemma stuck_hierarchy rec r s : stuck r ->
    (forall x r', refers x r' -> stuck r' -> diverges P (rec (RStr ("%{" ++ x ++ "}") true))) ->
    diverges P (merging s ps (merge_locations w rec (mk_key r [PStr r]) s)).
  Proof.
    intros Hr Hrec. destruct (Hend r Hr) as (_ & Hp & pre & e & post & m & x & r' & Ees & Hpre & He & Hg & Hx & Hr').
    apply map_eq_app in Ees as (ps1 & ps2 & Eps & <- & E2).
    destruct ps2 as [|p ps2]; [ discriminate | ]. injection E2 as <- <-.
    assert (Hin : In p ps) by (rewrite Eps; apply in_or_app; right; left; reflexivity).
    replace (merging s ps) with (merging s (ps1 ++ p :: ps2)) by (rewrite <- Eps; reflexivity).
    apply (div_merging P (good_off w i cf sh ps Hi)).
    - apply Forall_forall. intros q Hq. rewrite Forall_map in Hpre.
      destruct (proj1 (Forall_forall _ _) Hpre q Hq) as (l & Hl & Hu).
      refine (level_yields_none rec r s q l Hp _ Hl Hu). rewrite Eps. apply in_or_app. left. exact Hq.
    - unfold merge_locations. inversion He as [|o pth m' El Ef Hy E]; subst m'. rewrite Ef.
      apply (div_node P (good_off w i cf sh ps Hi)). rewrite El.
      unfold invoke. apply (div_node P (good_off w i cf sh ps Hi)). cbn [loc_exists].
      unfold provider_lookup. rewrite Ef. cbn [f_kind].
      eapply div_after; [ apply yields_lift; reflexivity | ].
      eapply div_after with (a := m).
      { intros s0 G. refine (data_hash_run w rec i cf sh ps p "yaml_data" _ m s0 Hi Hd Hin Ef _ _ G).
        - exists [LPath o pth true]. split; [ exact El | left; reflexivity ].
        - exact (level_hash w (p_entry p) m o pth Ef Hy). }
      rewrite Hg. apply div_bind. unfold interpolate. apply div_bind. cbn [do_interp]. exact (Hrec x r' Hx Hr').
  Qed.

  Lemma stuck_run : forall n,
    (forall k r rest, k_parts k = PStr r :: rest -> stuck r -> diverges P (run w n (RLookup k None))) /\
    (forall x r, refers x r -> stuck r -> diverges P (run w n (RStr ("%{" ++ x ++ "}") true))).
  Proof.
    induction n as [|n [IH1 IH2]]; [ split; intros; intros s _; reflexivity | ]. split.
    - intros k r rest Hk Hr. destruct (Hend r Hr) as (Hlo & Hp & _). cbn [run body]. apply div_bind.
      unfold lookup. eapply div_after with (a := r); [ apply yields_lift; unfold root; rewrite Hk; reflexivity | ].
      apply String.eqb_neq in Hlo. rewrite Hlo. rewrite Htop. cbn [call_lk]. apply div_bind.
      unfold config_lookup_at. eapply div_after with (a := rc).
      { intros s0 G. exists s0. split; [ | exact G ]. unfold get_config.
        replace (if String.eqb (w_cfgpath w) "" then w_cfgpath w else w_cfgpath w) with (w_cfgpath w)
          by (destruct (String.eqb (w_cfgpath w) ""); reflexivity).
        unfold bind, run_op. rewrite (g_configs _ _ _ _ _ _ G), Hrc. reflexivity. }
      eapply div_after; [ apply yields_lift; exact (plain_new r Hp) | ].
      eapply div_after with (a := MdData).
      { intros s0 G. exists s0. split; [ | exact G ]. unfold run_op. rewrite (g_iv _ _ _ _ _ _ G), Hm. reflexivity. }
      eapply div_after with (a := Some st).
      { intros s0 G. exists s0. split; [ | exact G ]. unfold run_op. rewrite (g_iv _ _ _ _ _ _ G), Hst. reflexivity. }
      unfold merge_hierarchy. apply stuck_hierarchy; [ exact Hr | ]. intros x r' Hx Hr'. exact (IH2 x r' Hx Hr').
    - intros x r Hx Hr. cbn [run body]. apply (stuck_text _ x r Hx). intros k rest Hk. exact (IH1 k r rest Hk Hr).
  Qed.
End Stuck.

(** From a new invocation on. *)
Section Top.
  Variables (w : world) (on_disk : string -> bool) (matching : string -> list string).
  Hypothesis Hstat : forall t p, w_stat w t p = on_disk p.
  Hypothesis Hglob : forall t p, w_glob w t p = matching p.
  Hypothesis Htop : w_top w = LkConfig.
  Variables (sc : scope) (c : config) (file : cfg_file).
  Hypothesis Hfile : forall t, w_config w t (w_cfgpath w) = file.
  Hypothesis Hconf : config_new (w_env w) (w_cfgpath w) file = Ok c.

  Lemma levels_no_options es ls n : Forall2 (level_is w) es ls ->
    Forall (fun l => under "lookup_options" l = None) ls ->
    hierarchy_gives w sc (value_is (fun t => answers w sc es None n (QStr t))) "lookup_options" (SDeep []) es
      (pure_lookup (SDeep []) (map (under "lookup_options") ls)).
  Proof.
    intros Hl Ho. apply picks_pure. generalize (value_is (fun t => answers w sc es None n (QStr t))). intro vi.
    induction Hl as [|e l es ls H Hl IH]; [ constructor | ]. inversion Ho; subst. constructor; [ | apply IH; assumption ].
    apply level_gives; [ exact options_key_plain | exact H | ]. intros v E. congruence.
  Qed.

  Lemma no_options_pure ls : Forall (fun l => under "lookup_options" l = None) ls ->
    pure_lookup (SDeep []) (map (under "lookup_options") ls) = None.
  Proof.
    intro Ho. assert (N : found (map (under "lookup_options") ls) = []).
    { induction Ho as [|l ls H Ho IH]; [ reflexivity | ]. simpl. rewrite H. exact IH. }
    destruct ls as [|l [|l2 ls]]; [ reflexivity | | ].
    - inversion Ho; subst. simpl. match goal with H : under _ l = None |- _ => rewrite H end. reflexivity.
    - change (merge_fold (SDeep []) (found (map (under "lookup_options") (l :: l2 :: ls))) = None). rewrite N. reflexivity.
  Qed.

  Lemma stuck_lookup es ls stuck k r rest opts mo s n : hierarchy_is w on_disk matching sc c es ->
    Forall2 (level_is w) es ls -> Forall (fun l => under "lookup_options" l = None) ls ->
    endless w es stuck -> k_parts k = PStr r :: rest -> stuck r -> merge_option opts None mo -> strategy_is mo s ->
    fst (run_lookup w n k opts (init_st sc None)) = NoFuel.
  Proof.
    intros Hh Hl Hno Hend Hk Hr Hmo Hst.
    assert (Q : forall N, fst (lookup w (run w (S (S N))) k opts (init_st sc None)) = NoFuel).
    { intro N. pose proof (levels_no_options es ls 0 Hl Hno) as Ha. rewrite (no_options_pure ls Hno) in Ha.
      unfold lookup. unfold bind at 1, lift at 1, root at 1. rewrite Hk.
      destruct (Hend r Hr) as (Hlo & Hp & _).
      apply String.eqb_neq in Hlo. rewrite Hlo. rewrite Htop. cbn [call_lk].
      destruct (get_config_run w 0 N (Nat.le_0_l _) sc c file Hfile Hconf (new_iv sc false) es None (init_st sc None)
                  eq_refl eq_refl eq_refl eq_refl (or_introl eq_refl) (hierarchy_created w on_disk matching sc c es N Hstat Hglob Hh) Ha) as (rc & s1 & E1 & R1 & R2 & R3 & R4 & sh & Sh & G1).
      assert (Fn : Forall (fun p => e_function (p_entry p) <> None) (rc_providers rc)).
      { destruct Hh as (d & ds & _ & H2 & _). apply (proj1 (Forall_map p_entry (fun e => e_function e <> None) _)).
        rewrite R1. exact (resolved_functions _ _ _ _ _ _ _ _ _ H2). }
      set (cf := [(w_cfgpath w, rc)]) in *. set (ps := rc_providers rc) in *.
      assert (C : fst (config_lookup_at w (run w (S (S N))) (match opts with Some o => o | None => [] end) (w_cfgpath w) r "" (init_st sc None)) = NoFuel).
      { unfold config_lookup_at. unfold bind at 1. rewrite E1. unfold bind at 1, lift at 1. rewrite (plain_new r Hp).
        unfold bind at 1, run_op at 1. rewrite (g_iv _ _ _ _ _ _ G1). cbn [new_iv iv_mode].
        unfold run_scoped at 1. rewrite (g_iv _ _ _ _ _ _ G1). cbn [new_iv iv_mode].
        set (i0 := new_iv sc false) in *.
        set (f := fun i : iv => iv_with_mode MdData (iv_with_expl (iv_expl i && negb (x_only (s_ex s1))) i)).
        assert (I : iv_expl (f i0) = false) by reflexivity.
        assert (B : forall t0, good w (f i0) cf sh ps t0 ->
          fst (run_scoped (SNode NLookup (k_source (mk_key r [PStr r])))
             (bind (lift (lookup_options rc (mk_key r [PStr r]))) (fun lo =>
              bind (set_merge (mgets "merge" (match opts with Some o => o | None => [] end)) lo) (fun _ =>
              lookup_and_convert w (bind (run_op OStrat) (fun s => merge_hierarchy w (run w (S (S N))) (mk_key r [PStr r]) ps s))))) t0)
          = NoFuel).
        { intros t0 G0. rewrite node_off by exact (good_off w (f i0) _ _ _ I t0 G0).
          unfold bind at 1, lift at 1.
          rewrite (options_for_model rc None r None (mk_key r [PStr r]) R3 R4 eq_refl) by (apply of_none; discriminate).
          destruct (set_merge_run w (f i0) cf sh ps opts None mo s t0 I Hmo Hst G0) as (t1 & E & G2).
          unfold bind at 1. rewrite E.
          unfold lookup_and_convert, extract_conversion. unfold bind at 1. unfold bind at 1. unfold run_op at 1.
          rewrite (g_iv _ _ _ _ _ _ G2). cbn [iv_with_strat iv_with_luopts iv_luopts conversion]. unfold ret at 1.
          set (ib := iv_with_strat (Some s) (iv_with_luopts None (f i0))) in *.
          assert (Dv : diverges (good w ib cf sh ps)
                        (bind (run_op OStrat) (fun s => merge_hierarchy w (run w (S (S N))) (mk_key r [PStr r]) ps s))).
          { eapply div_after with (a := Some s).
            { intros t G. exists t. split; [ | exact G ]. unfold run_op. rewrite (g_iv _ _ _ _ _ _ G). reflexivity. }
            unfold merge_hierarchy.
            assert (Hrc : aget (w_cfgpath w) cf = Some rc) by (unfold cf; cbn [aget]; rewrite String.eqb_refl; reflexivity).
            assert (Hend' : endless w (map p_entry (rc_providers rc)) stuck) by (change (rc_providers rc) with ps; rewrite R1; exact Hend).
            refine (stuck_hierarchy w ib cf sh rc eq_refl R2 Fn stuck Hend' (run w (S (S N))) r s Hr _).
            exact (proj2 (stuck_run w ib cf sh rc eq_refl R2 Fn Htop s eq_refl eq_refl Hrc stuck Hend' (S (S N)))). }
          exact (div_bind _ _ _ _ _ Dv t1 G2). }
        specialize (B (with_iv (f i0) s1) (good_with_iv _ _ _ _ _ _ _ G1)).
        unfold with_copy. rewrite (g_iv _ _ _ _ _ _ G1).
        match goal with |- context [let (_, _) := ?t in _] => change (fst t = NoFuel) in B; destruct t as [o s2] end.
        cbn [fst] in *. exact B. }
      unfold bind at 1.
      destruct (config_lookup_at w (run w (S (S N))) (match opts with Some o => o | None => [] end) (w_cfgpath w) r "" (init_st sc None)) as [o s2].
      cbn [fst] in C. subst o. reflexivity. }
    destruct (fst (run_lookup w n k opts (init_st sc None))) eqn:E; [ exfalso | exfalso | exfalso | reflexivity ];
      (assert (Hne : fst (run_lookup w n k opts (init_st sc None)) <> NoFuel) by congruence;
       rewrite <- (run_lookup_mono w n (3 + n) k opts (init_st sc None) ltac:(lia) Hne) in E;
       revert E; change (run_lookup w (3 + n) k opts) with
         (bind (bind (lookup w (run w (S (S n))) k opts) (fun v => ret (v, true))) (fun r => ret (fst r)));
       unfold bind; specialize (Q n); destruct (lookup w (run w (S (S n))) k opts (init_st sc None)) as [o s2];
       cbn [fst] in Q; subst o; discriminate).
  Qed.
End Top.
