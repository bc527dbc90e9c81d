(** Making the providers of a configuration, whatever the values of the
    variables are, and lookups whose configuration cannot be resolved. *)

From Coq Require Import String Ascii List ZArith Bool Arith Lia.
From Verif Require Import Str Value Outcome Key Merge Fpath Config Ipl Explain State Engine Meta Fuel Session
  SpecKey SpecKeyErr SpecIpl SpecInterp SpecConfig SpecMerge SpecLookup SpecFail SpecWorld SpecDeep
  KeyFacts KeyErrFacts ValueFacts MergeFacts MergeLookup StrFacts IplFacts InterpFacts IplExact ResolveFacts
  LookupExact HierarchyExact LookupTop FailExact FailText SettledLookup Acyclic Cycles RootFacts Decided DecidedOptions DecidedTop
  DeepExact DeepEntry.
Import ListNotations.
Open Scope nat_scope.
Open Scope string_scope.
Open Scope list_scope.

(** ** Providers *)

Lemma located_usable w od mt n sc dr l ls : located w od mt n sc dr l ls -> Forall (fun x => exists p, loc_resolved x = Ok p) ls.
Proof.
  intros [o r e t H|p t H|o r t H|src key template v l' ts H1 H2 H3].
  - constructor; [ eexists; reflexivity | constructor ].
  - apply Forall_forall. intros x Hx. apply in_map_iff in Hx as (f & <- & _). eexists. reflexivity.
  - constructor; [ eexists; reflexivity | constructor ].
  - apply Forall_forall. intros x Hx. apply in_map_iff in Hx as (f & <- & _). eexists. reflexivity.
Qed.

Lemma entry_in_usable w od mt n sc env root d e e' : entry_in w od mt n sc env root d e e' -> usable e'.
Proof.
  intros [f dd pd o ls _ _ _ _ Hl]. split; [ discriminate | ]. cbn [e_locations]. intros ls0 l E Hin. subst ls.
  destruct (e_locations e) as [l0|]; [ | discriminate ]. destruct Hl as (lss & Hl & E). injection E as ->.
  apply in_concat in Hin as (x & Hx & Hin). clear - Hl Hx Hin.
  induction Hl as [|a b l0 lss H _ IH]; [ destruct Hx | ]. destruct Hx as [->|Hx]; [ | exact (IH Hx) ].
  exact (proj1 (Forall_forall _ _) (located_usable _ _ _ _ _ _ _ _ H) l Hin).
Qed.

Section Providers.
  Variables (w : world) (n : nat) (on_disk : string -> bool) (matching : string -> list string) (sc : scope) (c : config).
  Hypothesis Hstat : forall t p, w_stat w t p = on_disk p.
  Hypothesis Hglob : forall t p, w_glob w t p = matching p.
  Let root := c_root c.
  Let entry_is d := entry_in w on_disk matching n sc (w_env w) root d.
  Let entry_fails d := entry_not w on_disk matching n sc (w_env w) root d.

  Lemma news_nil s : news s s [] [].
  Proof. constructor; try constructor; try reflexivity; lia. Qed.

  Lemma news_app s s1 s2 es ps es' ps' : news s s1 es ps -> news s1 s2 es' ps' -> news s s2 (es ++ es') (ps ++ ps').
  Proof.
    intros [A1 A2 A3 A4] [B1 B2 B3 B4]. pose proof (m_next _ _ A2). pose proof (m_next _ _ B2). constructor.
    - rewrite map_app, A1, B1. reflexivity.
    - exact (made_trans _ _ _ A2 B2).
    - apply Forall_app. split; (eapply Forall_impl; [ | eassumption ]); cbn; intros; lia.
    - rewrite map_app. clear - A3 A4 B3 B4. induction ps as [|p ps IH]; [ exact B4 | ].
      inversion A3 as [|? ? P1 P2]; subst. cbn [map app] in *. inversion A4 as [|? ? Q1 Q2]; subst. constructor; [ | exact (IH P2 Q2) ].
      intro C. apply in_app_or in C as [C|C]; [ exact (Q1 C) | ]. apply in_map_iff in C as (p' & E & C).
      pose proof (proj1 (Forall_forall _ _) B3 p' C) as K. cbn in K. lia.
  Qed.

  (** One entry made into a provider. *)
  Lemma create_one s1 s e' : e_function e' <> None -> asked s s1 ->
    exists s2, create_provider e' s1 = (Ok (mk_provider (s_next s1) e'), s2) /\ news s s2 [e'] [mk_provider (s_next s1) e'].
  Proof.
    intros Hf A1. unfold create_provider. destruct (e_function e'); [ | congruence ]. unfold bind, run_op, ret.
    eexists. split; [ reflexivity | ]. assert (Ei : s_next s1 = s_next s) by (destruct A1 as [l ->]; reflexivity). rewrite Ei.
    constructor.
    - reflexivity.
    - apply (made_trans _ s1); [ exact (made_asked _ _ A1) | ]. constructor; try reflexivity; cbn; rewrite ?Ei; [ lia | | ].
      + intros id H. destruct (Nat.eqb_spec id (s_next s)); [ lia | reflexivity ].
      + intros id H. destruct (Nat.eqb_spec id (s_next s)); [ reflexivity | lia ].
    - constructor; [ cbn; lia | constructor ].
    - constructor; [ intros [] | constructor ].
  Qed.

  Lemma news_kept s s' es ps : news s s' es ps -> iv_scope (s_iv s) = sc -> off s -> iv_scope (s_iv s') = sc /\ off s'.
  Proof. intros H Hs Ho. pose proof (m_iv _ _ (n_made _ _ _ _ H)) as E. unfold off. rewrite E. auto. Qed.

  (** What happens after the first entries is what happens with the others. *)
  Lemma create_first d : forall es es', Forall2 (entry_is (Some d)) es es' ->
    forall s, iv_scope (s_iv s) = sc -> off s -> exists ps s', news s s' es' ps /\
      forall post, create_each w (run w n) root d (es ++ post) s =
        bind (create_each w (run w n) root d post) (fun qs => ret (ps ++ qs)) s'.
  Proof.
    intros es es' H. induction H as [|e e' es es' He _ IH]; intros s Hs Ho.
    - exists [], s. split; [ exact (news_nil s) | ]. intro post. cbn [app]. unfold bind, ret.
      destruct (create_each w (run w n) root d post s) as [[a|x| |] s']; reflexivity.
    - destruct (deep_entry w n on_disk matching Hstat Hglob sc root (Some d) e e' He s Hs Ho) as (s1 & E1 & A1).
      destruct (create_one s1 s e' (entry_in_function _ _ _ _ _ _ _ _ _ He) A1) as (s2 & E2 & N2).
      destruct (news_kept _ _ _ _ N2 Hs Ho) as [Hs2 Ho2].
      destruct (IH s2 Hs2 Ho2) as (ps & s3 & N3 & E3).
      exists (mk_provider (s_next s1) e' :: ps), s3. split; [ exact (news_app _ _ _ _ _ _ _ N2 N3) | ].
      intro post. cbn [app create_each]. unfold bind at 1. rewrite E1. unfold bind at 1. rewrite E2. unfold bind at 1. rewrite E3.
      unfold bind, ret. destruct (create_each w (run w n) root d post s3) as [[a|x| |] s']; reflexivity.
  Qed.

  (** The defaults come first. *)
  Lemma create_with d es s : entry_is None (c_defaults c) d -> iv_scope (s_iv s) = sc -> off s ->
    exists s1, asked s s1 /\ create_providers w (run w n) c es s = create_each w (run w n) root d es s1.
  Proof.
    intros H Hs Ho. destruct (deep_entry w n on_disk matching Hstat Hglob sc root None (c_defaults c) d H s Hs Ho) as (s1 & E1 & A1).
    exists s1. split; [ exact A1 | ]. unfold create_providers, bind. fold root. rewrite E1. reflexivity.
  Qed.

  Lemma news_asked s s1 s2 es ps : asked s s1 -> news s1 s2 es ps -> news s s2 es ps.
  Proof.
    intros A [N1 N2 N3 N4]. assert (Ei : s_next s1 = s_next s) by (destruct A as [l ->]; reflexivity). rewrite Ei in *.
    constructor; try assumption. exact (made_trans _ _ _ (made_asked _ _ A) N2).
  Qed.

  Lemma create_run d es es' s : entry_is None (c_defaults c) d -> Forall2 (entry_is (Some d)) es es' ->
    iv_scope (s_iv s) = sc -> off s ->
    exists ps s', create_providers w (run w n) c es s = (Ok ps, s') /\ news s s' es' ps.
  Proof.
    intros Hd He Hs Ho. destruct (create_with d es s Hd Hs Ho) as (s1 & A1 & E1). destruct (asked_kept _ _ _ A1 Hs Ho) as [Hs1 Ho1].
    destruct (create_first d es es' He s1 Hs1 Ho1) as (ps & s2 & N2 & E2). exists ps, s2. split; [ | exact (news_asked _ _ _ _ _ A1 N2) ].
    rewrite E1. specialize (E2 []). rewrite app_nil_r in E2. rewrite E2. unfold bind, ret. cbn. rewrite app_nil_r. reflexivity.
  Qed.

  (** The providers of both hierarchies. *)
  Let both : M st (list provider * list provider) :=
    bind (create_providers w (run w n) c (c_hierarchy c)) (fun ps =>
    bind (create_providers w (run w n) c (c_default_hierarchy c)) (fun ds => ret (ps, ds))).

  Lemma hierarchy_made es : hierarchy_in w on_disk matching n sc c es -> created w n sc c es.
  Proof.
    intros (d & ds & Hd & He & Hds). split.
    - clear Hds. induction He as [|e e' l l' H _ IH]; constructor; [ exact (entry_in_usable _ _ _ _ _ _ _ _ _ _ H) | exact IH ].
    - intros s Hs Ho. destruct (create_run d _ es s Hd He Hs Ho) as (ps & s1 & E1 & N1).
      destruct (news_kept _ _ _ _ N1 Hs Ho) as [Hs1 Ho1].
      destruct (create_run d _ ds s1 Hd Hds Hs1 Ho1) as (qs & s2 & E2 & N2).
      exists ps, s1, ds, qs, s2. auto.
  Qed.

  (** An entry of one hierarchy. *)
  Lemma create_fails d pre e post es x s : entry_is None (c_defaults c) d -> Forall2 (entry_is (Some d)) pre es ->
    entry_fails (Some d) e x -> iv_scope (s_iv s) = sc -> off s ->
    exists s', create_providers w (run w n) c (pre ++ e :: post) s = (Panic x, s') /\ s_shared s' = s_shared s.
  Proof.
    intros Hd He Hx Hs Ho. destruct (create_with d (pre ++ e :: post) s Hd Hs Ho) as (s1 & A1 & E1).
    destruct (asked_kept _ _ _ A1 Hs Ho) as [Hs1 Ho1].
    destruct (create_first d pre es He s1 Hs1 Ho1) as (ps & s2 & N2 & E2).
    destruct (news_kept _ _ _ _ N2 Hs1 Ho1) as [Hs2 Ho2].
    destruct (stops_entry w n on_disk matching Hstat Hglob sc root (Some d) e x Hx s2 Hs2 Ho2) as (s3 & E3 & K3).
    exists s3. rewrite E1, E2. cbn [create_each]. unfold bind. rewrite E3. split; [ reflexivity | ].
    rewrite K3, (m_shared _ _ (n_made _ _ _ _ N2)). exact (asked_same_shared _ _ A1).
  Qed.
  Lemma create_endless d pre e post es s : entry_is None (c_defaults c) d -> Forall2 (entry_is (Some d)) pre es ->
    endless sc (resolve_entry w (run w n) root (Some d) e) -> iv_scope (s_iv s) = sc -> off s ->
    fst (create_providers w (run w n) c (pre ++ e :: post) s) = NoFuel.
  Proof.
    intros Hd He Hx Hs Ho. destruct (create_with d (pre ++ e :: post) s Hd Hs Ho) as (s1 & A1 & E1).
    destruct (asked_kept _ _ _ A1 Hs Ho) as [Hs1 Ho1].
    destruct (create_first d pre es He s1 Hs1 Ho1) as (ps & s2 & N2 & E2).
    destruct (news_kept _ _ _ _ N2 Hs1 Ho1) as [Hs2 Ho2]. specialize (Hx s2 Hs2 Ho2).
    rewrite E1, E2. cbn [create_each]. unfold bind. destruct (resolve_entry w (run w n) root (Some d) e s2) as [o s3].
    cbn [fst] in Hx. subst o. reflexivity.
  Qed.

  (** Where an entry is. *)
  Lemma split_either {X} (a b pre post : list X) e : a ++ b = pre ++ e :: post ->
    (exists p, a = pre ++ e :: p) \/ (exists p q, pre = a ++ p /\ b = p ++ e :: q).
  Proof.
    revert pre. induction a as [|x a IH]; intros pre E; cbn [app] in E.
    - right. exists pre, post. auto.
    - destruct pre as [|y pre]; cbn [app] in E.
      + injection E as -> E. left. exists a. reflexivity.
      + injection E as -> E. destruct (IH pre E) as [(p & ->)|(p & q & -> & ->)].
        * left. exists p. reflexivity.
        * right. exists p, q. auto.
  Qed.

  Lemma hierarchy_refused x : hierarchy_not w on_disk matching n sc c x -> stops sc both x.
  Proof.
    intros [H|d pre e post es Hd E He Hx] s Hs Ho; unfold both.
    - destruct (stops_entry w n on_disk matching Hstat Hglob sc root None (c_defaults c) x H s Hs Ho) as (s1 & E1 & K1).
      exists s1. unfold create_providers, bind. fold root. rewrite E1. auto.
    - destruct (split_either _ _ _ _ _ E) as [(p & Eh)|(p & q & -> & Eb)].
      + rewrite Eh. destruct (create_fails d pre e p es x s Hd He Hx Hs Ho) as (s1 & E1 & K1). exists s1. unfold bind. rewrite E1. auto.
      + apply Forall2_app_inv_l in He as (es1 & es2 & He1 & He2 & ->).
        destruct (create_run d _ es1 s Hd He1 Hs Ho) as (ps & s1 & E1 & N1).
        destruct (news_kept _ _ _ _ N1 Hs Ho) as [Hs1 Ho1].
        destruct (create_fails d p e q es2 x s1 Hd He2 Hx Hs1 Ho1) as (s2 & E2 & K2).
        exists s2. unfold bind. rewrite E1, Eb, E2. split; [ reflexivity | ]. rewrite K2. exact (m_shared _ _ (n_made _ _ _ _ N1)).
  Qed.

  Hypothesis Hsc : orderly_scope sc.
  Hypothesis Hopt : forall e o, In e (c_defaults c :: c_hierarchy c ++ c_default_hierarchy c) -> e_options e = Some o -> wf (VMap o) = true.

  Lemma hierarchy_settles : (exists es, hierarchy_in w on_disk matching n sc c es) \/
    (exists x, hierarchy_not w on_disk matching n sc c x) \/ endless sc both.
  Proof.
    destruct (entry_settles w n on_disk matching Hstat Hglob sc root None Hsc (c_defaults c)) as [(d & Hd)|[(x & H)|H]].
    - discriminate.
    - intros o E. exact (Hopt _ o (or_introl eq_refl) E).
    - assert (Q : Forall (fun e => (exists e', entry_is (Some d) e e') \/
        ((exists x, entry_fails (Some d) e x) \/ endless sc (resolve_entry w (run w n) root (Some d) e)))
        (c_hierarchy c ++ c_default_hierarchy c)).
      { apply Forall_forall. intros e He. apply (entry_settles w n on_disk matching Hstat Hglob sc root (Some d) Hsc e).
        - intros d0 E. injection E as <-. exact (entry_in_function _ _ _ _ _ _ _ _ _ Hd).
        - intros o E. exact (Hopt e o (or_intror He) E). }
      destruct (first_other _ _ _ Q) as [K|(pre & e & post & E & Hp & Hx)].
      + left. apply Forall_choice in K as (es & K). apply Forall2_app_inv_l in K as (es1 & es2 & K1 & K2 & _). exists es1, d, es2. auto.
      + right. apply Forall_choice in Hp as (es & Hp). destruct Hx as [(x & Hx)|Hx].
        * left. exists x. eapply hx_entry; eassumption.
        * right. intros s Hs Ho. unfold both. destruct (split_either _ _ _ _ _ E) as [(p & Eh)|(p & q & -> & Eb)].
          -- rewrite Eh. apply fst_bind. exact (create_endless d pre e p es s Hd Hp Hx Hs Ho).
          -- apply Forall2_app_inv_l in Hp as (es1 & es2 & Hp1 & Hp2 & ->).
             destruct (create_run d _ es1 s Hd Hp1 Hs Ho) as (ps & s1 & E1 & N1).
             destruct (news_kept _ _ _ _ N1 Hs Ho) as [Hs1 Ho1].
             unfold bind at 1. rewrite E1. rewrite Eb. apply fst_bind. exact (create_endless d p e q es2 s1 Hd Hp2 Hx Hs1 Ho1).
    - right. left. exists x. apply hx_defaults. exact H.
    - right. right. unfold both. apply endless_now. unfold create_providers. apply endless_now. exact H.
  Qed.
End Providers.

(** ** Lookups *)

Section Lookup.
  Variables (w : world) (n : nat) (sc : scope) (c : config) (file : cfg_file).
  Hypothesis Hfile : forall t, w_config w t (w_cfgpath w) = file.
  Hypothesis Hconf : config_new (w_env w) (w_cfgpath w) file = Ok c.
  Hypothesis Htop : w_top w = LkConfig.
  Let both : M st (list provider * list provider) :=
    bind (create_providers w (run w n) c (c_hierarchy c)) (fun ps =>
    bind (create_providers w (run w n) c (c_default_hierarchy c)) (fun ds => ret (ps, ds))).

  Lemma lookup_starts k opts r ps s : k_parts k = PStr r :: ps -> r <> "lookup_options" ->
    exists A (f : rconfig -> M st A) (g : A -> M st (option value)),
      lookup w (run w n) k opts s = bind (bind (get_config w (run w n) (w_cfgpath w) "") f) g s.
  Proof.
    intros Hk Hr. do 3 eexists. unfold lookup. unfold bind at 1, lift at 1, root at 1. rewrite Hk.
    apply String.eqb_neq in Hr. rewrite Hr. rewrite Htop. reflexivity.
  Qed.

  Lemma refused_lookup k opts r ps x s : stops sc both x -> k_parts k = PStr r :: ps -> r <> "lookup_options" ->
    iv_scope (s_iv s) = sc -> off s -> s_configs s = [] -> shared_ok w c s ->
    exists s', lookup w (run w n) k opts s = (Panic x, s') /\ shared_ok w c s'.
  Proof.
    intros Hb Hk Hr Hs Ho Hc Hsh. destruct (lookup_starts k opts r ps s Hk Hr) as (A & f & g & ->).
    destruct (shared_run w c file Hfile Hconf s Hsh) as (s1 & E1 & I1 & C1 & S1).
    destruct (Hb s1) as (s2 & E2 & K2); [ rewrite I1; exact Hs | unfold off; rewrite I1; exact Ho | ].
    exists s2. split; [ | right; rewrite K2; exact S1 ]. unfold bind at 1 2. unfold get_config.
    replace (if String.eqb (w_cfgpath w) "" then w_cfgpath w else w_cfgpath w) with (w_cfgpath w)
      by (destruct (String.eqb (w_cfgpath w) ""); reflexivity).
    unfold bind at 1. unfold run_op at 1. rewrite Hc. cbn [aget]. unfold bind at 1. rewrite E1.
    unfold bind at 1. unfold resolve_config. unfold bind at 1. unfold run_scoped at 1.
    assert (O1 : iv_expl (s_iv s1) = false) by (rewrite I1; exact Ho). rewrite O1.
    change (bind (create_providers w (run w n) c (c_hierarchy c)) (fun ps =>
      bind (create_providers w (run w n) c (c_default_hierarchy c)) (fun ds => ret (ps, ds))) s1) with (both s1).
    rewrite E2. reflexivity.
  Qed.

  Lemma endless_lookup k opts r ps s : endless sc both -> k_parts k = PStr r :: ps -> r <> "lookup_options" ->
    iv_scope (s_iv s) = sc -> off s -> s_configs s = [] -> shared_ok w c s ->
    fst (lookup w (run w n) k opts s) = NoFuel.
  Proof.
    intros Hb Hk Hr Hs Ho Hc Hsh. destruct (lookup_starts k opts r ps s Hk Hr) as (A & f & g & ->).
    destruct (shared_run w c file Hfile Hconf s Hsh) as (s1 & E1 & I1 & C1 & S1).
    pose proof (Hb s1) as E2. rewrite I1 in E2. unfold off in E2. rewrite I1 in E2. specialize (E2 Hs Ho).
    apply fst_bind. apply fst_bind. unfold get_config.
    replace (if String.eqb (w_cfgpath w) "" then w_cfgpath w else w_cfgpath w) with (w_cfgpath w)
      by (destruct (String.eqb (w_cfgpath w) ""); reflexivity).
    unfold bind at 1. unfold run_op at 1. rewrite Hc. cbn [aget]. unfold bind at 1. rewrite E1.
    apply fst_bind. unfold resolve_config. apply fst_bind. unfold run_scoped at 1.
    assert (O1 : iv_expl (s_iv s1) = false) by (rewrite I1; exact Ho). rewrite O1. exact E2.
  Qed.
End Lookup.

(** More steps do not make a configuration that was refused resolve. *)
Lemma refused_more w n n' sc c x : n <= n' ->
  stops sc (bind (create_providers w (run w n) c (c_hierarchy c)) (fun ps =>
    bind (create_providers w (run w n) c (c_default_hierarchy c)) (fun ds => ret (ps, ds)))) x ->
  stops sc (bind (create_providers w (run w n') c (c_hierarchy c)) (fun ps =>
    bind (create_providers w (run w n') c (c_default_hierarchy c)) (fun ds => ret (ps, ds)))) x.
Proof.
  intros Hn H s Hs Ho. destruct (H s Hs Ho) as (s' & E & K). exists s'. split; [ | exact K ]. unfold bind in E |- *.
  destruct (create_le w n n' c (c_hierarchy c) Hn s) as [C|C].
  { destruct (create_providers w (run w n) c (c_hierarchy c) s) as [o s1]. cbn [fst] in C. subst o. discriminate E. }
  rewrite C. destruct (create_providers w (run w n) c (c_hierarchy c) s) as [[ps|e| |] s1]; try exact E.
  destruct (create_le w n n' c (c_default_hierarchy c) Hn s1) as [D|D].
  { destruct (create_providers w (run w n) c (c_default_hierarchy c) s1) as [o s2]. cbn [fst] in D. subst o. discriminate E. }
  rewrite D. exact E.
Qed.
