(** Lookup options that ask for a key (towards C83). *)

From Coq Require Import String Ascii List ZArith Bool Arith Lia.
From Verif Require Import Str Value Outcome Key Merge Fpath Config Ipl Explain State Engine Meta Fuel
  SpecKey SpecKeyErr SpecIpl SpecInterp SpecConfig SpecMerge SpecPath SpecLookup SpecFail SpecWorld
  KeyFacts KeyErrFacts ValueFacts MergeFacts MergeLookup StrFacts IplFacts InterpFacts IplExact ResolveFacts
  LookupExact LoaderFacts HierarchyExact LookupTop FailExact FailText SettledLookup Acyclic Cycles RootFacts
  AnswerFacts FailMore Decided DecidedLevels DecidedNested DecidedOptions.
Import ListNotations.
Open Scope nat_scope.
Open Scope string_scope.
Open Scope list_scope.

(** The first text of a value that has an expression is t: everything that comes
    before it has none. *)
Inductive first_text (t : string) : value -> Prop :=
| ft_here : first_text t (VStr t)
| ft_arr : forall pre v post, Forall (fun y => wf y = true /\ settled y) pre -> first_text t v -> first_text t (VArr (pre ++ v :: post))
| ft_key : forall pre k v post, Forall (fun e => (wf (fst e) = true /\ settled (fst e)) /\ wf (snd e) = true /\ settled (snd e)) pre ->
    first_text t k -> first_text t (VMap (pre ++ (k, v) :: post))
| ft_value : forall pre k v post, Forall (fun e => (wf (fst e) = true /\ settled (fst e)) /\ wf (snd e) = true /\ settled (snd e)) pre ->
    wf k = true -> settled k -> first_text t v -> first_text t (VMap (pre ++ (k, v) :: post)).

(** The first expression of a text looks up a key with the root r. *)
Definition asks_for (t r : string) : Prop :=
  exists u ex rest name arg ps, t = (u ++ "%{" ++ ex ++ "}" ++ rest)%string /\ ~ has "%{" u /\ ~ has "}" ex /\
    calls (trim_space ex) name arg /\ looks_up t ex name /\ written_key arg (PStr r :: ps).

Section Ask.
  Variables (w : world) (on_disk : string -> bool) (matching : string -> list string).
  Hypothesis Hstat : forall t p, w_stat w t p = on_disk p.
  Hypothesis Hglob : forall t p, w_glob w t p = matching p.
  Variables (sc : scope) (c : config) (file : cfg_file) (es : list entry).
  Hypothesis Hfile : forall t, w_config w t (w_cfgpath w) = file.
  Hypothesis Hconf : config_new (w_env w) (w_cfgpath w) file = Ok c.
  Hypothesis Htop : w_top w = LkConfig.
  Hypothesis Hh : hierarchy_is w on_disk matching sc c es.

  Let P := open w sc c es.
  Let Poff : forall s, P s -> off s := open_off w sc c es.

  Lemma starving_any n k r rest : starve w sc c n -> k_parts k = PStr r :: rest -> r <> "lookup_options" ->
    diverges P (run w (S n) (RLookup k None)).
  Proof.
    intros Hn Ek Hr. cbn [run body]. apply div_bind. unfold lookup.
    eapply div_after with (a := r); [ apply yields_lift; unfold root; rewrite Ek; reflexivity | ].
    apply String.eqb_neq in Hr. rewrite Hr, Htop. cbn [call_lk]. apply div_bind. unfold config_lookup_at. apply div_bind.
    intros s Hs. destruct (open_shared w sc c es s Hs) as [H1 H2].
    apply Hn; [ exact (open_off w sc c es s Hs) | exact (open_scope w sc c es s Hs) | exact H1 | exact H2 ].
  Qed.

  Lemma asking_text n t r : asks_for t r -> (forall k rest, k_parts k = PStr r :: rest -> diverges P (run w n (RLookup k None))) ->
    diverges P (run w (S n) (RStr t true)).
  Proof.
    intros (u & ex & rest & name & arg & ps & Et & Hu & Hex & Hc & Hl & Hk) Hn.
    destruct (cut_exists rest) as (cut & last & [Hc1 Hc2] & Er).
    change (run w (S n) (RStr t true)) with (istr w (run w n) t true).
    apply (div_string w sc P Poff (open_scope w sc c es) (run w n) (fun t => answers w sc es None n (QStr t))
             (fun k => answers w sc es None n (QKey k))
             (open_text w sc c es n) (open_key w sc c es n) t [] u ex cut last []).
    - cbn [app assembled]. rewrite Er. exact Et.
    - split; [ constructor; [ split; assumption | exact Hc1 ] | exact Hc2 ].
    - constructor.
    - intros ts acc m result. eapply div_lookup; [ exact Hc | exact Hl | exact Hk | ]. exact (Hn (mk_key arg (PStr r :: ps)) ps eq_refl).
  Qed.

  Lemma asking_value n t v : diverges P (run w (S n) (RStr t true)) -> first_text t v -> diverges P (do_interp (run w (S n)) true v).
  Proof.
    intros Ht H.
    assert (Q : forall y, wf y = true /\ settled y -> exists r, value_is (fun t => answers w sc es None (S n) (QStr t)) y r).
    { intros y Hy. exists (Some y). apply quiet_answers. exact Hy. }
    induction H as [|pre v post Hp _ IH|pre k v post Hp _ IH|pre k v post Hp Hk1 Hk2 _ IH].
    - exact Ht.
    - rewrite do_interp_arr. apply div_bind.
      refine (div_each_arr P (run w (S n)) (fun t => answers w sc es None (S n) (QStr t)) (open_text w sc c es (S n)) pre v post _ IH).
      eapply Forall_impl; [ | exact Hp ]. exact Q.
    - rewrite do_interp_map. apply div_bind.
      refine (div_each_map P (run w (S n)) (fun t => answers w sc es None (S n) (QStr t)) (open_text w sc c es (S n)) pre k v post _ _ _); [ | left; exact IH ].
      eapply Forall_impl; [ | exact Hp ]. intros e [H1 H2]. split; apply Q; assumption.
    - rewrite do_interp_map. apply div_bind.
      refine (div_each_map P (run w (S n)) (fun t => answers w sc es None (S n) (QStr t)) (open_text w sc c es (S n)) pre k v post _ _ _).
      + eapply Forall_impl; [ | exact Hp ]. intros e [H1 H2]. split; apply Q; assumption.
      + right. split; [ apply Q; split; assumption | exact IH ].
  Qed.

  Variables (pre : list entry) (e : entry) (post : list entry) (ls : list (option entries)) (m : entries) (v : value) (t r : string).
  Hypothesis Ees : es = pre ++ e :: post.
  Hypothesis Hpre : Forall2 (level_is w) pre ls.
  Hypothesis Hls : Forall (fun l => forall v, under "lookup_options" l = Some v -> wf v = true /\ settled v) ls.
  Hypothesis He : level_is w e (Some m).
  Hypothesis Hm : mgets "lookup_options" m = Some v.
  Hypothesis Hv : first_text t v.
  Hypothesis Ht : asks_for t r.
  Hypothesis Hr : r <> "lookup_options".

  Lemma starve_less n : starve w sc c (S n) -> starve w sc c n.
  Proof.
    intros H s H1 H2 H3 H4. pose proof (H s H1 H2 H3 H4) as E.
    destruct (c_get_config w le_run (full_closed w le_run le_run_full) (run w n) (run w (S n)) (fun q => run_le w n (S n) q (Nat.le_succ_diag_r n)) (quiet_run w n) (quiet_run w (S n)) (w_cfgpath w) "" s) as [K|K];
      [ exact K | rewrite K in E; exact E ].
  Qed.

  Lemma asking_step n : diverges P (run w (S n) (RStr t true)) -> starve w sc c (S n).
  Proof.
    intro D. apply (stuck_starves w 2 sc c file es Hfile Hconf (hierarchy_created w on_disk matching sc c es 0 Hstat Hglob Hh) (S n)).
    unfold stuck_hierarchy, reaches_stuck.
    assert (X : stuck_entry w sc (value_in w sc es Options (S n)) (fun v => diverges (open w sc c es) (interpolate (run w (S n)) true v))
                  "lookup_options" "lookup_options" (SDeep []) e).
    { inversion He as [|o p m0 El Ef Ey Em]; subst m0. eapply se_one; [ exact El | ]. split; [ reflexivity | ].
      eapply sa; [ exact Ef | exact (level_hash w e m o p Ef Ey) | exact Hm | ].
      unfold interpolate. apply div_bind. exact (asking_value n t v D Hv). }
    destruct (Forall_choice (entry_gives w sc (value_in w sc es Options (S n)) "lookup_options" (SDeep [])) pre) as (outs & Ho).
    { assert (Q : forall y, wf y = true /\ settled y -> value_in w sc es Options (S n) y (Some y)).
      { intros y Hy. apply quiet_answers. exact Hy. }
      revert Q. generalize (value_in w sc es Options (S n)). intros vi Q. clear - Hpre Hls Q.
      induction Hpre as [|e0 l0 es0 ls0 H0 Hp0 IH]; [ constructor | ]. inversion Hls as [|? ? Hl1 Hl2]; subst. specialize (IH Hp0 Hl2).
      constructor; [ | exact IH ]. eexists. apply level_gives; [ exact options_key_plain | exact H0 | ]. intros y Hy. apply Q. auto. }
    revert X Ho. generalize (value_in w sc es Options (S n)), (fun v => diverges (open w sc c es) (interpolate (run w (S n)) true v)).
    intros vi sv X Ho. rewrite Ees. eapply rf_merge; [ discriminate | exact Ho | exact X ].
  Qed.

  Lemma asking_starves : forall n, starve w sc c n /\ starve w sc c (S n).
  Proof.
    assert (S1 : starve w sc c 1).
    { apply asking_step. apply (asking_text 0 t r Ht). intros k rest _ s _. reflexivity. }
    induction n as [|n [IH IH']]; [ split; [ apply starve_less | ]; exact S1 | ].
    split; [ exact IH' | ]. apply asking_step. apply (asking_text (S n) t r Ht).
    intros k rest Hk. exact (starving_any n k r rest IH Hk Hr).
  Qed.

  Lemma asking_lookup N k opts r' rest s : k_parts k = PStr r' :: rest -> r' <> "lookup_options" ->
    off s -> iv_scope (s_iv s) = sc -> s_configs s = [] -> shared_ok w c s ->
    fst (run_lookup w N k opts s) = NoFuel.
  Proof.
    intros Hk Hr' H1 H2 H3 H4. destruct N as [|n]; [ reflexivity | ].
    change (run_lookup w (S n) k opts)
      with (bind (bind (lookup w (run w n) k opts) (fun v => ret (v, true))) (fun r => ret (fst r))).
    unfold lookup. apply String.eqb_neq in Hr'.
    assert (E : fst (get_config w (run w n) (w_cfgpath w) "" s) = NoFuel) by (apply (proj1 (asking_starves n)); assumption).
    unfold bind, lift, root. rewrite Hk, Hr', Htop. cbn [call_lk]. unfold config_lookup_at, bind.
    destruct (get_config w (run w n) (w_cfgpath w) "" s) as [o s']. cbn [fst] in E. subst o. reflexivity.
  Qed.
End Ask.
