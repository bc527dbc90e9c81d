(** Every lookup finds something or nothing, fails, or does not end. *)

From Coq Require Import String Ascii List ZArith Bool Arith Lia.
From Verif Require Import Str Value Outcome Key Merge Fpath Config Ipl Explain State Engine Meta Fuel Session
  SpecKey SpecKeyErr SpecIpl SpecInterp SpecConfig SpecMerge SpecPath SpecLookup SpecFail SpecWorld
  KeyFacts KeyErrFacts ValueFacts MergeFacts MergeLookup StrFacts IplFacts InterpFacts IplExact ResolveFacts
  LookupExact LoaderFacts HierarchyExact LookupTop LookupFail FailExact FailText FailTop SettledLookup Acyclic Cycles RootFacts
  AnswerFacts FailMore Decided DecidedLevels DecidedNested DecidedOptions.
Import ListNotations.
Open Scope nat_scope.
Open Scope string_scope.
Open Scope list_scope.

Lemma copy_stuck w i f cf sh ps A (m : M st A) s : good w i cf sh ps s -> diverges (good w (f i) cf sh ps) m ->
  fst (with_copy f m s) = NoFuel.
Proof.
  intros G H. unfold with_copy.
  assert (K : fst (m (with_iv (f (s_iv s)) s)) = NoFuel).
  { apply H. rewrite (g_iv _ _ _ _ _ _ G). exact (good_with_iv _ _ _ _ _ _ _ G). }
  destruct (m (with_iv (f (s_iv s)) s)) as [o s']. exact K.
Qed.

Lemma fst_bind {A B} (m : M st A) (f : A -> M st B) s : fst (m s) = NoFuel -> fst (bind m f s) = NoFuel.
Proof. intro H. unfold bind. destruct (m s) as [o s']. cbn [fst] in H. subst o. reflexivity. Qed.

(** ** Options *)

Lemma options_total all x : exists lo, options_for all x lo.
Proof.
  destruct all as [v|]; [ | exists None; apply of_none; discriminate ].
  destruct v as [| | | | | |m|]; try (exists None; apply of_none; discriminate).
  destruct (mgets x m) as [o|] eqn:E; [ | exists None; eapply of_other; [ reflexivity | congruence ] ].
  destruct o; try (exists None; eapply of_other; [ reflexivity | congruence ]).
  eexists. eapply of_map; [ reflexivity | exact E ].
Qed.

Lemma merge_total opts lo : exists mo, merge_option opts lo mo.
Proof.
  destruct (match opts with Some o => mgets "merge" o | None => None end) as [v|] eqn:E.
  - destruct opts as [o|]; [ | discriminate ]. exists (Some v). eapply mo_explicit; [ reflexivity | exact E ].
  - assert (Ho : forall o, opts = Some o -> mgets "merge" o = None) by (intros o ->; exact E).
    destruct (match lo with Some o => mgets "merge" o | None => None end) as [v|] eqn:El.
    + destruct lo as [l|]; [ | discriminate ]. exists (Some v). eapply mo_option; [ exact Ho | reflexivity | exact El ].
    + exists None. apply mo_none; [ exact Ho | ]. intros l ->. exact El.
Qed.

Lemma named_decided nm o : (exists s, strategy_named nm o s) \/ forall s, ~ strategy_named nm o s.
Proof.
  destruct (string_dec nm "first") as [->|H1]; [ left; eexists; constructor | ].
  destruct (string_dec nm "unique") as [->|H2]; [ left; eexists; constructor | ].
  destruct (string_dec nm "hash") as [->|H3]; [ left; eexists; constructor | ].
  destruct (string_dec nm "deep") as [->|H4]; [ left; eexists; constructor | ].
  right. intros s H. inversion H; congruence.
Qed.

Lemma strategy_decided mo : (exists s, strategy_is mo s) \/ ((forall s, ~ strategy_is mo s) /\ exists t, misnamed mo t).
Proof.
  destruct mo as [v|]; [ | left; eexists; constructor ].
  destruct v as [| | | |nm| |m|]; try (left; eexists; apply si_other; discriminate).
  - destruct (named_decided nm []) as [(s & H)|H]; [ left; exists s; now constructor | right ].
    split; [ | exists nm; constructor ]. intros s Hs. inversion Hs as [n0 s0 Hn| | |v0 Hv]; subst; [ exact (H s Hn) | exact (Hv _ eq_refl) ].
  - assert (D : (exists nm, mgets "strategy" m = Some (VStr nm)) \/ forall nm, mgets "strategy" m <> Some (VStr nm)).
    { destruct (mgets "strategy" m) as [[| | | |nm| | |]|]; try (right; discriminate). left. exists nm. reflexivity. }
    destruct D as [(nm & E)|E].
    + destruct (named_decided nm (mwithout (VStr "strategy") m)) as [(s & H)|H]; [ left; exists s; eapply si_map; eassumption | right ].
      split; [ | exists nm; now apply mn_map ]. intros s Hs.
      inversion Hs as [|m0 n0 s0 Hm0 Hn| |v0 Hv Hv']; subst; [ | exact (Hv' _ eq_refl) ].
      rewrite E in Hm0. injection Hm0 as <-. exact (H s Hn).
    + right. split; [ | exists ""; now apply mn_no_name ]. intros s Hs.
      inversion Hs as [|m0 n0 s0 Hm0 Hn| |v0 Hv Hv']; subst; [ exact (E _ Hm0) | exact (Hv' _ eq_refl) ].
Qed.

Lemma conversion_decided lo : (exists cv, conversion_is lo cv) \/ no_type lo.
Proof.
  destruct lo as [l|]; [ | left; exists None; apply ci_none; discriminate ].
  destruct (mgets "convert_to" l) as [v|] eqn:E; [ | left; exists None; apply ci_none; intros l0 E0; injection E0 as <-; left; exact E ].
  destruct v as [| | | |t|a| |]; try (right; eapply nt_value; [ exact E | discriminate | discriminate ]).
  - left. exists (Some (t, None)). eapply ci_type; [ reflexivity | left; exact E ].
  - destruct a as [|v a]; [ left; exists None; apply ci_none; intros l0 E0; injection E0 as <-; right; exact E | ].
    destruct v as [| | | |t| | |]; try (right; eapply nt_list; [ exact E | discriminate ]).
    left. destruct a as [|y a]; [ exists (Some (t, None)); eapply ci_type; [ reflexivity | right; exact E ] | ].
    eexists. eapply ci_args; [ reflexivity | exact E ].
Qed.

Section Top.
  Variables (w : world) (N : nat).
  Variables (sc : scope) (c : config) (file : cfg_file) (es : list entry).
  Hypothesis Hfile : forall t, w_config w t (w_cfgpath w) = file.
  Hypothesis Hconf : config_new (w_env w) (w_cfgpath w) file = Ok c.
  Hypothesis Htop : w_top w = LkConfig.
  Hypothesis Hh : created w (S (S N)) sc c es.
  Hypothesis Hw : dependable w.
  Hypothesis Hvars : forall x v, scope_get sc x = Some v -> wf v = true.
  Let n := S (S N).
  Let rec := run w n.
  Let i0 := new_iv sc false.

  (** The type of a conversion says whether explanations are redacted. *)
  Definition hides (cv : option (string * option (list value))) : bool :=
    match cv with
    | Some (t, _) => match w_parse_type w t with Ok CSensitive => true | _ => false end
    | None => false
    end.

  Lemma converting_stuck lo cv i cf sh ps (fn : M st (option value)) t : iv_luopts i = lo -> iv_redacted i = false ->
    conversion_is lo cv -> (forall u a, cv = Some (u, a) -> exists ty, w_parse_type w u = Ok ty) ->
    diverges (good w (iv_with_redacted (hides cv) i) cf sh ps) fn -> good w i cf sh ps t ->
    fst (lookup_and_convert w fn t) = NoFuel.
  Proof.
    intros Hl Hr Hcv Hty Hfn G.
    assert (Ei : iv_with_redacted false i = i) by (rewrite <- Hr; destruct i; reflexivity).
    unfold lookup_and_convert, extract_conversion. unfold bind at 1. unfold bind at 1. unfold run_op at 1.
    rewrite (g_iv _ _ _ _ _ _ G), Hl, (conversion_model lo cv Hcv).
    destruct cv as [[u a]|]; cbn [option_map fst snd].
    - destruct (Hty u a eq_refl) as (ty & Ht). unfold bind at 1, lift at 1. rewrite Ht. unfold ret at 1.
      cbn [hides] in Hfn. rewrite Ht in Hfn.
      destruct ty as [|tx].
      + apply fst_bind. unfold run_scoped. rewrite (g_iv _ _ _ _ _ _ G), Hr.
        pose proof (Hfn (with_iv (iv_with_redacted true i) t) (good_with_iv _ _ _ _ _ _ _ G)) as K.
        destruct (fn (with_iv (iv_with_redacted true i) t)) as [o s']. exact K.
      + apply fst_bind. rewrite Ei in Hfn. exact (Hfn t G).
    - unfold ret at 1. apply fst_bind. cbn [hides] in Hfn. rewrite Ei in Hfn. exact (Hfn t G).
  Qed.

  Lemma lookup_decided k opts r ps s : k_parts k = PStr r :: ps -> r <> "lookup_options" ->
    s_iv s = i0 -> s_configs s = [] -> shared_ok w c s ->
    (exists o, lookup_gives w sc es n k opts o) \/ (exists x, lookup_fails w sc es n k opts x) \/
    fst (lookup w rec k opts s) = NoFuel.
  Proof.
    intros Hk Hr Hs Hc Hsh.
    assert (Start : lookup w rec k opts s =
      bind (config_lookup_at w rec (match opts with Some o => o | None => [] end) (w_cfgpath w) r "")
        (fun v => match v with None => ret None | Some x => run_scoped SData (bind (interpolate rec true x) (dig_in k)) end) s).
    { unfold lookup. unfold bind at 1, lift at 1, root at 1. rewrite Hk.
      pose proof Hr as Hr'. apply String.eqb_neq in Hr'. rewrite Hr'. rewrite Htop. reflexivity. }
    destruct (options_settled w (S (S N)) sc c file es Hfile Hconf Htop Hh Hw Hvars n) as [[(all & Ha)|(x & Hx)]|Hst].
    2: { right. left. exists x. eapply lf_options; eassumption. }
    2: { right. right. rewrite Start. apply fst_bind. unfold config_lookup_at. apply fst_bind.
         apply Hst; [ unfold off; rewrite Hs; reflexivity | rewrite Hs; reflexivity | exact Hc | exact Hsh ]. }
    destruct (correct_decided r) as [Hp|(x & Hx)]; [ | right; left; exists x; eapply lf_root; eassumption ].
    destruct (correct_new r Hp) as (x0 & qs & Hx0 & Hnew).
    destruct (options_total all x0) as (lo & Hlo0).
    assert (Hlo : options_of all r lo) by (exists x0; split; [ exists qs; exact Hx0 | exact Hlo0 ]).
    destruct (merge_total opts lo) as (mo & Hmo).
    destruct (strategy_decided mo) as [(st & Hst)|(Hno & t & Hmis)];
      [ | right; left; eexists; eapply lf_strategy; try eassumption; reflexivity ].
    destruct (conversion_decided lo) as [(cv & Hcv)|Hnt];
      [ | right; left; eexists; eapply lf_no_type; try eassumption; reflexivity ].
    assert (Hty : (forall u a, cv = Some (u, a) -> exists ty, w_parse_type w u = Ok ty) \/
                  exists u a x, cv = Some (u, a) /\ w_parse_type w u = Panic x).
    { destruct cv as [[u a]|]; [ | left; discriminate ]. destruct (dp_type w Hw u) as [(ty & E)|(x & E)].
      - left. intros u' a' E'. injection E' as <- <-. eauto.
      - right. exists u, a, x. auto. }
    destruct Hty as [Hty|(u & a & x & -> & E)]; [ | right; left; exists x; eapply lf_type; eassumption ].
    destruct (get_config_run w n N (le_n _) sc c file Hfile Hconf i0 es all s eq_refl eq_refl Hs Hc Hsh Hh Ha)
      as (rc & s1 & E1 & R1 & R2 & R3 & R4 & sh & Sh & G1).
    set (cf := [(w_cfgpath w, rc)]) in *. set (prs := rc_providers rc) in *.
    pose proof (proj1 Hh) as Us.
    assert (Us' : Forall usable (map p_entry prs)) by (rewrite R1; exact Us).
    assert (Hrc : aget (w_cfgpath w) cf = Some rc) by (unfold cf; cbn [aget]; rewrite String.eqb_refl; reflexivity).
    set (id := iv_with_mode MdData (iv_with_expl false i0)).
    set (ib := iv_with_redacted (hides cv) (iv_with_strat (Some st) (iv_with_luopts lo id))).
    assert (Vd : values_decided w sc es (Data st) (good w ib cf sh prs) n).
    { rewrite <- R1. refine (nested_values w ib cf sh prs Hw eq_refl R2 Us' Hvars (Data st) _ _ n); [ discriminate | ].
      split; [ exact Htop | split; [ reflexivity | split; [ reflexivity | ] ] ]. exists rc. auto. }
    destruct (hierarchy_decided w sc Hw Hvars (value_in w sc es (Data st) n) (fails_in w sc es (Data st) n)
                (fun v => diverges (good w ib cf sh prs) (interpolate rec true v)) Vd r x0 qs Hx0 st es Us) as [(v & Hv & Tv)|[(x & Hx)|Hx]].
    2: { right. left. exists x. eapply lf_value; eassumption. }
    2: { right. right. rewrite Start. apply fst_bind.
         unfold config_lookup_at. unfold bind at 1. change (run w (S (S N))) with rec in E1. rewrite E1. unfold bind at 1, lift at 1. rewrite Hnew.
         unfold bind at 1, run_op at 1. rewrite (g_iv _ _ _ _ _ _ G1). cbn [i0 new_iv iv_mode].
         unfold run_scoped at 1. rewrite (g_iv _ _ _ _ _ _ G1). cbn [i0 new_iv iv_mode].
         set (f := fun i : iv => iv_with_mode MdData (iv_with_expl (iv_expl i && negb (x_only (s_ex s1))) i)).
         apply (copy_stuck w i0 f cf sh prs _ _ s1 G1). change (f i0) with id.
         intros t0 G0. rewrite node_off by exact (good_off w id cf sh prs eq_refl t0 G0).
         unfold bind at 1, lift at 1. rewrite (options_of_model rc all r lo (mk_key r (PStr x0 :: qs)) R3 R4 Hnew Hlo).
         destruct (set_merge_run w id cf sh prs opts lo mo st t0 eq_refl Hmo Hst G0) as (t1 & E & G2).
         unfold bind at 1. rewrite E.
         refine (converting_stuck lo cv _ cf sh prs _ t1 _ _ Hcv Hty _ G2); [ reflexivity | reflexivity | ].
         eapply div_after with (a := Some st).
         { intros t' G'. exists t'. split; [ | exact G' ]. unfold run_op. rewrite (g_iv _ _ _ _ _ _ G'). reflexivity. }
         unfold merge_hierarchy.
         refine (div_hierarchy w rec ib cf sh prs eq_refl R2 (value_in w sc es (Data st) n) _
                   (fun v => diverges (good w ib cf sh prs) (interpolate rec true v)) (fun v H => H) r x0 qs Hnew st _ _).
         - intros v' o' Hv'. rewrite <- R1 in Hv'.
           refine (yields_level w ib cf sh prs (Some st) n n eq_refl R2 _ _ (le_n n) v' o' Hv').
           + exact (usable_functions prs Us').
           + intros s' E'. injection E' as <-. split; [ exact Htop | split; [ reflexivity | split; [ reflexivity | ] ] ]. exists rc. auto.
         - exact (usable_functions prs Us').
         - change (iv_scope ib) with sc. fold prs. rewrite R1. exact Hx. }
    assert (Hcon : (exists y, converted w cv v y /\ tidy y) \/ exists x, lookup_fails w sc es n k opts x).
    { destruct cv as [[u a]|]; [ | left; exists v; split; [ constructor | exact Tv ] ].
      destruct (Hty u a eq_refl) as (ty & Ht).
      destruct v as [v|]; [ | left; exists None; split; [ econstructor; exact Ht | exact tidy_none ] ].
      assert (New : ty <> CSensitive \/ a <> None -> (exists y, converted w (Some (u, a)) (Some v) y /\ tidy y) \/ exists x, lookup_fails w sc es n k opts x).
      { intro Hne. destruct (dp_new w Hw ty v (match a with Some l => l | None => [] end) (Tv v eq_refl)) as [(v' & E & W)|(x & E)].
        - left. exists (Some v'). split; [ eapply cv_new; eassumption | exact (tidy_some v' W) ].
        - right. exists x. eapply lf_conversion; eassumption. }
      destruct ty as [|tx]; [ | apply New; left; discriminate ].
      destruct a as [a|]; [ apply New; right; discriminate | ].
      left. exists (Some (VSens v)). split; [ now apply cv_sensitive | apply tidy_some; exact (Tv v eq_refl) ]. }
    destruct Hcon as [(y & Hy & Ty)|H]; [ | right; left; exact H ].
    destruct y as [y|].
    2: { left. exists None. exists r, ps, all, lo, mo, st, cv, v, None. repeat (split; [ assumption | ]). reflexivity. }
    destruct (value_again w n N (le_n _) sc c file Hfile Hconf Htop es all r opts lo mo st cv v (Some y) s Hs
                (or_introl (conj Hc Hsh)) Hh Ha Hp Hlo Hmo Hst Hcv Hv Hy)
      as (rc2 & sh2 & s2 & E2 & Q1 & Q2 & Q3 & Q4 & Sh2 & Fn & G2).
    set (prs2 := rc_providers rc2) in *.
    assert (Vr : values_decided w sc es Result (good w id [(w_cfgpath w, rc2)] sh2 prs2) n).
    { rewrite <- Q1. refine (nested_values w id [(w_cfgpath w, rc2)] sh2 prs2 Hw eq_refl Q2 _ Hvars Result _ _ n); [ rewrite Q1; exact Us | discriminate | ].
      split; [ exact Htop | split; [ reflexivity | split; [ reflexivity | ] ] ]. exists rc2. split; [ | reflexivity ].
      cbn [aget]. rewrite String.eqb_refl. reflexivity. }
    destruct (Vr y (Ty y eq_refl)) as [(z & Hz & Tz)|[(x & Hx)|Hx]].
    - destruct (digs_total ps z) as (o & Ho). left. exists o, r, ps, all, lo, mo, st, cv, v, (Some y).
      repeat (split; [ assumption | ]). exists z. auto.
    - right. left. exists x. eapply lf_result; eassumption.
    - right. right. rewrite Start. unfold bind at 1. change (run w (S (S N))) with rec in E2. rewrite E2.
      unfold run_scoped. rewrite (g_iv _ _ _ _ _ _ G2). cbn [new_iv iv_mode].
      set (f := fun i : iv => iv_with_mode MdData (iv_with_expl (iv_expl i && negb (x_only (s_ex s2))) i)).
      apply (copy_stuck w i0 f [(w_cfgpath w, rc2)] sh2 prs2 _ _ s2 G2). change (f i0) with id.
      apply div_bind. exact Hx.
  Qed.
End Top.
