(** Properties C24, C25 and C26: locations, merge strategy and conversion. *)

From Coq Require Import String Ascii List ZArith Bool Arith Lia.
From Verif Require Import SpecPlace PlaceFacts.
From Verif Require Import Str Value Outcome Key Merge Fpath Config Ipl Explain State Engine Meta Session Worlds
  SpecKey SpecIpl SpecInterp SpecConfig SpecMerge SpecLookup
  KeyFacts ValueFacts MergeLookup StrFacts IplFacts InterpFacts IplExact Fuel ResolveFacts LookupExact HierarchyExact LookupTop
  SettledLookup ExLevels LookupFail Kept P_Lookup P_Nested RootFacts.
Import ListNotations.
Open Scope nat_scope.
Open Scope string_scope.
Open Scope list_scope.

(** ** C24 *)

(** A location that does not exist: no provider is asked; only the explanation
    may change. *)
Theorem C24_absent_location : forall w rec k p l s,
  ~ there l -> x_nil (s_ex s) = false ->
  exists x, invoke w rec k p l s = (Ok None, with_ex x s) /\ (iv_expl (s_iv s) = false -> x = s_ex s).
Proof.
  intros w rec k p l s Hl Hx. apply not_there in Hl. unfold invoke. rewrite Hl.
  unfold run_scoped, run_op, bind, ret. destruct (iv_expl (s_iv s)) eqn:E.
  - unfold xpush. rewrite Hx. cbn [s_iv with_ex]. rewrite E. unfold xaccept. cbn [s_ex with_ex x_nil x_open x_options x_only x_root].
    destruct s as [i ex cf sh tp md pr nx tr]. eexists. split; [ reflexivity | discriminate ].
  - exists (s_ex s). split; [ destruct s; reflexivity | reflexivity ].
Qed.
Print Assumptions C24_absent_location.

(** The same for an entry whose globs or mapped paths gave nothing. *)
Theorem C24_no_locations : forall w rec k st p s,
  e_function (p_entry p) <> None -> e_locations (p_entry p) = Some [] -> x_nil (s_ex s) = false ->
  exists x, merge_locations w rec k st p s = (Ok None, with_ex x s) /\ (iv_expl (s_iv s) = false -> x = s_ex s).
Proof.
  intros w rec k st p s Hf Hl Hx. unfold merge_locations. rewrite Hl.
  destruct (e_function (p_entry p)) as [f|]; [ | destruct (Hf eq_refl) ].
  unfold run_scoped, ret. destruct (iv_expl (s_iv s)) eqn:E.
  - unfold xpush. rewrite Hx. destruct s as [i ex cf sh tp md pr nx tr]. eexists. split; [ reflexivity | discriminate ].
  - exists (s_ex s). split; [ destruct s; reflexivity | reflexivity ].
Qed.
Print Assumptions C24_no_locations.

(** Code after which the explainer is still off. *)
Lemma kept_off w n k p l s : off s -> off (snd (invoke w (run w n) k p l s)).
Proof.
  intro H. unfold off. rewrite (kp_expl _ _ (c_invoke w (steps kept) (kept_closed w) (run w n) (run w n) (c_run w _ (kept_closed w) n) k p l s)).
  exact H.
Qed.

Section Filter.
  Context {L : Type}.
  Variable f : L -> M st (option value).
  Variable keep : L -> bool.
  Hypothesis Hoff : forall x s, off s -> off (snd (f x s)).
  Hypothesis Hskip : forall x s, off s -> keep x = false -> f x s = (Ok None, s).

  Lemma first_filter : forall vs s, off s -> first_loop f (filter keep vs) s = first_loop f vs s.
  Proof.
    induction vs as [|x r IH]; intros s Hs; [ reflexivity | ]. cbn [filter first_loop].
    destruct (keep x) eqn:E.
    - cbn [first_loop]. unfold bind. specialize (Hoff x s Hs). destruct (f x s) as [[[v|]|e| |] s']; try reflexivity. apply IH. exact Hoff.
    - unfold bind. rewrite (Hskip x s Hs E). apply IH. exact Hs.
  Qed.

  Lemma merge_filter st : forall vs memo s, off s -> merge_loop f st memo (filter keep vs) s = merge_loop f st memo vs s.
  Proof.
    induction vs as [|x r IH]; intros memo s Hs; [ reflexivity | ]. cbn [filter merge_loop].
    destruct (keep x) eqn:E.
    - cbn [merge_loop]. unfold bind. specialize (Hoff x s Hs). destruct (f x s) as [[v|e| |] s']; try reflexivity. apply IH. exact Hoff.
    - unfold bind. rewrite (Hskip x s Hs E). apply IH. exact Hs.
  Qed.

  Lemma report_some_off v s : off s -> report_some report_result v s = (Ok v, s).
  Proof. intro H. destruct v; [ | reflexivity ]. unfold report_some, report_result, bind. rewrite report_off by exact H. reflexivity. Qed.

  Lemma first_off : forall vs s, off s -> off (snd (first_loop f vs s)).
  Proof.
    induction vs as [|x r IH]; intros s Hs; [ exact Hs | ]. cbn [first_loop]. unfold bind. specialize (Hoff x s Hs).
    destruct (f x s) as [[[v|]|e| |] s']; try exact Hoff. apply IH. exact Hoff.
  Qed.
  Lemma merge_off st : forall vs memo s, off s -> off (snd (merge_loop f st memo vs s)).
  Proof.
    induction vs as [|x r IH]; intros memo s Hs; [ exact Hs | ]. cbn [merge_loop]. unfold bind. specialize (Hoff x s Hs).
    destruct (f x s) as [[v|e| |] s']; try exact Hoff. apply IH. exact Hoff.
  Qed.

  (** Merging is its loop. *)
  Lemma merging_first vs s : off s -> merging SFirst vs f s = first_loop f vs s.
  Proof.
    intro Hs. assert (R : forall l, bind (first_loop f l) (report_some report_result) s = first_loop f l s).
    { intro l. unfold bind. pose proof (first_off l s Hs). destruct (first_loop f l s) as [[v|e| |] s']; try reflexivity.
      apply report_some_off. exact H. }
    destruct vs as [|x [|y r]]; [ reflexivity | | apply R ].
    cbn. unfold bind, ret. destruct (f x s) as [[[v|]|e| |] s']; reflexivity.
  Qed.

  Lemma merging_state st vs s : off s -> st <> SFirst -> snd (merging st vs f s) = snd (merge_loop f st None vs s).
  Proof.
    intros Hs Hst. assert (R : forall l, snd (with_merge st (bind (merge_loop f st None l) (report_some report_result)) s) = snd (merge_loop f st None l s)).
    { intro l. unfold with_merge. rewrite node_off by exact Hs. unfold bind. pose proof (merge_off st l None s Hs).
      destruct (merge_loop f st None l s) as [[v|e| |] s']; try reflexivity. rewrite report_some_off by exact H. reflexivity. }
    assert (S1 : forall x, snd (bind (f x) (fun v => ret (merge_single st v)) s) = snd (merge_loop f st None [x] s)).
    { intro x. cbn. unfold bind, ret. destruct (f x s) as [[v|e| |] s']; reflexivity. }
    destruct st; [ congruence | | | ]; (destruct vs as [|x [|y r]]; [ reflexivity | apply S1 | apply R ]).
  Qed.

  Lemma merging_loop st vs s : off s -> st <> SFirst -> st <> SUnique -> merging st vs f s = merge_loop f st None vs s.
  Proof.
    intros Hs Hst Hu. assert (R : forall l, with_merge st (bind (merge_loop f st None l) (report_some report_result)) s = merge_loop f st None l s).
    { intro l. unfold with_merge. rewrite node_off by exact Hs. unfold bind. pose proof (merge_off st l None s Hs).
      destruct (merge_loop f st None l s) as [[v|e| |] s']; try reflexivity. rewrite report_some_off by exact H. reflexivity. }
    assert (S1 : forall x, bind (f x) (fun v => ret (merge_single st v)) s = merge_loop f st None [x] s).
    { intro x. cbn. unfold bind, ret. destruct (f x s) as [[v|e| |] s']; try reflexivity.
      destruct st; try congruence; destruct v; reflexivity. }
    destruct st; try congruence; (destruct vs as [|x [|y r]]; [ reflexivity | apply S1 | apply R ]).
  Qed.
End Filter.

(** A provider with only the locations that exist. *)
Definition existing (p : provider) : provider :=
  mk_provider (p_id p) (set_locations (option_map (filter loc_exists) (e_locations (p_entry p))) (p_entry p)).

(** Locations that do not exist could as well be left out of the configuration:
    the questions asked, the caches and everything else in the state are the
    same, and so is the outcome.  (With the strategy unique the outcome can
    differ in shape, see C11: with one location a scalar stays a scalar.) *)
Theorem C24_absent_locations_do_not_matter : forall w n k st p s,
  iv_expl (s_iv s) = false ->
  snd (merge_locations w (run w n) k st (existing p) s) = snd (merge_locations w (run w n) k st p s) /\
  (st <> SUnique -> fst (merge_locations w (run w n) k st (existing p) s) = fst (merge_locations w (run w n) k st p s)).
Proof.
  intros w n k st p s Hs. unfold merge_locations. cbn [existing p_entry set_locations e_function].
  destruct (e_function (p_entry p)) as [f|] eqn:Ef; [ | split; reflexivity ].
  rewrite !node_off by exact Hs. cbn [set_locations e_locations option_map].
  destruct (e_locations (p_entry p)) as [ls|] eqn:El; cbn [option_map].
  2:{ assert (E : provider_lookup w (run w n) k (existing p) None = provider_lookup w (run w n) k p None)
        by (destruct p as [id [? ? ? ? ? ? ?]]; reflexivity).
      rewrite E. split; reflexivity. }
  set (fi := invoke w (run w n) k p).
  assert (Inv : forall l s0, invoke w (run w n) k (existing p) l s0 = fi l s0).
  { intros l s0. unfold fi, invoke. destruct p as [id [? ? ? ? ? ? ?]]. reflexivity. }
  assert (One : forall g ls', (forall l s0, g l s0 = fi l s0) ->
     snd (match ls' with [] => ret None | [l] => g l | _ => merging st ls' g end s) = snd (merging st ls' fi s) /\
     (st <> SUnique -> fst (match ls' with [] => ret None | [l] => g l | _ => merging st ls' g end s) = fst (merging st ls' fi s))).
  { intros g ls' Hg.
    assert (G : forall l2 s0, off s0 -> merging st l2 g s0 = merging st l2 fi s0).
    { intros l2 s0 H0.
      assert (F1 : forall l s1, first_loop g l s1 = first_loop fi l s1).
      { induction l as [|x l IH]; intro s1; [ reflexivity | ]. cbn [first_loop]. unfold bind. rewrite Hg. destruct (fi x s1) as [[[v|]|e| |] s2]; auto. }
      assert (F2 : forall l m s1, merge_loop g st m l s1 = merge_loop fi st m l s1).
      { induction l as [|x l IH]; intros m s1; [ reflexivity | ]. cbn [merge_loop]. unfold bind. rewrite Hg. destruct (fi x s1) as [[v|e| |] s2]; auto. }
      unfold merging, merge_lookup, with_merge.
      destruct st; destruct l2 as [|x [|y r]]; try reflexivity; try (apply Hg);
        try (rewrite !node_off by exact H0); unfold bind; rewrite ?Hg, ?F1, ?F2; reflexivity. }
    destruct ls' as [|x [|y r]].
    - destruct st; split; reflexivity.
    - rewrite (Hg x s).
      assert (E : merging st [x] fi s = match st with SFirst => fi x s | _ => bind (fi x) (fun v => ret (merge_single st v)) s end)
        by (destruct st; reflexivity).
      rewrite E. destruct st; [ split; reflexivity | | | ]; unfold bind, ret; destruct (fi x s) as [[v|e| |] s'];
        (split; [ reflexivity | intro Hu; try congruence; try reflexivity; destruct v; reflexivity ]).
    - rewrite (G (x :: y :: r) s Hs). split; reflexivity. }
  destruct (One (invoke w (run w n) k (existing p))
              (filter loc_exists ls) Inv) as [A1 A2].
  destruct (One fi ls (fun _ _ => eq_refl)) as [B1 B2].
  assert (Off : forall x s0, off s0 -> off (snd (fi x s0))) by (intros; apply kept_off; assumption).
  assert (Skip : forall x s0, off s0 -> loc_exists x = false -> fi x s0 = (Ok None, s0)).
  { intros x s0 H0 H1. unfold fi, invoke. rewrite node_off by exact H0. rewrite H1. unfold bind. rewrite report_off by exact H0. reflexivity. }
  split.
  - rewrite A1, B1. destruct (match st with SFirst => true | _ => false end) eqn:Est.
    + destruct st; try discriminate. rewrite !(merging_first fi Off) by exact Hs. rewrite (first_filter fi loc_exists Off Skip) by exact Hs. reflexivity.
    + assert (st <> SFirst) by (intros ->; discriminate). rewrite !(merging_state fi Off) by assumption.
      rewrite (merge_filter fi loc_exists Off Skip) by exact Hs. reflexivity.
  - intro Hu. rewrite (A2 Hu), (B2 Hu). destruct (match st with SFirst => true | _ => false end) eqn:Est.
    + destruct st; try discriminate. rewrite !(merging_first fi Off) by exact Hs. rewrite (first_filter fi loc_exists Off Skip) by exact Hs. reflexivity.
    + assert (st <> SFirst) by (intros ->; discriminate). rewrite !(merging_loop fi Off) by assumption.
      rewrite (merge_filter fi loc_exists Off Skip) by exact Hs. reflexivity.
Qed.
Print Assumptions C24_absent_locations_do_not_matter.

(** An entry without locations: its function is called exactly once, with the
    options of the entry and no path, whatever the function does. *)
Theorem C24_called_once : forall w n k r ps st p s nm f,
  iv_expl (s_iv s) = false -> k_parts k = PStr r :: ps ->
  e_function (p_entry p) = Some (mk_fdef KLookupKey nm) -> e_locations (p_entry p) = None ->
  ps_fn (s_provs s (p_id p)) = Some (LdFn f) ->
  let a := ALookupKey (match e_options (p_entry p) with Some o => o | None => [] end) r in
  merge_locations w (run w n) k st p s
  = run_prog (run w n) (w_call w (s_trace s) f a) (with_trace (s_trace s ++ [EvCall f a]) s).
Proof.
  intros w n k r ps st p s nm f Hs Hk Hf Hl Hfn a. unfold merge_locations. rewrite Hf, Hl. rewrite node_off by exact Hs.
  unfold provider_lookup. rewrite Hf. cbn [f_kind].
  unfold bind at 1, lift at 1, root. rewrite Hk. unfold bind at 1, provider_options, ret at 1.
  unfold bind at 1, provider_function. unfold bind at 1, run_op at 1. rewrite Hfn. unfold ret at 1.
  cbn [call_key]. unfold call_fn, ask. unfold bind at 1. unfold bind at 1. unfold bind at 1. unfold run_op at 1. unfold ret at 1.
  change (ALookupKey (entry_options (p_entry p)) r) with a.
  set (s1 := with_trace (s_trace s ++ [EvCall f a]) s).
  assert (H1 : off (snd (run_prog (run w n) (w_call w (s_trace s) f a) s1))).
  { unfold off. rewrite (kp_expl _ _ (c_run_prog w (steps kept) (kept_closed w) (run w n) (run w n) (c_run w _ (kept_closed w) n) _ s1)). exact Hs. }
  destruct (run_prog (run w n) (w_call w (s_trace s) f a) s1) as [[v|e| |] s2]; try reflexivity.
  cbn [snd] in H1. unfold report_found, bind. destruct v; rewrite report_off by exact H1; reflexivity.
Qed.
Print Assumptions C24_called_once.

(** Four locations of which two exist, and a user function that looks up
    another key. *)
Definition loc_entry : entry :=
  mk_entry "data" "/h/plugin" "" (Some [(VStr "o", VInt 1)]) (Some (mk_fdef KLookupKey "fn")) "e"
    (Some [LPath "a" "/h/a" false; LPath "b" "/h/b" true; LPath "c" "/h/c" false; LPath "d" "/h/d" true]).
Definition loc_w : world :=
  with_funs [("fn", fun a => match a with
                             | ALookupKey o "k" => PRet (mgets "path" o)
                             | _ => PLookup "k" None (fun v => PRet v)
                             end)]
    (file_world [("/h/hiera.yaml", levels ["common"])] [("/h/data/common.yaml", vmap [("k", VInt 7)])]).

Example C24_absent_ex :
  merge_locations loc_w (run loc_w 9) (mk_key "k" [PStr "k"]) (SDeep []) (mk_provider 5 loc_entry) (init_st (ScMap []) None)
  = merge_locations loc_w (run loc_w 9) (mk_key "k" [PStr "k"]) (SDeep [])
      (mk_provider 5 (set_locations (Some [LPath "b" "/h/b" true; LPath "d" "/h/d" true]) loc_entry)) (init_st (ScMap []) None) /\
  map (fun e => match e with EvCall _ (ALookupKey o _) => mgets "path" o | _ => None end)
    (s_trace (snd (merge_locations loc_w (run loc_w 9) (mk_key "k" [PStr "k"]) (SDeep []) (mk_provider 5 loc_entry) (init_st (ScMap []) None))))
  = [None; Some (VStr "/h/b"); Some (VStr "/h/d")].
Proof.
  split; [ | vm_compute; reflexivity ].
  destruct (C24_absent_locations_do_not_matter loc_w 9 (mk_key "k" [PStr "k"]) (SDeep []) (mk_provider 5 loc_entry) (init_st (ScMap []) None) eq_refl)
    as [A B].
  specialize (B ltac:(discriminate)).
  change (existing (mk_provider 5 loc_entry))
    with (mk_provider 5 (set_locations (Some [LPath "b" "/h/b" true; LPath "d" "/h/d" true]) loc_entry)) in A, B.
  match goal with |- ?x = ?y => rewrite (surjective_pairing x), (surjective_pairing y) end. congruence.
Qed.

Example C24_called_once_ex :
  let p := mk_provider 5 (set_locations None loc_entry) in
  let s := with_prov 5 (mk_pstate (Some (LdFn (FnSession "fn"))) [] false) (init_st (ScMap []) None) in
  fst (merge_locations loc_w (run loc_w 9) (mk_key "z" [PStr "z"]) SFirst p s) = Ok (Some (VInt 7)).
Proof.
  intros p s.
  rewrite (C24_called_once loc_w 9 (mk_key "z" [PStr "z"]) "z" [] SFirst p s "fn" (FnSession "fn")) by reflexivity.
  vm_compute. reflexivity.
Qed.

(** ** C25 *)

(** There is always exactly one merge option that counts. *)
Theorem C25_one_merge_option : forall opts lo, exists mo, merge_option opts lo mo /\ forall mo', merge_option opts lo mo' -> mo' = mo.
Proof.
  intros opts lo.
  set (e := match opts with Some o => mgets "merge" o | None => None end).
  set (l := match lo with Some o => mgets "merge" o | None => None end).
  exists (match e with Some v => Some v | None => l end).
  assert (He : e = None -> forall o, opts = Some o -> mgets "merge" o = None) by (unfold e; intros H o ->; exact H).
  assert (Hl : l = None -> forall o, lo = Some o -> mgets "merge" o = None) by (unfold l; intros H o ->; exact H).
  split.
  - destruct e as [v|] eqn:E; [ unfold e in E; destruct opts as [o|]; [ exact (mo_explicit _ _ o v eq_refl E) | discriminate ] | ].
    destruct l as [v|] eqn:E2; [ | apply mo_none; auto ].
    unfold l in E2. destruct lo as [o|]; [ exact (mo_option _ _ o v (He eq_refl) eq_refl E2) | discriminate ].
  - intros mo' [o v H1 H2|m v H1 H2 H3|H1 H2]; unfold e, l; subst.
    + rewrite H2. reflexivity.
    + destruct opts as [o|]; [ rewrite (H1 o eq_refl) | ]; rewrite H3; reflexivity.
    + destruct opts as [o|]; [ rewrite (H1 o eq_refl) | ]; (destruct lo as [m|]; [ rewrite (H2 m eq_refl) | ]); reflexivity.
Qed.
Print Assumptions C25_one_merge_option.

(** The strategy in force: the explicit option, or the one in the lookup options
    of the key (the deep merge of what the files have under lookup_options), or
    first.  [merge_option] and [strategy_is] say so; the value is that strategy
    over the files. *)
Theorem C25_strategy_in_force : forall w on_disk matching c sc es files k r ps opts lo mo s o N,
  steady w on_disk matching c -> hierarchy_is w on_disk matching sc c es ->
  k_parts k = PStr r :: ps -> r <> "lookup_options" -> plain_key r ->
  Forall2 (level_is w) es files ->
  Forall (fun f => forall v, under "lookup_options" f = Some v -> wf v = true /\ settled v) files ->
  Forall (fun f => forall v, under r f = Some v -> wf v = true /\ settled v) files ->
  options_for (pure_lookup (SDeep []) (map (under "lookup_options") files)) r lo ->
  conversion_is lo None ->
  merge_option opts lo mo -> strategy_is mo s ->
  digs ps (pure_lookup s (map (under r) files)) o ->
  fst (run_lookup w (4 + N) k opts (init_st sc None)) = Ok o.
Proof.
  intros w od mt c sc es files k r ps opts lo mo s o N Hw Hh Hk Hr Hp Hf Ho Hq Hlo Hcv Hm Hs Hd.
  apply (one_lookup w od mt c sc es 1 k opts o N Hw Hh).
  eapply (settled_options w sc es files k r ps opts _ lo mo s None _ o Hk Hr Hp Hf Ho Hq eq_refl Hlo Hm Hs Hcv);
    [ apply cv_no_conversion | | exact Hd ].
  apply quiet_pure. clear - Hq. induction Hq as [|l ls H Hq IH]; [ constructor | ]. cbn [map]. constructor; assumption.
Qed.
Print Assumptions C25_strategy_in_force.

(** A merge option that names no strategy, or a map without a name, makes the
    lookup panic; the message has the name. *)
Theorem C25_unknown_strategy_panics : forall w on_disk matching c sc es files k r ps opts lo mo N,
  steady w on_disk matching c -> hierarchy_is w on_disk matching sc c es ->
  k_parts k = PStr r :: ps -> r <> "lookup_options" -> plain_key r ->
  Forall2 (level_is w) es files ->
  Forall (fun f => forall v, under "lookup_options" f = Some v -> wf v = true /\ settled v) files ->
  options_for (pure_lookup (SDeep []) (map (under "lookup_options") files)) r lo ->
  merge_option opts lo mo -> (forall s, ~ strategy_is mo s) ->
  exists nm, fst (run_lookup w (4 + N) k opts (init_st sc None)) = Panic (EErr ("unknown merge strategy '" ++ nm ++ "'")) /\
             (forall t, mo = Some (VStr t) -> nm = t).
Proof.
  intros w od mt c sc es files k r ps opts lo mo N [H1 H2 H3 (file & H4 & H5)] Hh Hk Hr Hp Hf Ho Hlo Hm Hno.
  exists (no_strategy_text mo). split; [ | intros t ->; reflexivity ].
  assert (A : hierarchy_gives w sc (value_is (fun t => answers w sc es None 1 (QStr t))) "lookup_options" (SDeep []) es
                (pure_lookup (SDeep []) (map (under "lookup_options") files))).
  { apply picks_pure. clear - Hf Ho.
    induction Hf as [|e l es ls H1 Hl IH]; [ constructor | ]. inversion Ho as [|? ? Hv H']; subst. constructor; [ | apply IH; assumption ].
    apply level_gives; [ exact options_key_plain | exact H1 | ]. intros v E. apply quiet_answers. apply Hv. exact E. }
  pose proof (unknown_strategy w 1 od mt H1 H2 H3 (S N) ltac:(lia) sc c file H4 H5 es k opts r ps _ lo mo (init_st sc None)
                eq_refl eq_refl (or_introl eq_refl) Hh Hk Hr (plain_correct r Hp) A (plain_options _ r lo Hp Hlo) Hm Hno) as E.
  change (run_lookup w (4 + N) k opts) with (bind (bind (lookup w (run w (S (S (S N)))) k opts) (fun v => ret (v, true))) (fun r => ret (fst r))).
  unfold bind. destruct (lookup w (run w (S (S (S N)))) k opts (init_st sc None)) as [x s']. cbn [fst] in E. subst x. reflexivity.
Qed.
Print Assumptions C25_unknown_strategy_panics.

(** Lookup options that say unique for a and nothing known for b; explicit
    options overrule. *)
Definition opt_data : list (string * value) :=
  [("/h/data/node.yaml", vmap [("lookup_options", vmap [("a", vmap [("merge", VStr "unique")])]);
                               ("a", VArr [VInt 1; VInt 2]); ("b", VInt 4)]);
   ("/h/data/common.yaml", vmap [("lookup_options", vmap [("b", vmap [("merge", VStr "best")]);
                                                          ("a", vmap [("convert_to", VArr [VStr "list"; VInt 9])])]);
                                 ("a", VArr [VInt 2; VInt 3])])].
Definition opt_w : world :=
  with_types (fun t => Ok (CType t)) (fun _ v a => Ok (VArr (v :: a)))
    (file_world [("/h/hiera.yaml", levels ["node"; "common"])] opt_data).
Definition opt_disk : string -> bool := fun p => match aget p opt_data with Some _ => true | None => false end.
Definition opt_es : list entry := map (level_out opt_disk) ["node"; "common"].
Definition opt_files : list (option entries) :=
  [Some [(VStr "lookup_options", vmap [("a", vmap [("merge", VStr "unique")])]);
         (VStr "a", VArr [VInt 1; VInt 2]); (VStr "b", VInt 4)];
   Some [(VStr "lookup_options", vmap [("b", vmap [("merge", VStr "best")]);
                                       ("a", vmap [("convert_to", VArr [VStr "list"; VInt 9])])]);
         (VStr "a", VArr [VInt 2; VInt 3])]].

Lemma opt_steady : steady opt_w opt_disk (fun _ => []) (levels_in ["node"; "common"]).
Proof. constructor; try reflexivity. exists (CfYaml (levels ["node"; "common"])). split; [ reflexivity | vm_compute; reflexivity ]. Qed.
Lemma opt_hierarchy : hierarchy_is opt_w opt_disk (fun _ => []) (ScMap []) (levels_in ["node"; "common"]) opt_es.
Proof. apply levels_resolved; reflexivity. Qed.
Lemma opt_levels : Forall2 (level_is opt_w) opt_es opt_files.
Proof. constructor; [ eapply li_present; reflexivity | ]. constructor; [ eapply li_present; reflexivity | constructor ]. Qed.
Lemma opt_settled r : In r ["lookup_options"; "a"; "b"] ->
  Forall (fun f => forall v, under r f = Some v -> wf v = true /\ settled v) opt_files.
Proof.
  intros [<-|[<-|[<-|[]]]]; repeat (apply Forall_cons; [ intros v E; vm_compute in E; first [ discriminate E
              | injection E as <-; split; [ reflexivity | apply settled_by; reflexivity ] ] | ]); apply Forall_nil.
Qed.

Example C25_unknown_ex : exists nm,
  fst (run_lookup opt_w 9 (mk_key "b" [PStr "b"]) None (init_st (ScMap []) None)) = Panic (EErr ("unknown merge strategy '" ++ nm ++ "'")) /\
  (forall t, Some (VStr "best") = Some (VStr t) -> nm = t).
Proof.
  apply (C25_unknown_strategy_panics opt_w opt_disk (fun _ => []) (levels_in ["node"; "common"]) (ScMap []) opt_es opt_files
           (mk_key "b" [PStr "b"]) "b" [] None (Some [(VStr "merge", VStr "best")]) (Some (VStr "best")) 5 opt_steady opt_hierarchy);
    try reflexivity; try discriminate.
  - apply plain_key_by. reflexivity.
  - exact opt_levels.
  - apply opt_settled. simpl. auto.
  - eapply of_map; reflexivity.
  - eapply mo_option; try reflexivity. discriminate.
  - intros s H. inversion H as [? ? H0| | |? H0]; subst; [ inversion H0 | exact (H0 _ eq_refl) ].
Qed.

(** The explicit strategy counts for b though its lookup options have another. *)
Example C25_explicit_ex :
  fst (run_lookup opt_w 9 (mk_key "b" [PStr "b"]) (Some [(VStr "merge", vmap [("strategy", VStr "hash")])]) (init_st (ScMap []) None))
  = Ok (Some (VInt 4)).
Proof.
  apply (C25_strategy_in_force opt_w opt_disk (fun _ => []) (levels_in ["node"; "common"]) (ScMap []) opt_es opt_files
           (mk_key "b" [PStr "b"]) "b" [] _ (Some [(VStr "merge", VStr "best")]) (Some (vmap [("strategy", VStr "hash")])) SHash (Some (VInt 4)) 5
           opt_steady opt_hierarchy); try reflexivity; try discriminate.
  - apply plain_key_by. reflexivity.
  - exact opt_levels.
  - apply opt_settled. simpl. auto.
  - apply opt_settled. simpl. auto.
  - eapply of_map; reflexivity.
  - apply ci_none. intros l E. injection E as <-. left. reflexivity.
  - eapply mo_explicit; reflexivity.
  - eapply si_map; [ reflexivity | constructor ].
  - match goal with |- digs ?ps _ _ => exact (digs_by ps (Some (VInt 4))) end.
Qed.

(** ** C26 *)

(** With lookup options: the value found is converted, with the arguments, and
    what is not found stays not found.  [converted] says so. *)
Theorem C26_found_values_are_converted : forall w on_disk matching c sc es files k r ps opts lo mo s cv x o N,
  steady w on_disk matching c -> hierarchy_is w on_disk matching sc c es ->
  k_parts k = PStr r :: ps -> r <> "lookup_options" -> plain_key r ->
  Forall2 (level_is w) es files ->
  Forall (fun f => forall v, under "lookup_options" f = Some v -> wf v = true /\ settled v) files ->
  Forall (fun f => forall v, under r f = Some v -> wf v = true /\ settled v) files ->
  options_for (pure_lookup (SDeep []) (map (under "lookup_options") files)) r lo ->
  merge_option opts lo mo -> strategy_is mo s -> conversion_is lo cv ->
  converted w cv (pure_lookup s (map (under r) files)) x ->
  (forall y, x = Some y -> wf y = true /\ settled y) -> digs ps x o ->
  fst (run_lookup w (4 + N) k opts (init_st sc None)) = Ok o.
Proof.
  intros w od mt c sc es files k r ps opts lo mo s cv x o N Hw Hh Hk Hr Hp Hf Ho Hq Hlo Hm Hs Hcv Hx Hy Hd.
  apply (one_lookup w od mt c sc es 1 k opts o N Hw Hh).
  exact (settled_options w sc es files k r ps opts _ lo mo s cv x o Hk Hr Hp Hf Ho Hq eq_refl Hlo Hm Hs Hcv Hx Hy Hd).
Qed.
Print Assumptions C26_found_values_are_converted.

(** A type that cannot be parsed, and a value that cannot be converted, make the
    lookup panic with the error. *)
Theorem C26_failing_conversion_panics : forall w on_disk matching c sc es files k r ps opts lo mo s cv e N,
  steady w on_disk matching c -> hierarchy_is w on_disk matching sc c es ->
  k_parts k = PStr r :: ps -> r <> "lookup_options" -> plain_key r ->
  Forall2 (level_is w) es files ->
  Forall (fun f => forall v, under "lookup_options" f = Some v -> wf v = true /\ settled v) files ->
  Forall (fun f => forall v, under r f = Some v -> wf v = true /\ settled v) files ->
  options_for (pure_lookup (SDeep []) (map (under "lookup_options") files)) r lo ->
  merge_option opts lo mo -> strategy_is mo s -> conversion_is lo cv ->
  conversion_fails w cv (pure_lookup s (map (under r) files)) e ->
  fst (run_lookup w (4 + N) k opts (init_st sc None)) = Panic e.
Proof.
  intros w od mt c sc es files k r ps opts lo mo s cv e N [H1 H2 H3 (file & H4 & H5)] Hh Hk Hr Hp Hf Ho Hq Hlo Hm Hs Hcv Hx.
  assert (L : forall st key, plain_key key -> Forall (fun l => forall v, under key l = Some v -> quiet v) files -> forall s',
     hierarchy_gives w sc (value_is (fun t => answers w sc es st 1 (QStr t))) key s' es (pure_lookup s' (map (under key) files))).
  { intros st key Hk0 H s'. apply picks_pure. clear - Hk0 Hf H.
    induction Hf as [|e l es ls H1 Hl IH]; [ constructor | ]. inversion H as [|? ? Hv H']; subst. constructor; [ | apply IH; assumption ].
    apply level_gives; [ exact Hk0 | exact H1 | ]. intros v E. apply quiet_answers. apply Hv. exact E. }
  pose proof (failing_conversion w 1 od mt H1 H2 H3 (S N) ltac:(lia) sc c file H4 H5 es k opts r ps _ lo mo s cv _ e (init_st sc None)
                eq_refl eq_refl (or_introl eq_refl) Hh Hk Hr (plain_correct r Hp) (L None _ options_key_plain Ho _) (plain_options _ r lo Hp Hlo) Hm Hs Hcv (L (Some s) _ Hp Hq _) Hx) as E.
  change (run_lookup w (4 + N) k opts) with (bind (bind (lookup w (run w (S (S (S N)))) k opts) (fun v => ret (v, true))) (fun r => ret (fst r))).
  unfold bind. destruct (lookup w (run w (S (S (S N)))) k opts (init_st sc None)) as [x s']. cbn [fst] in E. subst x. reflexivity.
Qed.
Print Assumptions C26_failing_conversion_panics.

(** The unique merge of two arrays, converted with an argument. *)
Example C26_converted_ex :
  fst (run_lookup opt_w 9 (mk_key "a" [PStr "a"]) None (init_st (ScMap []) None))
  = Ok (Some (VArr [VArr [VInt 1; VInt 2; VInt 3]; VInt 9])).
Proof.
  apply (C26_found_values_are_converted opt_w opt_disk (fun _ => []) (levels_in ["node"; "common"]) (ScMap []) opt_es opt_files
           (mk_key "a" [PStr "a"]) "a" [] None
           (Some [(VStr "merge", VStr "unique"); (VStr "convert_to", VArr [VStr "list"; VInt 9])]) (Some (VStr "unique")) SUnique
           (Some ("list", Some [VInt 9])) (Some (VArr [VArr [VInt 1; VInt 2; VInt 3]; VInt 9]))
           _ 5 opt_steady opt_hierarchy); try reflexivity; try discriminate.
  - apply plain_key_by. reflexivity.
  - exact opt_levels.
  - apply opt_settled. simpl. auto.
  - apply opt_settled. simpl. auto.
  - eapply of_map; reflexivity.
  - eapply mo_option; try reflexivity. discriminate.
  - apply si_name. constructor.
  - eapply ci_args; reflexivity.
  - eapply cv_new; [ reflexivity | left; discriminate | reflexivity ].
  - intros y E. injection E as <-. split; [ reflexivity | apply settled_by; reflexivity ].
  - match goal with |- digs ?ps _ _ => exact (digs_by ps (Some (VArr [VArr [VInt 1; VInt 2; VInt 3]; VInt 9]))) end.
Qed.

(** A conversion that refuses the value. *)
Definition bad_w : world :=
  with_types (fun t => Ok (CType t)) (fun _ v a => Panic (EErr "no"))
    (file_world [("/h/hiera.yaml", levels ["node"; "common"])] opt_data).

Example C26_fails_ex : fst (run_lookup bad_w 9 (mk_key "a" [PStr "a"]) None (init_st (ScMap []) None)) = Panic (EErr "no").
Proof.
  apply (C26_failing_conversion_panics bad_w opt_disk (fun _ => []) (levels_in ["node"; "common"]) (ScMap []) opt_es opt_files
           (mk_key "a" [PStr "a"]) "a" [] None
           (Some [(VStr "merge", VStr "unique"); (VStr "convert_to", VArr [VStr "list"; VInt 9])]) (Some (VStr "unique")) SUnique
           (Some ("list", Some [VInt 9])) (EErr "no") 5); try reflexivity; try discriminate.
  - constructor; try reflexivity. exists (CfYaml (levels ["node"; "common"])). split; [ reflexivity | vm_compute; reflexivity ].
  - apply levels_resolved; reflexivity.
  - apply plain_key_by. reflexivity.
  - constructor; [ eapply li_present; reflexivity | ]. constructor; [ eapply li_present; reflexivity | constructor ].
  - apply opt_settled. simpl. auto.
  - apply opt_settled. simpl. auto.
  - eapply of_map; reflexivity.
  - eapply mo_option; try reflexivity. discriminate.
  - apply si_name. constructor.
  - eapply ci_args; reflexivity.
  - eapply cf_value; try reflexivity. left. discriminate.
Qed.
