(** Properties C18 and C27: what lookups give for data that makes text with
    literals, and for data that is an alias of another key, without conditions on
    what the text or the other key is. *)

From Coq Require Import String Ascii List ZArith Bool Arith Lia.
From Verif Require Import Str Value Outcome Key Merge Fpath Config Ipl Explain State Engine Session Worlds
  SpecKey SpecIpl SpecInterp SpecConfig SpecMerge SpecLookup SpecFail SpecWorld
  KeyFacts ValueFacts MergeLookup StrFacts IplFacts InterpFacts IplExact Fuel ResolveFacts LookupTop SettledLookup ExLevels
  AnswerFacts P_Key P_Lookup RootFacts P_Nested Decided DecidedTop P_Fail P_Complete.
Import ListNotations.
Open Scope nat_scope.
Open Scope string_scope.
Open Scope list_scope.

(** ** One answer *)

Lemma literals_only w sc si li cut last rs o : well_cut cut last ->
  Forall2 (fun p r => calls (trim_space (snd p)) "literal" r) cut rs ->
  whole_is w sc si li (assembled cut last) o -> o = Some (VStr (filled cut rs last)).
Proof.
  intros Hw H Ho.
  assert (One : forall e arg r, calls (trim_space e) "literal" arg -> expression_is w sc si li e r -> r = arg).
  { intros e arg r Hc He. pose proof (calls_nonempty _ _ _ Hc) as Hn.
    assert (Ha : forall x, ~ asks_scope true (trim_space e) x).
    { intros x [[_ Hx]|[_ Hx]]; [ destruct (calls_inj _ _ _ _ _ Hc Hx); discriminate | exact (Hx _ _ Hc) ]. }
    destruct He as [H1|arg' H1|arg' x ps _ H1 _ _|arg' x ps v r o' _ H1 _ _ _ _|name arg' ps o' H1 [->| ->] _ _].
    - repeat (destruct H1 as [E|H1]; [ rewrite <- E in Hn; discriminate Hn | ]). destruct H1.
    - exact (proj2 (calls_inj _ _ _ _ _ H1 Hc)).
    - destruct (Ha _ H1).
    - destruct (Ha _ H1).
    - destruct (calls_inj _ _ _ _ _ Hc H1). discriminate.
    - destruct (calls_inj _ _ _ _ _ Hc H1). discriminate. }
  assert (Alias : forall e name arg, ("%{" ++ e ++ "}")%string = assembled cut last -> ~ has "}" e ->
            calls (trim_space e) name arg -> name = "literal").
  { intros e name arg E He Hc. destruct (alone_cut e He) as [A B]. rewrite <- B in E.
    destruct (cut_unique _ _ _ _ A Hw E) as [<- <-]. inversion H as [|? r ? ? H1 _]; subst. cbn [snd] in H1.
    exact (proj1 (calls_inj _ _ _ _ _ Hc H1)). }
  remember (assembled cut last) as t eqn:Et.
  destruct Ho as [cut' rs' last' H1 H2|e arg ps o He Hc _ _|e arg ps o He Hc _ _].
  - destruct (cut_unique _ _ _ _ H1 Hw Et) as [-> ->]. do 2 f_equal. f_equal. clear - H H2 One.
    revert rs H. induction H2 as [|p r cut rs' H2 _ IH]; intros rs H; inversion H as [|? r' ? rs0 H3 H4]; subst; [ reflexivity | ].
    rewrite (One _ _ _ H3 H2), (IH rs0 H4). reflexivity.
  - discriminate (Alias _ _ _ eq_refl He Hc).
  - discriminate (Alias _ _ _ eq_refl He Hc).
Qed.

Lemma alias_only w sc si li e arg ps o : ~ has "}" e -> calls (trim_space e) "alias" arg -> written_key arg ps ->
  whole_is w sc si li ("%{" ++ e ++ "}")%string o ->
  exists v, li (mk_key arg ps) v /\ o = Some (match v with Some v => v | None => VStr "" end).
Proof.
  intros He Hc Hk Ho. destruct (alone_cut e He) as [A B].
  assert (Inj : forall e', ("%{" ++ e' ++ "}")%string = ("%{" ++ e ++ "}")%string -> ~ has "}" e' -> e' = e).
  { intros e' E He'. destruct (alone_cut e' He') as [A' B']. rewrite <- B, <- B' in E.
    destruct (cut_unique _ _ _ _ A' A E) as [E1 _]. congruence. }
  rewrite <- B in Inj. rewrite <- B in Ho. clear B.
  remember (assembled [("", e)] "") as t eqn:Et.
  destruct Ho as [cut' rs' last' H1 H2|e' arg' ps' o He' Hc' Hk' Hl|e' arg' ps' o He' Hc' _ _].
  - destruct (cut_unique _ _ _ _ H1 A Et) as [-> ->]. exfalso.
    inversion H2 as [|? r ? ? H3 _]; subst. cbn [snd] in H3. pose proof (calls_nonempty _ _ _ Hc) as Hn.
    assert (Ha : forall x, ~ asks_scope true (trim_space e) x).
    { intros x [[_ Hx]|[_ Hx]]; [ destruct (calls_inj _ _ _ _ _ Hc Hx); discriminate | exact (Hx _ _ Hc) ]. }
    destruct H3 as [H4|arg' H4|arg' x ps' _ H4 _ _|arg' x ps' v r o' _ H4 _ _ _ _|name arg' ps' o' H4 [->| ->] _ _].
    + repeat (destruct H4 as [E|H4]; [ rewrite <- E in Hn; discriminate Hn | ]). destruct H4.
    + destruct (calls_inj _ _ _ _ _ Hc H4). discriminate.
    + destruct (Ha _ H4).
    + destruct (Ha _ H4).
    + destruct (calls_inj _ _ _ _ _ Hc H4). discriminate.
    + destruct (calls_inj _ _ _ _ _ Hc H4). discriminate.
  - rewrite (Inj e' eq_refl He') in Hc'. destruct (calls_inj _ _ _ _ _ Hc Hc') as [_ <-].
    exists o. split; [ | reflexivity ]. replace ps with ps'; [ exact Hl | ].
    pose proof (proj2 (new_key_written arg (mk_key arg ps')) (ex_intro _ ps' (conj eq_refl Hk'))) as N1.
    pose proof (proj2 (new_key_written arg (mk_key arg ps)) (ex_intro _ ps (conj eq_refl Hk))) as N2. congruence.
  - rewrite (Inj e' eq_refl He') in Hc'. destruct (calls_inj _ _ _ _ _ Hc Hc'). discriminate.
Qed.

(** Values without expressions stand for themselves only. *)
Lemma quiet_only w sc es st n : forall v, quiet v -> forall r,
  value_is (fun t => answers w sc es st n (QStr t)) v r -> r = Some v.
Proof.
  intro v. induction v using value_ind2; intros [W Q] r Hr;
    try (inversion Hr; subst; [ reflexivity ]).
  - inversion Hr as [t o Ho| | |v N1 N2 N3]; subst; [ | destruct (N1 _ eq_refl) ].
    destruct n as [|n]; [ destruct Ho | ]. cbn [answers] in Ho.
    assert (T : ~ has "%{" s) by (apply Q; constructor).
    assert (C : well_cut [] s) by (split; [ constructor | intros (a & b & c & ->); apply T; exists a, (b ++ "}" ++ c)%string; reflexivity ]).
    exact (literals_only w sc _ _ [] s [] r C (Forall2_nil _) Ho).
  - inversion Hr as [|l1 l' Hl| |v N1 N2 N3]; subst; [ | destruct (N2 _ eq_refl) ].
    f_equal. f_equal. apply wf_arr in W. apply settled_arr in Q. clear - H W Q Hl.
    induction Hl as [|x y l l' (r & Hx & ->) Hl IH]; [ reflexivity | ].
    inversion H as [|? ? H1 H2]; inversion W as [|? ? W1 W2]; inversion Q as [|? ? Q1 Q2]; subst.
    rewrite (H1 (conj W1 Q1) _ Hx), (IH H2 W2 Q2). reflexivity.
  - inversion Hr as [| |m1 m' _ Hm|v N1 N2 N3]; subst; [ | destruct (N3 _ eq_refl) ].
    transitivity (Some (VMap (mputall [] m))); [ do 3 f_equal | now rewrite (mputall_self m W) ].
    assert (W' : Forall (fun e => wf (fst e) = true /\ wf (snd e) = true) m).
    { apply Forall_forall. intros e He. exact (wfm_in m e W He). }
    apply settled_map in Q. clear - H W' Q Hm.
    induction Hm as [|[k v] [k' v'] m m' ((r1 & H1 & E1) & (r2 & H2 & E2)) Hm IH]; [ reflexivity | ].
    cbn [fst snd] in *.
    inversion H as [|? ? [G1 G2] G3]; inversion W' as [|? ? [W1 W2] W3]; inversion Q as [|? ? [Q1 Q2] Q3]; subst.
    cbn [fst snd] in *. rewrite (G1 (conj W1 Q1) _ H1), (G2 (conj W2 Q2) _ H2), (IH G3 Q3 W3). reflexivity.
Qed.

(** A level with the key gives what its value stands for. *)
Lemma level_only_value w sc (vi : value -> option value -> Prop) r s e l x o :
  plain_key r -> level_is w e l -> under r l = Some x -> entry_gives w sc vi r s e o -> vi x o.
Proof.
  intros Hp [l0 Hl Hex|o0 p m Hl Hfn Hy] Hu H; [ discriminate | ].
  cbn [under] in Hu. destruct H as [? H5 _|H5|l' ? H5 H6|? ? ? ? H5 _]; try congruence.
  rewrite Hl in H5. injection H5 as <-. destruct H6 as [H6|? _ H7]; [ exfalso; apply H6; reflexivity | ].
  assert (Hh : forall m2, hash_is w e "yaml_data" (Some (LPath o0 p true)) m2 -> m2 = m).
  { intros m2 H8. destruct H8 as [opts p' m3 _ H9 H10 H11|? ? ? H9 _ _ _|? ? ? H9 _ _ _ _|? H9 _ _ _]; try discriminate; try congruence.
    inversion H9 as [|l' p2 H12]; subst. cbn [loc_resolved] in H12. injection H12 as <-. unfold mgets in H10.
    destruct (mput_same (VStr "path") (VStr p) (match e_options e with Some x => x | None => [] end)) as [E|E]; [ | discriminate E ].
    rewrite E in H10. injection H10 as <-. specialize (H11 []). cbn [vstring] in H11. rewrite Hy in H11. inversion H11. reflexivity. }
  destruct H7 as [y n m2 v o Hx Hf2 Hh2 Hg Hv|y n m2 Hx Hf2 Hh2 Hg|? ? ? Hf2 _|? ? ? Hf2 _|? ? ? ? ? ? Hf2 _ _ _ _ _|? ? Hf2 _ _ _ _|? ? ? ? ? ? ? Hf2 _ _ _|? ? Hf2 _ _];
    rewrite Hfn in Hf2; try discriminate Hf2; injection Hf2 as <-; rewrite (Hh m2 Hh2), (plain_root_only r y Hp Hx) in Hg; [ | congruence ].
  assert (v = x) as <- by congruence. exact Hv.
Qed.

(** What is under lookup_options, when that has no expressions. *)
Definition options_in (files : list (option entries)) : option value :=
  pure_lookup (SDeep []) (map (under "lookup_options") files).

Lemma options_all w sc es files n : Forall2 (level_is w) es files ->
  Forall (fun f => forall v, under "lookup_options" f = Some v -> wf v = true /\ settled v) files ->
  all_options w sc es (S n) (options_in files).
Proof.
  intros Hf Hq. unfold all_options, hierarchy_gives, options_in. apply pk_merge; [ discriminate | ].
  generalize (answers w sc es None (S n)) (quiet_answers w sc es None n). intros A QA.
  induction Hf as [|e f es files H1 _ IH]; [ constructor | ].
  inversion Hq as [|? ? Hv Hq']; subst. cbn [map]. constructor; [ | exact (IH Hq') ].
  apply level_gives; [ exact options_key_plain | exact H1 | ]. intros v E. apply QA. exact (Hv v E).
Qed.

Lemma options_only w sc es files n all : Forall2 (level_is w) es files ->
  Forall (fun f => forall v, under "lookup_options" f = Some v -> wf v = true /\ settled v) files ->
  all_options w sc es n all -> all = options_in files.
Proof.
  intros Hf Hq Hall. unfold all_options, hierarchy_gives in Hall.
  inversion Hall as [| |s' l' outs Hne H2]; subst. unfold options_in. f_equal. clear Hall Hne.
  revert H2. generalize (quiet_only w sc es None n). generalize (value_is (fun t => answers w sc es None n (QStr t))).
  intros vi QO. revert outs.
  induction Hf as [|e f es files H1 _ IH]; intros outs H2; inversion H2 as [|? o ? outs' H3 H4]; subst; [ reflexivity | ].
  inversion Hq as [|? ? Hv Hq']; subst. cbn [map]. rewrite (IH Hq' outs' H4). f_equal.
  destruct (under "lookup_options" f) as [v|] eqn:E.
  - exact (QO v (Hv v eq_refl) o (level_only_value w sc vi _ _ e f v o options_key_plain H1 E H3)).
  - exact (level_only_none w sc vi "lookup_options" (SDeep []) e f o options_key_plain H1 E H3).
Qed.

(** ** What is read twice *)

Lemma lookup_known w od mt c sc es k opts r ps o : steady w od mt c -> dependable w -> hierarchy_is w od mt sc c es ->
  (forall x v, scope_get sc x = Some v -> wf v = true) -> k_parts k = PStr r :: ps -> r <> "lookup_options" ->
  ((exists N, fst (run_lookup w N k opts (init_st sc None)) = Ok o) <-> exists n, lookup_gives w sc es n k opts o).
Proof.
  intros Hst Hw Hh Hv Hk Hr. split.
  - intros (N & E).
    assert (E' : fst (run_lookup w (S (S (S N))) k opts (init_st sc None)) = Ok o).
    { rewrite <- E. rewrite (run_lookup_mono w N (S (S (S N))) k opts (init_st sc None)); [ reflexivity | lia | rewrite E; discriminate ]. }
    pose proof Hst as [H1 H2 H3 (file & H4 & H5)].
    destruct (lookup_decided w N sc c file es H4 H5 H3 (hierarchy_created w od mt _ c es N H1 H2 Hh) Hw Hv k opts r ps
                (init_st sc None) Hk Hr eq_refl eq_refl (or_introl eq_refl)) as [(o' & H)|[(x & H)|H]].
    + exists (S (S N)).
      destruct (one_served w od mt c (S (S N)) N (mk_request sc k opts) (Ok o') (init_st sc None) Hst (le_n _)) as (s' & F & _);
        [ left; exists es; auto | left; reflexivity | ].
      cbn [q_key q_opts q_scope] in F. change (invocation sc false (init_st sc None)) with (init_st sc None) in F.
      rewrite F in E'. cbn [fst] in E'. injection E' as <-. exact H.
    + destruct (one_served w od mt c (S (S N)) N (mk_request sc k opts) (Panic x) (init_st sc None) Hst (le_n _)) as (s' & F & _);
        [ exists es; auto | left; reflexivity | ].
      cbn [q_key q_opts q_scope] in F. change (invocation sc false (init_st sc None)) with (init_st sc None) in F.
      rewrite F in E'. discriminate E'.
    + assert (F : fst (run_lookup w (S (S (S N))) k opts (init_st sc None)) = NoFuel); [ | congruence ].
      change (run_lookup w (S (S (S N))) k opts)
        with (bind (bind (lookup w (run w (S (S N))) k opts) (fun v => ret (v, true))) (fun r => ret (fst r))).
      apply fst_bind. apply fst_bind. exact H.
  - intros (n & L). exists (3 + n + 0). exact (one_lookup w od mt c sc es n k opts o 0 Hst Hh L).
Qed.

Lemma first_place {L} (gives : L -> option value -> Prop) : forall pre e post pre' y post' v,
  pre ++ e :: post = pre' ++ y :: post' -> (forall z o, In z pre -> gives z o -> o = None) ->
  Forall (fun z => gives z None) pre' -> gives y (Some v) -> ~ gives e None -> y = e.
Proof.
  induction pre as [|z pre IH]; intros e post [|z' pre'] y post' v E H1 H2 H3 H4; cbn in E; injection E as E1 E2.
  - congruence.
  - subst z'. inversion H2; subst. contradiction.
  - subst y. discriminate (H1 z _ (or_introl eq_refl) H3).
  - inversion H2; subst. eapply IH; eauto. intros z0 o Hz. apply H1. right. exact Hz.
Qed.

(** The text under a key that has no lookup options is read once where it is
    found, where lookups are possible, and what that gives is read once more,
    where they are not. *)
Lemma read_twice w od mt c sc es files a pre e post m x o :
  steady w od mt c -> dependable w -> hierarchy_is w od mt sc c es ->
  (forall y v, scope_get sc y = Some v -> wf v = true) ->
  Forall2 (level_is w) es files ->
  Forall (fun f => forall v, under "lookup_options" f = Some v -> wf v = true /\ settled v) files ->
  options_for (options_in files) a None ->
  a <> "lookup_options" -> plain_key a ->
  es = pre ++ e :: post ->
  Forall (fun e => exists f, level_is w e f /\ under a f = None) pre ->
  level_is w e (Some m) -> mgets a m = Some (VStr x) ->
  (forall n, ~ answers w sc es (Some SFirst) n (QStr x) None) ->
  ((exists N, fst (run_lookup w N (mk_key a [PStr a]) None (init_st sc None)) = Ok o) <->
   exists n v, answers w sc es (Some SFirst) n (QStr x) (Some v) /\
     value_is (fun t => answers w sc es None n (QStr t)) v o).
Proof.
  intros Hst Hw Hh Hvs Hf Hq Hno Ha Hpa Hes Hpre He Hm Hsome.
  rewrite (lookup_known w od mt c sc es (mk_key a [PStr a]) None a [] o Hst Hw Hh Hvs eq_refl Ha). split.
  - intros (n & r & ps & all & lo & mo & s & cv & v0 & x0 & Hr & Hrl & Hrp & Hall & Hlo & Hmo & Hs & Hcv & Hv0 & Hx0 & Hy).
    cbn [k_parts] in Hr. injection Hr as <- <-.
    rewrite (options_only w sc es files n all Hf Hq Hall) in Hlo. apply (options_plain _ _ _ Hpa) in Hlo.
    assert (lo = None) as ->.
    { inversion Hno as [|m1 E1 N1|N1]; inversion Hlo as [m2 o2 E2 G2|m2 E2 N2|N2]; subst; try reflexivity.
      - rewrite E1 in E2. injection E2 as <-. destruct (N1 _ G2).
      - destruct (N1 _ E2). }
    assert (mo = None) as -> by (inversion Hmo; try discriminate; reflexivity).
    assert (s = SFirst) as -> by (inversion Hs; reflexivity).
    assert (cv = None) as -> by (inversion Hcv; try discriminate; reflexivity).
    inversion Hx0; subst x0. clear Hx0.
    set (vi := value_is (fun t => answers w sc es (Some SFirst) n (QStr t))) in *.
    assert (Only : forall o', entry_gives w sc vi a SFirst e o' -> answers w sc es (Some SFirst) n (QStr x) o').
    { intros o' G. pose proof (level_only_value w sc vi a SFirst e (Some m) (VStr x) o' Hpa He Hm G) as V.
      inversion V as [t r T| | |v N1 N2 N3]; subst; [ exact T | destruct (N1 _ eq_refl) ]. }
    assert (NN : ~ entry_gives w sc vi a SFirst e None) by (intro G; exact (Hsome n (Only _ G))).
    inversion Hv0 as [pre' y post' v1 G1 G2 Gs Ge|l G1|s' l outs N1]; subst; [ | | congruence ].
    + assert (y = e) as ->.
      { eapply (first_place (entry_gives w sc vi a SFirst) pre e post pre' y post' v1); try eassumption.
        - congruence.
        - intros z o' Hz G. rewrite Forall_forall in Hpre. destruct (Hpre z Hz) as (f & F1 & F2).
          exact (level_only_none w sc vi a SFirst z f o' Hpa F1 F2 G). }
      destruct Hy as (y & Hy & Hd). exists n, v1. rewrite Ge. split; [ exact (Only _ G2) | ].
      assert (o = y) as ->; [ | exact Hy ].
      destruct Hd as [|v' y' P|v' P]; [ reflexivity | inversion P; reflexivity | destruct (P v'); constructor ].
    + exfalso. apply NN. rewrite Forall_forall in G1. apply G1. apply in_or_app. right. left. reflexivity.
  - intros (n & v & Hx & Hv). exists n. destruct n as [|n]; [ destruct Hx | ].
    exists a, [], (options_in files), None, None, SFirst, None, (Some v), (Some v).
    split; [ reflexivity | ]. split; [ exact Ha | ]. split; [ exact (plain_correct a Hpa) | ].
    split; [ exact (options_all w sc es files n Hf Hq) | ].
    split; [ exact (plain_options _ _ _ Hpa Hno) | ]. split; [ apply mo_none; discriminate | ]. split; [ apply si_none | ].
    split; [ apply ci_none; discriminate | ]. split; [ | split; [ apply cv_no_conversion | ] ].
    + unfold hierarchy_gives. revert Hx. generalize (answers w sc es (Some SFirst) (S n)). intros A Hx. subst es. apply pk_first.
      * eapply Forall_impl; [ | exact Hpre ]. intros e' (f & F1 & F2). exact (level_none w sc _ a SFirst e' f Hpa F1 F2).
      * apply (level_value w sc _ a SFirst e (Some m) (VStr x)); [ exact Hpa | exact He | exact Hm | ]. apply vi_str. exact Hx.
    + exists o. split; [ exact Hv | ]. destruct o as [y|]; [ apply digs_path; constructor | apply digs_none ].
Qed.

(** ** C18 *)

(** Data that makes text with literals: the lookup gives what that text stands
    for when it is read again, where lookups are not possible.  So literals escape
    expressions exactly when the text, read again, stands for itself. *)
Theorem C18_literal_exactly : forall w on_disk matching c sc es files a pre e post m cut last rs o,
  steady w on_disk matching c -> dependable w -> hierarchy_is w on_disk matching sc c es ->
  (forall y v, scope_get sc y = Some v -> wf v = true) ->
  Forall2 (level_is w) es files ->
  Forall (fun f => forall v, under "lookup_options" f = Some v -> wf v = true /\ settled v) files ->
  options_for (options_in files) a None ->
  a <> "lookup_options" -> plain_key a ->
  es = pre ++ e :: post ->
  Forall (fun e => exists f, level_is w e f /\ under a f = None) pre ->
  level_is w e (Some m) -> mgets a m = Some (VStr (assembled cut last)) ->
  well_cut cut last -> Forall2 (fun p r => calls (trim_space (snd p)) "literal" r) cut rs ->
  ((exists N, fst (run_lookup w N (mk_key a [PStr a]) None (init_st sc None)) = Ok o) <->
   exists n, answers w sc es None n (QStr (filled cut rs last)) o).
Proof.
  intros w od mt c sc es files a pre e post m cut last rs o Hst Hw Hh Hvs Hf Hq Hno Ha Hpa Hes Hpre He Hm Hc Hl.
  assert (Only : forall n o', answers w sc es (Some SFirst) n (QStr (assembled cut last)) o' -> o' = Some (VStr (filled cut rs last))).
  { intros [|n] o' H; [ destruct H | ]. exact (literals_only w sc _ _ cut last rs o' Hc Hl H). }
  rewrite (read_twice w od mt c sc es files a pre e post m (assembled cut last) o Hst Hw Hh Hvs Hf Hq Hno Ha Hpa Hes Hpre He Hm);
    [ | intros n H; discriminate (Only _ _ H) ].
  split.
  - intros (n & v & H1 & H2). pose proof (Only _ _ H1) as E. injection E as ->. exists n.
    inversion H2 as [t r T| | |v N1 N2 N3]; subst; [ exact T | destruct (N1 _ eq_refl) ].
  - intros (n & H). destruct n as [|n]; [ destruct H | ]. exists (S n), (VStr (filled cut rs last)). split; [ | apply vi_str; exact H ].
    cbn [answers]. apply wi_text; [ exact Hc | ]. clear - Hl. induction Hl as [|p r cut rs Hp _ IH]; constructor; [ | exact IH ].
    apply ei_literal. exact Hp.
Qed.
Print Assumptions C18_literal_exactly.

(** ** C27 *)

(** Data that is an alias of another key: the lookup gives what the other key
    has when it is looked up with the strategy first, without its lookup options
    and its conversion, read once more where lookups are not possible. *)
Theorem C27_alias_exactly : forall w on_disk matching c sc es files a pre e post m x arg ps o,
  steady w on_disk matching c -> dependable w -> hierarchy_is w on_disk matching sc c es ->
  (forall y v, scope_get sc y = Some v -> wf v = true) ->
  Forall2 (level_is w) es files ->
  Forall (fun f => forall v, under "lookup_options" f = Some v -> wf v = true /\ settled v) files ->
  options_for (options_in files) a None ->
  a <> "lookup_options" -> plain_key a ->
  es = pre ++ e :: post ->
  Forall (fun e => exists f, level_is w e f /\ under a f = None) pre ->
  level_is w e (Some m) -> mgets a m = Some (VStr ("%{" ++ x ++ "}")) ->
  ~ has "}" x -> calls (trim_space x) "alias" arg -> written_key arg ps ->
  ((exists N, fst (run_lookup w N (mk_key a [PStr a]) None (init_st sc None)) = Ok o) <->
   exists n v, answers w sc es (Some SFirst) n (QKey (mk_key arg ps)) v /\
     value_is (fun t => answers w sc es None n (QStr t)) (match v with Some v => v | None => VStr "" end) o).
Proof.
  intros w od mt c sc es files a pre e post m x arg ps o Hst Hw Hh Hvs Hf Hq Hno Ha Hpa Hes Hpre He Hm Hx Hc Hk.
  assert (Only : forall n o', answers w sc es (Some SFirst) (S n) (QStr ("%{" ++ x ++ "}")) o' ->
            exists v, answers w sc es (Some SFirst) n (QKey (mk_key arg ps)) v /\ o' = Some (match v with Some v => v | None => VStr "" end)).
  { intros n o' H. exact (alias_only w sc _ _ x arg ps o' Hx Hc Hk H). }
  rewrite (read_twice w od mt c sc es files a pre e post m ("%{" ++ x ++ "}") o Hst Hw Hh Hvs Hf Hq Hno Ha Hpa Hes Hpre He Hm);
    [ | intros [|n] H; [ destruct H | destruct (Only _ _ H) as (v & _ & E); discriminate E ] ].
  split.
  - intros (n & v & H1 & H2). destruct n as [|n]; [ destruct H1 | ]. destruct (Only _ _ H1) as (v' & H3 & E). injection E as ->.
    exists (S n), v'. split; [ apply answers_step; exact H3 | exact H2 ].
  - intros (n & v & H1 & H2). exists (S n), (match v with Some v => v | None => VStr "" end). split.
    + cbn [answers]. eapply wi_alias; eassumption.
    + eapply value_is_more; [ | exact H2 ]. intros t o'. apply answers_step.
Qed.
Print Assumptions C27_alias_exactly.

(** ** Examples *)

(** The key t makes text with literals that mentions a variable, and u makes text
    that does not; a is an alias of k, which has a merge strategy and a conversion
    in its lookup options. *)
Definition tw_node : entries :=
  [(VStr "a", VStr "%{ alias('k') }"); (VStr "k", VArr [VInt 1]);
   (VStr "lookup_options", vmap [("k", vmap [("merge", VStr "unique"); ("convert_to", VStr "sensitive")])])].
Definition tw_common : entries :=
  [(VStr "t", VStr "<%{literal('%')}{x}>"); (VStr "u", VStr "%{literal('%')}%{literal('{')}"); (VStr "k", VArr [VStr "%{x}"])].
Definition tw_data : list (string * value) := [("/h/data/node.yaml", VMap tw_node); ("/h/data/common.yaml", VMap tw_common)].
Definition tw_w : world := file_world [("/h/hiera.yaml", levels ["node"; "common"])] tw_data.
Definition tw_disk : string -> bool := fun p => match aget p tw_data with Some _ => true | None => false end.
Definition tw_sc : scope := ScMap [(VStr "x", VStr "boom")].
Definition tw_es : list entry := map (level_out tw_disk) ["node"; "common"].

Lemma tw_scope : forall y v, scope_get tw_sc y = Some v -> wf v = true.
Proof.
  intros y v E. unfold scope_get, mgets in E. cbn [tw_sc mget] in E.
  destruct (veq (VStr y) (VStr "x")); [ injection E as <-; reflexivity | discriminate ].
Qed.
Lemma tw_level_node : level_is tw_w (level_out tw_disk "node") (Some tw_node).
Proof. eapply li_present; reflexivity. Qed.
Lemma tw_level_common : level_is tw_w (level_out tw_disk "common") (Some tw_common).
Proof. eapply li_present; reflexivity. Qed.
Lemma tw_levels : Forall2 (level_is tw_w) tw_es [Some tw_node; Some tw_common].
Proof. constructor; [ exact tw_level_node | constructor; [ exact tw_level_common | constructor ] ]. Qed.
Lemma tw_options : Forall (fun f => forall v, under "lookup_options" f = Some v -> wf v = true /\ settled v) [Some tw_node; Some tw_common].
Proof.
  constructor; [ | constructor; [ | constructor ] ]; intros v E; [ | discriminate E ].
  injection E as <-. split; [ reflexivity | apply settled_by; reflexivity ].
Qed.
Lemma tw_no_options a : a = "a" \/ a = "t" \/ a = "u" -> options_for (options_in [Some tw_node; Some tw_common]) a None.
Proof. intro H. eapply of_other; [ reflexivity | ]. intros o. destruct H as [->|[->| ->]]; discriminate. Qed.

(** The text <%{x}> stands for <boom> when it is read again, and that is what the
    lookup gives; the text %{ stands for itself. *)
Example C18_exactly_ex :
  (exists n, answers tw_w tw_sc tw_es None n (QStr "<%{x}>") (Some (VStr "<boom>"))) /\
  (exists n, answers tw_w tw_sc tw_es None n (QStr "%{") (Some (VStr "%{"))) /\
  (forall n, ~ answers tw_w tw_sc tw_es None n (QStr "<%{x}>") (Some (VStr "<%{x}>"))).
Proof.
  assert (P1 : well_cut [("<", "literal('%')")] "{x}>").
  { split; [ | apply no_expression; reflexivity ]. constructor; [ | constructor ]. cbn [fst snd]. rewrite <- !contains_not. auto. }
  assert (P2 : well_cut [("", "literal('%')"); ("", "literal('{')")] "").
  { split; [ | apply no_expression; reflexivity ]. constructor; [ | constructor; [ | constructor ] ]; cbn [fst snd]; rewrite <- !contains_not; auto. }
  assert (T : forall o, (exists N, fst (run_lookup tw_w N (mk_key "t" [PStr "t"]) None (init_st tw_sc None)) = Ok o) <->
                        exists n, answers tw_w tw_sc tw_es None n (QStr "<%{x}>") o).
  { intro o. apply (C18_literal_exactly tw_w tw_disk (fun _ => []) (levels_in ["node"; "common"]) tw_sc tw_es [Some tw_node; Some tw_common] "t"
      [level_out tw_disk "node"] (level_out tw_disk "common") [] tw_common [("<", "literal('%')")] "{x}>" ["%"] o).
    - exact (file_world_steady ["node"; "common"] tw_data eq_refl).
    - apply file_world_dependable. reflexivity.
    - apply levels_resolved. reflexivity.
    - exact tw_scope.
    - exact tw_levels.
    - exact tw_options.
    - apply tw_no_options. auto.
    - discriminate.
    - apply plain_key_by. reflexivity.
    - reflexivity.
    - constructor; [ exists (Some tw_node); split; [ exact tw_level_node | reflexivity ] | constructor ].
    - exact tw_level_common.
    - reflexivity.
    - exact P1.
    - constructor; [ apply ex_calls; reflexivity | constructor ]. }
  split; [ | split ].
  - apply T. exists 9. vm_compute. reflexivity.
  - apply (C18_literal_exactly tw_w tw_disk (fun _ => []) (levels_in ["node"; "common"]) tw_sc tw_es [Some tw_node; Some tw_common] "u"
      [level_out tw_disk "node"] (level_out tw_disk "common") [] tw_common [("", "literal('%')"); ("", "literal('{')")] "" ["%"; "{"] (Some (VStr "%{"))).
    + exact (file_world_steady ["node"; "common"] tw_data eq_refl).
    + apply file_world_dependable. reflexivity.
    + apply levels_resolved. reflexivity.
    + exact tw_scope.
    + exact tw_levels.
    + exact tw_options.
    + apply tw_no_options. auto.
    + discriminate.
    + apply plain_key_by. reflexivity.
    + reflexivity.
    + constructor; [ exists (Some tw_node); split; [ exact tw_level_node | reflexivity ] | constructor ].
    + exact tw_level_common.
    + reflexivity.
    + exact P2.
    + constructor; [ apply ex_calls; reflexivity | constructor; [ apply ex_calls; reflexivity | constructor ] ].
    + exists 9. vm_compute. reflexivity.
  - intros n H. destruct (proj2 (T _) (ex_intro _ n H)) as (N & E).
    assert (F : fst (run_lookup tw_w (9 + N) (mk_key "t" [PStr "t"]) None (init_st tw_sc None)) = Ok (Some (VStr "<boom>"))).
    { rewrite (run_lookup_mono tw_w 9 (9 + N) _ None (init_st tw_sc None)); [ vm_compute; reflexivity | lia | vm_compute; discriminate ]. }
    rewrite (run_lookup_mono tw_w N (9 + N) _ None (init_st tw_sc None)) in F; [ congruence | lia | rewrite E; discriminate ].
Qed.

(** The lookup of k merges and converts; what a has is its first value only. *)
Example C27_exactly_ex :
  fst (run_lookup tw_w 9 (mk_key "k" [PStr "k"]) None (init_st tw_sc None)) = Ok (Some (VSens (VArr [VInt 1; VStr "boom"]))) /\
  exists n v, answers tw_w tw_sc tw_es (Some SFirst) n (QKey (mk_key "k" [PStr "k"])) v /\
    value_is (fun t => answers tw_w tw_sc tw_es None n (QStr t)) (match v with Some v => v | None => VStr "" end) (Some (VArr [VInt 1])).
Proof.
  split; [ vm_compute; reflexivity | ].
  apply (C27_alias_exactly tw_w tw_disk (fun _ => []) (levels_in ["node"; "common"]) tw_sc tw_es [Some tw_node; Some tw_common] "a"
           [] (level_out tw_disk "node") [level_out tw_disk "common"] tw_node " alias('k') " "k" [PStr "k"] (Some (VArr [VInt 1]))).
  - exact (file_world_steady ["node"; "common"] tw_data eq_refl).
  - apply file_world_dependable. reflexivity.
  - apply levels_resolved. reflexivity.
  - exact tw_scope.
  - exact tw_levels.
  - exact tw_options.
  - apply tw_no_options. auto.
  - discriminate.
  - apply plain_key_by. reflexivity.
  - reflexivity.
  - constructor.
  - exact tw_level_node.
  - reflexivity.
  - now apply contains_not.
  - apply ex_calls. reflexivity.
  - apply written_by. reflexivity.
  - exists 9. vm_compute. reflexivity.
Qed.
