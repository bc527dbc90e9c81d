(** Resolving a configuration: what its strings stand for, or why they cannot be
    expanded, or that expanding them does not end. *)

From Coq Require Import String Ascii List ZArith Bool Arith Lia.
From Verif Require Import Str Value Outcome Key Merge Fpath Config Ipl Explain State Engine Meta Fuel
  SpecKey SpecKeyErr SpecIpl SpecInterp SpecConfig SpecMerge SpecLookup SpecFail SpecWorld SpecDeep
  KeyFacts KeyErrFacts ValueFacts MergeFacts MergeLookup StrFacts IplFacts InterpFacts IplExact ResolveFacts
  LookupExact HierarchyExact LookupTop FailExact FailText SettledLookup Acyclic Cycles RootFacts Decided DecidedOptions.
Import ListNotations.
Open Scope nat_scope.
Open Scope string_scope.
Open Scope list_scope.

(** Without methods, values are interpolated as with them. *)
Definition calm (rec : req -> M st res) (q : req) : M st res :=
  match q with RStr t _ => rec (RStr t false) | q => rec q end.

Lemma bind_same {A B} (m m' : M st A) (f f' : A -> M st B) :
  (forall s, m s = m' s) -> (forall a s, f a s = f' a s) -> forall s, bind m f s = bind m' f' s.
Proof. intros H Hf s. unfold bind. rewrite H. destruct (m' s) as [[a|e| |] s']; auto. Qed.

Lemma do_interp_calm rec : forall v s, do_interp rec false v s = do_interp (calm rec) true v s.
Proof.
  intro v. induction v using value_ind2; try reflexivity.
  - rewrite !do_interp_arr. apply bind_same; [ | reflexivity ].
    induction H as [|x l Hx _ IH]; [ reflexivity | ]. cbn [each_arr].
    apply bind_same; [ exact Hx | ]. intros a s. apply bind_same; [ exact IH | reflexivity ].
  - rewrite !do_interp_map. apply bind_same; [ | reflexivity ]. generalize (@nil (value * value)).
    induction H as [|[k x] m [Hk Hx] _ IH]; [ reflexivity | ]. intros cp. cbn [each_map fst snd] in *.
    apply bind_same; [ exact Hk | ]. intros a s. apply bind_same; [ exact Hx | ]. intros b s'.
    apply bind_same; [ apply IH | reflexivity ].
Qed.

Section Step.
  Variables (w : world) (s0 : st) (rec : req -> M st res).
  Hypothesis Off : off s0.
  Let sc := iv_scope (s_iv s0).
  Let P := asked s0.
  Let sh := s_shared s0.
  Variable text_is : string -> string -> Prop.
  Variable text_fails : string -> err -> Prop.
  Hypothesis Hstr : forall t t', text_is t t' -> exists b, (b = false -> t' = t) /\ yields P (rec (RStr t false)) (Some (VStr t'), b).
  Hypothesis Hno : forall t x, text_fails t x -> breaks sh P (rec (RStr t false)) x.

  Lemma asked_off : forall s, P s -> off s.
  Proof. intros s [l ->]. exact Off. Qed.
  Lemma asked_scope : forall s, P s -> iv_scope (s_iv s) = sc.
  Proof. intros s [l ->]. reflexivity. Qed.
  Lemma asked_shared : forall s, P s -> s_shared s = sh.
  Proof. intros s [l ->]. reflexivity. Qed.

  Lemma calm_strings t o : text_value text_is t o ->
    exists b, (b = false -> o = Some (VStr t)) /\ yields P (calm rec (RStr t true)) (o, b).
  Proof.
    intros (t' & H & ->). destruct (Hstr t t' H) as (b & B & G). exists b. split; [ | exact G ].
    intro E. rewrite (B E). reflexivity.
  Qed.

  Lemma yields_walk v r : value_is (text_value text_is) v r ->
    exists b, (b = false -> r = Some v) /\ yields P (do_interp rec false v) (r, b).
  Proof.
    intro H. destruct (yields_do_interp P (calm rec) (text_value text_is) calm_strings v r H) as (b & B & G).
    exists b. split; [ exact B | ]. intros s Hs. rewrite do_interp_calm. exact (G s Hs).
  Qed.

  Lemma breaks_walk v x : value_fails (text_value text_is) text_fails v x -> breaks sh P (do_interp rec false v) x.
  Proof.
    intros H s Hs. rewrite do_interp_calm.
    exact (breaks_do_interp sh P (calm rec) (text_value text_is) calm_strings text_fails Hno v x H s Hs).
  Qed.

  Lemma yields_variable src o : variable_is sc text_is src o -> yields P (in_scope rec false src) o.
  Proof.
    intros [x ps Hk Hg|x ps v r o' Hk Hg Hv Hd].
    - intros s Hs. exists s. split; [ | exact Hs ]. apply (in_scope_unset _ _ _ _ _ _ Hk). rewrite (asked_scope s Hs). exact Hg.
    - unfold in_scope. eapply yields_bind; [ apply yields_lift; exact (written_key_new _ _ Hk) | ].
      eapply yields_bind; [ apply yields_lift; reflexivity | ]. eapply yields_bind; [ exact (yields_scope sc P asked_scope) | ].
      rewrite Hg. destruct (yields_walk v r Hv) as (b & B & G). eapply yields_bind; [ exact G | ].
      cbn [fst]. exact (digs_dig P asked_off src x ps r o' Hd).
  Qed.

  Lemma breaks_variable src x : variable_fails sc text_is text_fails src x -> breaks sh P (in_scope rec false src) x.
  Proof.
    intros [H|y ps v Hk Hg Hv]; unfold in_scope.
    - apply breaks_now. apply new_key_refused in H. rewrite H. apply breaks_lift. exact asked_shared.
    - eapply breaks_after; [ apply yields_lift; exact (written_key_new _ _ Hk) | ].
      eapply breaks_after; [ apply yields_lift; reflexivity | ]. eapply breaks_after; [ exact (yields_scope sc P asked_scope) | ].
      rewrite Hg. apply breaks_now. exact (breaks_walk v x Hv).
  Qed.

  (** One expression of a string, before others. *)
  Definition goes_on (e r : string) : Prop :=
    forall str ts acc m, m <> MStrictAlias -> exists m', m' <> MStrictAlias /\
      (forall x, yields P (istr_loop w rec str false ts (acc ++ r)%string m' None) x ->
                 yields P (istr_loop w rec str false (TExpr e :: ts) acc m None) x) /\
      (forall x, breaks sh P (istr_loop w rec str false ts (acc ++ r)%string m' None) x ->
                 breaks sh P (istr_loop w rec str false (TExpr e :: ts) acc m None) x) /\
      (diverges P (istr_loop w rec str false ts (acc ++ r)%string m' None) ->
       diverges P (istr_loop w rec str false (TExpr e :: ts) acc m None)).

  Lemma inserts_goes_on e r : inserts w sc text_is e r -> goes_on e r.
  Proof.
    intros [Hin|o Hin Hc Hv] str ts acc m Hm; cbn [istr_loop].
    - rewrite (empty_interpolation_is _ Hin). exists m. rewrite app_nil_s. auto.
    - rewrite (empty_interpolation_out _ Hin). exists MScope. split; [ discriminate | ].
      assert (Ha : asks_scope false (trim_space e) (trim_space e)) by (right; auto).
      pose proof (yields_lift P _ _ _ (asks_scope_md _ _ _ Ha)) as E1. pose proof (yields_variable _ _ Hv) as E2.
      split; [ | split ].
      + intros x K. eapply yields_bind; [ exact E1 | ]. cbn [fst snd is_alias andb]. eapply yields_bind; [ exact E2 | exact K ].
      + intros x K. eapply breaks_after; [ exact E1 | ]. cbn [fst snd is_alias andb]. eapply breaks_after; [ exact E2 | exact K ].
      + intro K. eapply div_after; [ exact E1 | ]. cbn [fst snd is_alias andb]. eapply div_after; [ exact E2 | exact K ].
  Qed.

  Lemma breaks_insert e x str ts acc m : insert_fails sc text_is text_fails e x ->
    breaks sh P (istr_loop w rec str false (TExpr e :: ts) acc m None) x.
  Proof.
    intros [name arg Hc ->|Hin Hc Hv]; cbn [istr_loop].
    - rewrite (calls_nonempty _ _ _ Hc). apply breaks_now. apply method_match_spec in Hc. unfold method_and_data. rewrite Hc.
      apply breaks_lift. exact asked_shared.
    - rewrite (empty_interpolation_out _ Hin).
      assert (Ha : asks_scope false (trim_space e) (trim_space e)) by (right; auto).
      eapply breaks_after; [ apply yields_lift; exact (asks_scope_md _ _ _ Ha) | ]. cbn [fst snd is_alias andb].
      apply breaks_now. exact (breaks_variable _ _ Hv).
  Qed.

  Lemma yields_pieces str : forall cut rs last acc m,
    Forall2 (fun p r => inserts w sc text_is (snd p) r) cut rs -> m <> MStrictAlias ->
    exists m', m' <> MStrictAlias /\
    yields P (istr_loop w rec str false (toks cut last) acc m None) ((acc ++ filled cut rs last)%string, m', None).
  Proof.
    induction cut as [|[t e] cut IH]; intros rs last acc m H Hm.
    - exists m. split; [ exact Hm | ]. inversion H; subst. apply yields_ret.
    - inversion H as [|? r ? rs' H1 H2]; subst. cbn [snd] in H1. cbn [toks].
      destruct (inserts_goes_on e r H1 str (toks cut last) (acc ++ t)%string m Hm) as (m1 & Hm1 & E & _).
      destruct (IH rs' last ((acc ++ t) ++ r)%string m1 H2 Hm1) as (m2 & Hm2 & E2).
      exists m2. split; [ exact Hm2 | ]. apply E in E2. cbn [filled].
      replace (acc ++ t ++ r ++ filled cut rs' last)%string with (((acc ++ t) ++ r) ++ filled cut rs' last)%string
        by (rewrite !app_assoc_s; reflexivity).
      exact E2.
  Qed.

  Definition step_is (t t' : string) : Prop :=
    exists cut rs last, well_cut cut last /\ t = assembled cut last /\ t' = filled cut rs last /\
      Forall2 (fun p r => inserts w sc text_is (snd p) r) cut rs.
  Definition step_fails (t : string) (x : err) : Prop :=
    exists pre u e post last rs, t = assembled (pre ++ (u, e) :: post) last /\ well_cut (pre ++ (u, e) :: post) last /\
      Forall2 (fun p r => inserts w sc text_is (snd p) r) pre rs /\ insert_fails sc text_is text_fails e x.

  Lemma yields_step t t' : step_is t t' ->
    exists b, (b = false -> t' = t) /\ yields P (istr w rec t false) (Some (VStr t'), b).
  Proof.
    intros (cut & rs & last & Hw & -> & -> & H). unfold istr. destruct (contains "%{" (assembled cut last)) eqn:Ec.
    - exists true. split; [ discriminate | ]. cbn [negb].
      eapply yields_bind; [ | apply yields_ret ]. apply (yields_node P asked_off). rewrite (tokens_cut _ _ Hw).
      destruct (yields_pieces (assembled cut last) cut rs last "" MScope H) as (m & Hm & E); [ discriminate | ].
      eapply yields_bind; [ exact E | ]. cbn. destruct m; try apply yields_ret. congruence.
    - exists false. cbn [negb]. pose proof (contains_nil _ Ec cut last eq_refl) as ->. inversion H; subst. cbn [assembled filled].
      split; [ reflexivity | apply yields_ret ].
  Qed.

  (** The first expressions stand for something, the next one does not. *)
  Lemma first_pieces str : forall pre rs u e post last acc m,
    Forall2 (fun p r => inserts w sc text_is (snd p) r) pre rs -> m <> MStrictAlias ->
    exists acc' m', m' <> MStrictAlias /\
      (forall x, breaks sh P (istr_loop w rec str false (TExpr e :: toks post last) acc' m' None) x ->
                 breaks sh P (istr_loop w rec str false (toks (pre ++ (u, e) :: post) last) acc m None) x) /\
      (diverges P (istr_loop w rec str false (TExpr e :: toks post last) acc' m' None) ->
       diverges P (istr_loop w rec str false (toks (pre ++ (u, e) :: post) last) acc m None)).
  Proof.
    induction pre as [|[u0 e0] pre IH]; intros rs u e post last acc m H Hm.
    - cbn [app toks]. exists (acc ++ u)%string, m. auto.
    - inversion H as [|? r ? rs' H1 H2]; subst. cbn [snd] in H1. cbn [app toks].
      destruct (inserts_goes_on e0 r H1 str (toks (pre ++ (u, e) :: post) last) (acc ++ u0)%string m Hm) as (m1 & Hm1 & _ & B & D).
      destruct (IH rs' u e post last ((acc ++ u0) ++ r)%string m1 H2 Hm1) as (acc' & m2 & Hm2 & B2 & D2).
      exists acc', m2. split; [ exact Hm2 | ]. split; [ intros x K; apply B; exact (B2 x K) | intro K; apply D; exact (D2 K) ].
  Qed.

  Lemma pieces_contain t pre u e post last : t = assembled (pre ++ (u, e) :: post) last -> contains "%{" t = true.
  Proof.
    intros ->. apply contains_has. destruct pre as [|[a b] pre].
    - exists u, (e ++ "}" ++ assembled post last)%string. reflexivity.
    - exists a, (b ++ "}" ++ assembled (pre ++ (u, e) :: post) last)%string. reflexivity.
  Qed.

  Lemma breaks_step t x : step_fails t x -> breaks sh P (istr w rec t false) x.
  Proof.
    intros (pre & u & e & post & last & rs & Et & Hw & Hp & Hx). unfold istr. rewrite (pieces_contain _ _ _ _ _ _ Et). cbn [negb].
    apply breaks_now. apply breaks_node; [ exact asked_off | ]. apply breaks_now.
    assert (Tk : tokens t = toks (pre ++ (u, e) :: post) last) by (rewrite Et; apply tokens_cut; exact Hw). rewrite Tk.
    destruct (first_pieces t pre rs u e post last "" MScope Hp) as (acc & m & _ & B & _); [ discriminate | ].
    apply B. apply breaks_insert. exact Hx.
  Qed.

  (** ** All cases *)
  Hypothesis Dstr : forall t, (exists t', text_is t t') \/ (exists x, text_fails t x) \/ diverges P (rec (RStr t false)).
  Hypothesis Hvars : forall x v, scope_get sc x = Some v -> wf v = true.

  Lemma walk_decided v : wf v = true ->
    (exists r, value_is (text_value text_is) v r /\ tidy r) \/ (exists x, value_fails (text_value text_is) text_fails v x) \/
    diverges P (do_interp rec false v).
  Proof.
    intro W. destruct (value_decided P (calm rec) (text_value text_is) calm_strings text_fails) with (v := v) as [H|[H|H]].
    - intro t. destruct (Dstr t) as [(t' & H)|[H|H]]; [ left | right; left; exact H | right; right; exact H ].
      exists (Some (VStr t')). split; [ exists t'; auto | apply tidy_some; reflexivity ].
    - exact W.
    - left. exact H.
    - right. left. exact H.
    - right. right. intros s Hs. rewrite do_interp_calm. exact (H s Hs).
  Qed.

  Lemma variable_decided src :
    (exists o, variable_is sc text_is src o /\ tidy o) \/ (exists x, variable_fails sc text_is text_fails src x) \/
    diverges P (in_scope rec false src).
  Proof.
    destruct (key_decided src) as [(y & ps & Hk)|(x & Hx)].
    - destruct (scope_get sc y) as [v|] eqn:Eg; [ | left; exists None; split; [ eapply vr_unset; eassumption | exact tidy_none ] ].
      destruct (walk_decided v (Hvars _ _ Eg)) as [(r & H & T)|[(x & H)|H]].
      + destruct (digs_total ps r) as (o & D). left. exists o. split; [ eapply vr_set; eassumption | exact (tidy_digs _ _ _ D T) ].
      + right. left. exists x. eapply vx_value; eassumption.
      + right. right. unfold in_scope. eapply div_after; [ apply yields_lift; exact (written_key_new _ _ Hk) | ].
        eapply div_after; [ apply yields_lift; reflexivity | ].
        eapply div_after; [ exact (yields_scope sc P asked_scope) | ]. rewrite Eg. apply div_bind. exact H.
    - right. left. exists x. apply vx_key. exact Hx.
  Qed.

  Lemma insert_decided e :
    (exists r, inserts w sc text_is e r) \/
    ((exists x, insert_fails sc text_is text_fails e x) \/
     forall str ts acc m, diverges P (istr_loop w rec str false (TExpr e :: ts) acc m None)).
  Proof.
    destruct (in_dec string_dec (trim_space e) [""; "::"; """"""; "''"; """::"""; "'::'"]) as [Hin|Hin].
    { left. exists "". apply in_nothing. exact Hin. }
    destruct (method_match (trim_space e)) as [[name arg]|] eqn:Em.
    { apply method_match_spec in Em. right. left. eexists. eapply if_method; [ exact Em | reflexivity ]. }
    pose proof (proj1 (method_match_none _) Em) as Hc.
    destruct (variable_decided (trim_space e)) as [(o & H & _)|[(x & H)|H]].
    - left. exists (text w o). apply in_variable; assumption.
    - right. left. exists x. apply if_variable; assumption.
    - right. right. intros str ts acc m. cbn [istr_loop]. rewrite (empty_interpolation_out _ Hin).
      assert (Ha : asks_scope false (trim_space e) (trim_space e)) by (right; auto).
      eapply div_after; [ apply yields_lift; exact (asks_scope_md _ _ _ Ha) | ]. cbn [fst snd is_alias andb].
      apply div_bind. exact H.
  Qed.

  Lemma step_decided t : (exists t', step_is t t') \/ (exists x, step_fails t x) \/ diverges P (istr w rec t false).
  Proof.
    destruct (cut_exists t) as (cut & last & Hw & Ht).
    assert (Q : Forall (fun p => (exists r, inserts w sc text_is (snd p) r) \/
        ((exists x, insert_fails sc text_is text_fails (snd p) x) \/
         forall str ts acc m, diverges P (istr_loop w rec str false (TExpr (snd p) :: ts) acc m None))) cut).
    { apply Forall_forall. intros p _. apply insert_decided. }
    destruct (first_other _ _ cut Q) as [K|(pre & [u e] & post & -> & Hp & Hx)].
    - left. apply Forall_choice in K as (rs & K). exists (filled cut rs last). exists cut, rs, last. auto.
    - right. apply Forall_choice in Hp as (rs & Hp). cbn [snd] in Hx. symmetry in Ht. destruct Hx as [(x & Hx)|Hx].
      + left. exists x, pre, u, e, post, last, rs. auto.
      + right. unfold istr. rewrite (pieces_contain _ _ _ _ _ _ Ht). cbn [negb].
        apply div_bind. apply (div_node P asked_off). apply div_bind.
        assert (Tk : tokens t = toks (pre ++ (u, e) :: post) last) by (rewrite Ht; apply tokens_cut; exact Hw). rewrite Tk.
        destruct (first_pieces t pre rs u e post last "" MScope Hp) as (acc & m & _ & _ & D); [ discriminate | ].
        apply D. apply Hx.
  Qed.
End Step.

(** ** Strings, to any depth *)

Definition orderly_scope (sc : scope) : Prop := forall x v, scope_get sc x = Some v -> wf v = true.

Lemma yields_expands w s0 (Off : off s0) : forall n t t', expands_in w (iv_scope (s_iv s0)) n t t' ->
  exists b, (b = false -> t' = t) /\ yields (asked s0) (run w n (RStr t false)) (Some (VStr t'), b).
Proof.
  induction n as [|n IH]; intros t t' H; [ destruct H | ]. cbn [run body].
  exact (yields_step w s0 (run w n) Off (expands_in w (iv_scope (s_iv s0)) n) IH t t' H).
Qed.

Lemma breaks_expands w s0 (Off : off s0) : forall n t x, unexpandable w (iv_scope (s_iv s0)) n t x ->
  breaks (s_shared s0) (asked s0) (run w n (RStr t false)) x.
Proof.
  induction n as [|n IH]; intros t x H; [ destruct H | ]. cbn [run body].
  exact (breaks_step w s0 (run w n) Off (expands_in w (iv_scope (s_iv s0)) n) (unexpandable w (iv_scope (s_iv s0)) n)
           (yields_expands w s0 Off n) IH t x H).
Qed.

Lemma expands_decided w s0 (Off : off s0) : orderly_scope (iv_scope (s_iv s0)) -> forall n t,
  (exists t', expands_in w (iv_scope (s_iv s0)) n t t') \/ (exists x, unexpandable w (iv_scope (s_iv s0)) n t x) \/
  diverges (asked s0) (run w n (RStr t false)).
Proof.
  intro Hv. induction n as [|n IH]; intro t; [ right; right; intros s _; reflexivity | ]. cbn [run body].
  exact (step_decided w s0 (run w n) Off (expands_in w (iv_scope (s_iv s0)) n) (unexpandable w (iv_scope (s_iv s0)) n)
           (yields_expands w s0 Off n) IH Hv t).
Qed.
