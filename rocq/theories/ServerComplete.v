(** Whatever the engine does with a function of the user, if it ends, is what
    SpecServer.v and SpecServerFail.v say. *)

From Coq Require Import String Ascii List ZArith Bool Arith Lia.
From Verif Require Import Str Value Outcome Key Merge Fpath Config Ipl Explain State Engine Session Fuel
  SpecKey SpecKeyErr SpecIpl SpecInterp SpecLookup SpecWorld SpecFail SpecServer SpecServerFail
  KeyFacts KeyErrFacts ValueFacts MergeFacts StrFacts IplFacts InterpFacts IplExact Acyclic Decided ServerExact ServerFail.
Import ListNotations.
Open Scope nat_scope.
Open Scope string_scope.
Open Scope list_scope.

Notation value_breaks := SpecServerFail.value_breaks.

Section Complete.
  Variables (w : world) (sc : scope) (function : args -> prog) (name : string).
  Hypothesis Htop : w_top w = LkUser name.
  Hypothesis Hcall : forall t a, w_call w t (FnTop name) a = function a.
  Hypothesis Hneat : forall opts r, neat (function (ALookupKey opts r)).
  Hypothesis Hvars : forall x v, scope_get sc x = Some v -> wf v = true.

  Definition tidyc (c : cached) : Prop := forall k, tidy (c k).

  (** Code that ends in a value with [P], fails with [Q], or needs more fuel. *)
  Definition told {A} (md : imode) (c : cached) (m : M st A) (P : A -> cached -> Prop) (Q : err -> cached -> Prop) : Prop :=
    forall s, at_ sc md c s ->
    match m s with
    | (Ok a, s') => exists c', P a c' /\ at_ sc md c' s'
    | (Panic x, s') => exists c', Q x c' /\ forall y, aget y (s_tpc s') = c' y
    | (Hang, _) => False
    | (NoFuel, _) => True
    end.

  Lemma told_imp A md c (m : M st A) (P P' : A -> cached -> Prop) (Q Q' : err -> cached -> Prop) :
    told md c m P Q -> (forall a c', P a c' -> P' a c') -> (forall x c', Q x c' -> Q' x c') -> told md c m P' Q'.
  Proof.
    intros H HP HQ s Hs. specialize (H s Hs). destruct (m s) as [[a|x| |] s']; auto.
    - destruct H as (c' & H & K). exists c'. auto.
    - destruct H as (c' & H & K). exists c'. auto.
  Qed.
  Lemma told_bind A B md c (m : M st A) (f : A -> M st B) (P : A -> cached -> Prop) P' (Q : err -> cached -> Prop) :
    told md c m P Q -> (forall a c1, P a c1 -> told md c1 (f a) P' Q) -> told md c (bind m f) P' Q.
  Proof.
    intros H HF s Hs. specialize (H s Hs). unfold bind. destruct (m s) as [[a|x| |] s']; auto.
    destruct H as (c1 & H & K). exact (HF a c1 H s' K).
  Qed.
  Lemma told_after A B md c c1 (m : M st A) (f : A -> M st B) a P' Q :
    goes sc md c m a c1 -> told md c1 (f a) P' Q -> told md c (bind m f) P' Q.
  Proof.
    intros H HF s Hs. destruct (H s Hs) as (s1 & E & K). unfold bind. rewrite E. exact (HF s1 K).
  Qed.
  Lemma told_ret A md c (a : A) (P : A -> cached -> Prop) Q : P a c -> told md c (ret a) P Q.
  Proof. intros H s Hs. exists c. auto. Qed.
  Lemma told_falls A md c c' (m : M st A) x P (Q : err -> cached -> Prop) : falls sc md c m x c' -> Q x c' -> told md c m P Q.
  Proof. intros H HQ s Hs. destruct (H s Hs) as (s1 & E & K). rewrite E. exists c'. auto. Qed.
  Lemma told_goes A md c c' (m : M st A) a (P : A -> cached -> Prop) Q : goes sc md c m a c' -> P a c' -> told md c m P Q.
  Proof. intros H HQ s Hs. destruct (H s Hs) as (s1 & E & K). rewrite E. exists c'. auto. Qed.
  Lemma told_node A md c k i (m : M st A) P Q : told md c m P Q -> told md c (run_scoped (SNode k i) m) P Q.
  Proof. intros H s Hs. rewrite node_off by exact (proj1 Hs). exact (H s Hs). Qed.
  Lemma told_data A md c (m : M st A) P Q : told MdData c m P Q -> told md c (run_scoped SData m) P Q.
  Proof.
    intros H s (H1 & H2 & H3 & H4). unfold run_scoped. rewrite H3.
    assert (G : forall f : iv -> iv, iv_expl (f (s_iv s)) = false -> iv_scope (f (s_iv s)) = sc -> iv_mode (f (s_iv s)) = MdData ->
       match with_copy f m s with
       | (Ok a, s') => exists c', P a c' /\ at_ sc md c' s'
       | (Panic x, s') => exists c', Q x c' /\ forall y, aget y (s_tpc s') = c' y
       | (Hang, _) => False
       | (NoFuel, _) => True
       end).
    { intros f F1 F2 F3. unfold with_copy. specialize (H (with_iv (f (s_iv s)) s)).
      assert (K : at_ sc MdData c (with_iv (f (s_iv s)) s)).
      { split; [ exact F1 | ]. split; [ exact F2 | ]. split; [ exact F3 | exact H4 ]. }
      specialize (H K). destruct (m (with_iv (f (s_iv s)) s)) as [[a|x| |] s1]; auto.
      destruct H as (c' & H & _ & _ & _ & H'). exists c'. split; [ exact H | ].
      split; [ exact H1 | ]. split; [ exact H2 | ]. split; [ exact H3 | exact H' ]. }
    destruct md; [ | | exact (H s (conj H1 (conj H2 (conj H3 H4)))) ].
    all: apply G; cbn; [ unfold off in H1; rewrite H1; reflexivity | exact H2 | reflexivity ].
  Qed.

  (** What is to be shown of the calls with [n] fuel. *)
  Definition strings_told (n : nat) : Prop := forall md c t, tidyc c ->
    told md c (run w n (RStr t true))
      (fun r c' => string_becomes w sc function md c t (fst r) c' /\ (snd r = false -> fst r = Some (VStr t)) /\ tidy (fst r) /\ tidyc c')
      (fun x c' => value_breaks w sc function md c (VStr t) x c' /\ tidyc c').
  Definition lookups_told (n : nat) : Prop := forall md c k r ps opts, tidyc c -> k_parts k = PStr r :: ps ->
    told md c (run w n (RLookup k opts))
      (fun r c' => asks w sc function md c k opts (fst r) c' /\ tidy (fst r) /\ tidyc c')
      (fun x c' => asking_fails w sc function md c k opts x c' /\ tidyc c').

  Section At.
    Variable n : nat.
    Hypothesis Hs : strings_told n.
    Hypothesis Hl : lookups_told n.

    (** ** Values *)
    Definition value_told (v : value) : Prop := forall md c, tidyc c ->
      told md c (do_interp (run w n) true v)
        (fun r c' => becomes w sc function md c v (fst r) c' /\ (snd r = false -> fst r = Some v) /\ tidy (fst r) /\ tidyc c')
        (fun x c' => value_breaks w sc function md c v x c' /\ tidyc c').

    Lemma array_told l : Forall value_told l -> forall md c, tidyc c ->
      told md c (each_arr (run w n) true l)
        (fun r c' => all_become w sc function md c l (fst r) c' /\ (snd r = false -> fst r = l) /\
                     Forall (fun x => wf x = true) (fst r) /\ tidyc c')
        (fun x c' => (exists pre v post pre' c1, l = pre ++ v :: post /\ all_become w sc function md c pre pre' c1 /\
                        value_breaks w sc function md c1 v x c') /\ tidyc c').
    Proof.
      induction 1 as [|v l Hv _ IH]; intros md c Hc; cbn [each_arr].
      - apply told_ret. cbn [fst snd]. split; [ apply al_nil | ]. auto.
      - eapply told_bind; [ eapply told_imp; [ exact (Hv md c Hc) | intros a c' H; exact H | ] | ].
        { intros x c' [H T]. split; [ | exact T ]. exists [], v, l, [], c. split; [ reflexivity | ]. split; [ apply al_nil | exact H ]. }
        intros [r b] c1 (H1 & B1 & T1 & C1). cbn [fst snd] in *.
        eapply told_bind; [ eapply told_imp; [ exact (IH md c1 C1) | intros a c' H; exact H | ] | ].
        { intros x c' [(pre & y & post & pre' & c2 & -> & H2 & H3) T]. split; [ | exact T ].
          exists (v :: pre), y, post, (element r :: pre'), c2. split; [ reflexivity | ].
          split; [ eapply al_cons; eassumption | exact H3 ]. }
        intros [l' b'] c2 (H2 & B2 & T2 & C2). cbn [fst snd] in *. apply told_ret. cbn [fst snd].
        replace (if b then nil_to_null r else v) with (element r).
        2: { destruct b; [ destruct r; reflexivity | rewrite (B1 eq_refl); reflexivity ]. }
        split; [ eapply al_cons; eassumption | ]. split.
        { intro E. apply orb_false_iff in E as [E1 E2]. rewrite (B1 E1), (B2 E2). reflexivity. }
        split; [ constructor; [ apply tidy_element; exact T1 | exact T2 ] | exact C2 ].
    Qed.

    Lemma map_told m : Forall (fun e => value_told (fst e) /\ value_told (snd e)) m -> forall md c cp, tidyc c ->
      told md c (each_map (run w n) true m cp)
        (fun r c' => exists m', fst r = mputall cp m' /\ entries_become w sc function md c m m' c' /\ (snd r = false -> m' = m) /\
                     Forall (fun e => wf (fst e) = true /\ wf (snd e) = true) m' /\ tidyc c')
        (fun x c' => value_breaks w sc function md c (VMap m) x c' /\ tidyc c').
    Proof.
      assert (K : forall md c k v k' v' m c1 c2 x c', becomes w sc function md c k k' c1 -> becomes w sc function md c1 v v' c2 ->
        value_breaks w sc function md c2 (VMap m) x c' -> value_breaks w sc function md c (VMap ((k, v) :: m)) x c').
      { intros md c k v k' v' m0 c1 c2 x c' Hk Hv H. inversion H; subst.
        - eapply (vb_key _ _ _ _ _ ((k, v) :: pre)); [ eapply en_cons; eassumption | eassumption ].
        - eapply (vb_value _ _ _ _ _ ((k, v) :: pre)); [ eapply en_cons; eassumption | eassumption | eassumption ]. }
      induction 1 as [|[k v] m [Hk Hv] _ IH]; intros md c cp Hc; cbn [each_map].
      - apply told_ret. exists []. cbn [fst snd]. split; [ reflexivity | ]. split; [ apply en_nil | ]. auto.
      - cbn [fst snd] in Hk, Hv. eapply told_bind; [ eapply told_imp; [ exact (Hk md c Hc) | intros a c' H; exact H | ] | ].
        { intros x c' [H T]. split; [ | exact T ]. eapply (vb_key _ _ _ _ _ []); [ apply en_nil | exact H ]. }
        intros [k' b1] c1 (H1 & B1 & T1 & C1). cbn [fst snd] in *.
        eapply told_bind; [ eapply told_imp; [ exact (Hv md c1 C1) | intros a c' H; exact H | ] | ].
        { intros x c' [H T]. split; [ | exact T ]. eapply (vb_value _ _ _ _ _ []); [ apply en_nil | exact H1 | exact H ]. }
        intros [v' b2] c2 (H2 & B2 & T2 & C2). cbn [fst snd] in *.
        eapply told_bind; [ eapply told_imp; [ exact (IH md c2 _ C2) | intros a c' H; exact H | ] | ].
        { intros x c' [H T]. split; [ | exact T ]. eapply K; eassumption. }
        intros [r b3] c3 (m' & E & H3 & B3 & T3 & C3). cbn [fst snd] in *. apply told_ret. cbn [fst snd].
        exists ((element k', element v') :: m'). split.
        { rewrite E. destruct k', v'; reflexivity. }
        split; [ eapply en_cons; eassumption | ]. split.
        { intro Eb. apply orb_false_iff in Eb as [Eb Eb3]. apply orb_false_iff in Eb as [Eb1 Eb2].
          rewrite (B1 Eb1), (B2 Eb2), (B3 Eb3). reflexivity. }
        split; [ constructor; [ split; apply tidy_element; assumption | exact T3 ] | exact C3 ].
    Qed.

    Lemma values_told v : wf v = true -> value_told v.
    Proof.
      assert (Other : forall v, (forall t, v <> VStr t) -> (forall l, v <> VArr l) -> (forall m, v <> VMap m) ->
                do_interp (run w n) true v = ret (Some v, false) -> wf v = true -> value_told v).
      { intros v0 H1 H2 H3 E W md c Hc. rewrite E. apply told_ret. cbn [fst snd].
        split; [ apply be_other; assumption | ]. split; [ auto | ]. split; [ apply tidy_some; exact W | exact Hc ]. }
      induction v using value_ind2; intro W;
        try (apply Other; [ intros; discriminate | intros; discriminate | intros; discriminate | reflexivity | exact W ]).
      - intros md c Hc. eapply told_imp; [ exact (Hs md c s Hc) | | intros x c' H; exact H ].
        intros [r b] c' (H & R). split; [ apply be_str; exact H | exact R ].
      - apply wf_arr in W. intros md c Hc. rewrite do_interp_arr.
        assert (F : Forall value_told l).
        { apply Forall_forall. intros x Hx. exact (proj1 (Forall_forall _ _) H x Hx (proj1 (Forall_forall _ _) W x Hx)). }
        eapply told_bind; [ eapply told_imp; [ exact (array_told l F md c Hc) | intros a c' K; exact K | ] | ].
        { intros x c' [(pre & y & post & pre' & c1 & -> & H1 & H2) T]. split; [ eapply vb_element; eassumption | exact T ]. }
        intros [l' b] c' (H1 & B & T & C). cbn [fst snd] in *. apply told_ret. cbn [fst snd].
        replace (if b then l' else l) with l' by (destruct b; [ reflexivity | exact (B eq_refl) ]).
        split; [ apply be_arr; exact H1 | ]. split; [ intro E; rewrite (B E); reflexivity | ].
        split; [ apply tidy_some; apply wf_arr; exact T | exact C ].
      - assert (W' : Forall (fun e => wf (fst e) = true /\ wf (snd e) = true) m)
          by (apply Forall_forall; intros e He; exact (wfm_in m e W He)).
        assert (F : Forall (fun e => value_told (fst e) /\ value_told (snd e)) m).
        { apply Forall_forall. intros e He. destruct (proj1 (Forall_forall _ _) H e He) as [A B].
          destruct (proj1 (Forall_forall _ _) W' e He) as [Wk Wv]. auto. }
        intros md c Hc. rewrite do_interp_map.
        eapply told_bind; [ exact (map_told m F md c [] Hc) | ].
        intros [r b] c' (m' & E & H1 & B & T & C). cbn [fst snd] in *. apply told_ret. cbn [fst snd].
        assert (H2 : becomes w sc function md c (VMap m) (Some (VMap (mputall [] m'))) c') by (apply be_map; assumption).
        assert (H3 : wf (VMap (mputall [] m')) = true) by (apply wf_puts; [ apply wfm_nil | exact T ]).
        destruct b.
        + subst r. split; [ exact H2 | ]. split; [ discriminate | ]. split; [ apply tidy_some; exact H3 | exact C ].
        + rewrite (B eq_refl), mputall_nil_self in H2 by exact W. split; [ exact H2 | ]. split; [ reflexivity | ].
          split; [ apply tidy_some; exact W | exact C ].
    Qed.

    Lemma interpolate_told v md c : wf v = true -> tidyc c ->
      told md c (interpolate (run w n) true v)
        (fun r c' => becomes w sc function md c v r c' /\ tidy r /\ tidyc c')
        (fun x c' => value_breaks w sc function md c v x c' /\ tidyc c').
    Proof.
      intros W Hc. unfold interpolate. eapply told_bind; [ exact (values_told v W md c Hc) | ].
      intros [r b] c' (H & B & T & C). cbn [fst snd] in *. apply told_ret.
      destruct b; [ auto | ]. rewrite (B eq_refl) in *. auto.
    Qed.

    (** ** Strings *)
    Lemma expression_told t e ts acc m result md c P Q : tidyc c -> m <> MStrictAlias ->
      (forall nm arg, calls (trim_space e) nm arg -> nm = "alias" \/ nm = "strict_alias" -> t <> ("%{" ++ e ++ "}")%string) ->
      (forall r m' c1, m' <> MStrictAlias -> expression_becomes w sc function md c e r c1 -> tidyc c1 ->
         told md c1 (istr_loop w (run w n) t true ts (acc ++ r)%string m' result) P Q) ->
      (forall x c', expression_breaks w sc function md c t e x c' -> tidyc c' -> Q x c') ->
      told md c (istr_loop w (run w n) t true (TExpr e :: ts) acc m result) P Q.
    Proof.
      intros Hc Hm Hal HP HQ. set (e' := trim_space e).
      destruct (in_dec string_dec e' [""; "::"; """"""; "''"; """::"""; "'::'"]) as [Hin|Hin].
      { cbn [istr_loop]. fold e'. rewrite (empty_interpolation_is _ Hin).
        rewrite <- (app_nil_s acc). apply HP; [ exact Hm | apply ex_empty; exact Hin | exact Hc ]. }
      assert (Scope : forall arg, asks_scope true e' arg -> told md c (istr_loop w (run w n) t true (TExpr e :: ts) acc m result) P Q).
      { intros arg Ha. cbn [istr_loop]. fold e'. rewrite (empty_interpolation_out _ Hin).
        eapply told_after; [ apply goes_lift; exact (asks_scope_md _ _ _ Ha) | ]. cbn [fst snd is_alias andb].
        destruct (key_decided arg) as [(y & ps & Hk)|(x & Hx)].
        - destruct (scope_get sc y) as [v|] eqn:Eg.
          + eapply told_bind with (P := fun o c1 => exists r, becomes w sc function md c v r c1 /\ digs ps r o /\ tidyc c1).
            * unfold in_scope. eapply told_after; [ apply goes_lift; exact (written_key_new _ _ Hk) | ].
              eapply told_after; [ apply goes_lift; reflexivity | ]. eapply told_after; [ apply goes_scope | ]. rewrite Eg.
              eapply told_bind; [ eapply told_imp; [ exact (values_told v (Hvars _ _ Eg) md c Hc) | intros a c' K; exact K | ] | ].
              { intros x c' [K T]. apply HQ; [ eapply eb_scope; eassumption | exact T ]. }
              intros [r b] c1 (H1 & _ & T & C). cbn [fst snd] in *. destruct (digs_total ps r) as (o & D).
              eapply told_goes; [ eapply goes_dig; [ reflexivity | exact D ] | ]. exists r. auto.
            * intros o c1 (r & H1 & D & C). apply HP; [ discriminate | eapply ex_scope; eassumption | exact C ].
          + eapply told_after with (a := None).
            * intros s S0. exists s. split; [ | exact S0 ]. apply (in_scope_unset _ _ _ _ _ _ Hk).
              destruct S0 as (_ & -> & _). exact Eg.
            * apply HP; [ discriminate | eapply ex_unset; eassumption | exact Hc ].
        - eapply told_falls; [ apply falls_now; unfold in_scope; apply falls_now; apply falls_lift; apply new_key_refused; exact Hx | ].
          apply HQ; [ eapply eb_variable; eassumption | exact Hc ]. }
      destruct (method_match e') as [[nm arg]|] eqn:Em.
      2: { apply (Scope e'). right. split; [ reflexivity | ]. apply method_match_none. exact Em. }
      apply method_match_spec in Em.
      destruct (in_dec string_dec nm ["alias"; "strict_alias"; "hiera"; "lookup"; "literal"; "scope"]) as [Hn|Hn].
      2: { cbn [istr_loop]. fold e'. rewrite (calls_nonempty _ _ _ Em).
           assert (N : forall t, In t ["alias"; "strict_alias"; "hiera"; "lookup"; "literal"; "scope"] -> String.eqb nm t = false).
           { intros t0 Hi. apply String.eqb_neq. intros ->. exact (Hn Hi). }
           eapply told_falls; [ apply falls_now; apply falls_lift; rewrite (calls_md _ _ _ Em); rewrite !N by (cbn; tauto); reflexivity | ].
           apply HQ; [ eapply eb_unknown; eassumption | exact Hc ]. }
      assert (Alias : nm = "alias" \/ nm = "strict_alias" -> told md c (istr_loop w (run w n) t true (TExpr e :: ts) acc m result) P Q).
      { intro Ha. pose proof (Hal _ _ Em Ha) as Ht. cbn [istr_loop]. fold e'. rewrite (calls_nonempty _ _ _ Em).
        assert (Hd : exists al, is_alias al = true /\ method_and_data e' true = Ok (al, arg)).
        { destruct Ha as [->| ->]; [ exists MAlias | exists MStrictAlias ]; (split; [ reflexivity | exact (calls_md _ _ _ Em) ]). }
        destruct Hd as (al & Eal & E). eapply told_after; [ apply goes_lift; exact E | ]. cbn [fst snd].
        pose proof Ht as Ht'. apply String.eqb_neq in Ht'. rewrite String.eqb_sym in Ht'. rewrite Eal, Ht'. cbn [negb andb].
        eapply told_falls; [ apply falls_panic | ]. apply HQ; [ eapply eb_misplaced; eassumption | exact Hc ]. }
      assert (Look : nm = "lookup" \/ nm = "hiera" -> told md c (istr_loop w (run w n) t true (TExpr e :: ts) acc m result) P Q).
      { intro Hk0. assert (Hl' : looks_up t e nm) by (unfold looks_up; tauto). cbn [istr_loop]. fold e'. rewrite (calls_nonempty _ _ _ Em).
        eapply told_after; [ apply goes_lift; rewrite (calls_md _ _ _ Em); destruct Hk0 as [-> | ->]; reflexivity | ].
        cbn [fst snd is_alias andb].
        destruct (key_decided arg) as [(y & ps & Hk)|(x & Hx)].
        - eapply told_after; [ apply goes_lift; exact (written_key_new _ _ Hk) | ].
          eapply told_bind; [ eapply told_imp; [ exact (Hl md c (mk_key arg (PStr y :: ps)) y ps None Hc eq_refl) | intros a c' K; exact K | ] | ].
          { intros x c' [K T]. apply HQ; [ eapply eb_lookup; eassumption | exact T ]. }
          intros [o b] c1 (H1 & T & C). cbn [fst snd] in *. apply HP; [ discriminate | eapply ex_lookup; eassumption | exact C ].
        - eapply told_falls; [ apply falls_now; apply falls_lift; apply new_key_refused; exact Hx | ].
          apply HQ; [ eapply eb_key; eassumption | exact Hc ]. }
      destruct Hn as [<-|[<-|[<-|[<-|[<-|[<-|[]]]]]]].
      - apply Alias. auto.
      - apply Alias. auto.
      - apply Look. auto.
      - apply Look. auto.
      - cbn [istr_loop]. fold e'. rewrite (calls_nonempty _ _ _ Em).
        eapply told_after; [ apply goes_lift; exact (calls_md _ _ _ Em) | ]. cbn [fst snd is_alias andb].
        apply HP; [ discriminate | apply ex_literal; exact Em | exact Hc ].
      - apply (Scope arg). left. split; [ reflexivity | exact Em ].
    Qed.

    (** The strings that are one alias, and the others. *)
    Definition no_alias (t : string) (cut : list (string * string)) : Prop :=
      Forall (fun p => forall nm arg, calls (trim_space (snd p)) nm arg -> nm = "alias" \/ nm = "strict_alias" ->
                t <> ("%{" ++ snd p ++ "}")%string) cut.

    Lemma loop_told t last md : forall cut c acc m result, tidyc c -> m <> MStrictAlias -> no_alias t cut ->
      told md c (istr_loop w (run w n) t true (toks cut last) acc m result)
        (fun r c' => exists rs m', m' <> MStrictAlias /\ r = ((acc ++ filled cut rs last)%string, m', result) /\
                     parts_become w sc function md c cut rs c' /\ tidyc c')
        (fun x c' => (exists pre u e post rs c1, cut = pre ++ (u, e) :: post /\ parts_become w sc function md c pre rs c1 /\
                        expression_breaks w sc function md c1 t e x c') /\ tidyc c').
    Proof.
      induction cut as [|[u e] cut IH]; intros c acc m result Hc Hm Ha.
      - cbn [toks istr_loop]. apply told_ret. exists [], m. split; [ exact Hm | ]. split; [ reflexivity | ]. split; [ apply pa_nil | exact Hc ].
      - inversion Ha as [|? ? Ha1 Ha2]; subst. cbn [snd] in Ha1.
        change (istr_loop w (run w n) t true (toks ((u, e) :: cut) last) acc m result)
          with (istr_loop w (run w n) t true (TExpr e :: toks cut last) (acc ++ u)%string m result).
        apply expression_told; [ exact Hc | exact Hm | exact Ha1 | | ].
        + intros r m' c1 Hm' H1 C1. eapply told_imp; [ exact (IH c1 _ m' result C1 Hm' Ha2) | | ].
          * intros out c' (rs & m2 & Hm2 & -> & H2 & C2). exists (r :: rs), m2. split; [ exact Hm2 | ].
            split; [ cbn [filled]; rewrite !app_assoc_s; reflexivity | ]. split; [ eapply pa_cons; eassumption | exact C2 ].
          * intros x c' [(pre & u0 & e0 & post & rs & c2 & -> & H2 & H3) T]. split; [ | exact T ].
            exists ((u, e) :: pre), u0, e0, post, (r :: rs), c2. split; [ reflexivity | ]. split; [ eapply pa_cons; eassumption | exact H3 ].
        + intros x c' H T. split; [ | exact T ]. exists [], u, e, cut, [], c. split; [ reflexivity | ]. split; [ apply pa_nil | exact H ].
    Qed.

    Lemma alias_decided t cut last : well_cut cut last -> assembled cut last = t ->
      no_alias t cut \/ exists e nm arg, cut = [("", e)] /\ last = "" /\ calls (trim_space e) nm arg /\ (nm = "alias" \/ nm = "strict_alias").
    Proof.
      intros Hw Ht.
      assert (Q : Forall (fun p => (forall nm arg, calls (trim_space (snd p)) nm arg -> nm = "alias" \/ nm = "strict_alias" ->
                t <> ("%{" ++ snd p ++ "}")%string) \/
          (t = ("%{" ++ snd p ++ "}")%string /\ exists nm arg, calls (trim_space (snd p)) nm arg /\ (nm = "alias" \/ nm = "strict_alias"))) cut).
      { apply Forall_forall. intros [u e] _. cbn [snd].
        destruct (string_dec t ("%{" ++ e ++ "}")%string) as [Et|Et]; [ | left; intros; exact Et ].
        destruct (method_match (trim_space e)) as [[nm arg]|] eqn:Em.
        - apply method_match_spec in Em. destruct (in_dec string_dec nm ["alias"; "strict_alias"]) as [Hn|Hn].
          + right. split; [ exact Et | ]. exists nm, arg. split; [ exact Em | ]. destruct Hn as [<-|[<-|[]]]; auto.
          + left. intros nm' arg' Hc' Ha'. exfalso. apply Hn. apply method_match_spec in Em, Hc'.
            assert (E : nm' = nm) by congruence. subst nm'. destruct Ha' as [->| ->]; cbn; auto.
        - left. intros nm' arg' Hc' _. exfalso. apply method_match_spec in Hc'. congruence. }
      destruct (first_other _ _ cut Q) as [K|(pre & [u e] & post & -> & _ & Et & nm & arg & Hc & Ha)]; [ left; exact K | ].
      right. cbn [snd] in Et, Hc. assert (Eq : ("%{" ++ e ++ "}")%string = assembled (pre ++ (u, e) :: post) last) by congruence.
      apply (alone pre u e post last) in Eq as (-> & -> & -> & ->). exists e, nm, arg. auto.
    Qed.

    Lemma string_told t md c : tidyc c ->
      told md c (istr w (run w n) t true)
        (fun r c' => string_becomes w sc function md c t (fst r) c' /\ (snd r = false -> fst r = Some (VStr t)) /\ tidy (fst r) /\ tidyc c')
        (fun x c' => value_breaks w sc function md c (VStr t) x c' /\ tidyc c').
    Proof.
      intro Hc. destruct (cut_exists t) as (cut & last & Hw & Ht). unfold istr.
      destruct (contains "%{" t) eqn:Ec; cbn [negb].
      2: { apply told_ret. cbn [fst snd].
           assert (cut = []) as ->.
           { destruct cut as [|[a b] cut]; [ reflexivity | ]. exfalso. apply contains_not in Ec. apply Ec.
             exists a, (b ++ "}" ++ assembled cut last)%string. symmetry. exact Ht. }
           cbn in Ht. subst last. split; [ apply (st_text w sc function md c [] [] t c Hw); apply pa_nil | ].
           split; [ reflexivity | ]. split; [ apply tidy_some; reflexivity | exact Hc ]. }
      assert (Tk : tokens t = toks cut last) by (rewrite <- Ht; apply tokens_cut; exact Hw). rewrite Tk.
      eapply told_bind with (P := fun r c' => string_becomes w sc function md c t r c' /\ tidy r /\ tidyc c').
      2: { intros r c1 (H & T & C). apply told_ret. cbn [fst snd]. split; [ exact H | ]. split; [ discriminate | auto ]. }
      apply told_node. destruct (alias_decided t cut last Hw Ht) as [Ha|(e & nm & arg & -> & -> & Ha & Hn)].
      - eapply told_bind; [ eapply told_imp; [ exact (loop_told t last md cut c "" MScope None Hc ltac:(discriminate) Ha) | intros a c' K; exact K | ] | ].
        { intros x c' [(pre & u & e & post & rs & c1 & -> & H1 & H2) T]. split; [ | exact T ].
          rewrite <- Ht in *. eapply vb_str; eassumption. }
        intros r c' (rs & m & Hm & -> & H1 & C). apply told_ret. cbn [append].
        assert (E : match m with MStrictAlias => None | _ => Some (VStr (filled cut rs last)) end = Some (VStr (filled cut rs last)))
          by (destruct m; congruence).
        rewrite E. split; [ rewrite <- Ht; apply st_text; assumption | ]. split; [ apply tidy_some; reflexivity | exact C ].
      - assert (Et : t = ("%{" ++ e ++ "}")%string) by (rewrite <- Ht; reflexivity).
        assert (Hb : ~ has "}" e) by (destruct Hw as [Hw _]; inversion Hw as [|? ? [_ H] _]; exact H).
        assert (Hlk : looks_up t e nm) by (right; right; auto).
        destruct (looks_up_md _ _ _ Hlk) as (al & Hal & En & E).
        cbn [toks istr_loop]. rewrite (calls_nonempty _ _ _ Ha).
        destruct (key_decided arg) as [(y & ps & Hk)|(x & Hx)].
        + eapply told_bind with (P := fun r c' => exists o, r = (""%string, al, o) /\
              asks w sc function md c (mk_key arg (PStr y :: ps)) None o c' /\ tidy o /\ tidyc c').
          * eapply told_after; [ apply goes_lift; exact (E arg Ha) | ]. cbn [fst snd]. rewrite En.
            assert (G : told md c (k <- lift (new_key arg) ;; v <- run w n (RLookup k None) ;; ret (""%string, al, fst v))%monad
              (fun r c' => exists o, r = (""%string, al, o) /\
                 asks w sc function md c (mk_key arg (PStr y :: ps)) None o c' /\ tidy o /\ tidyc c')
              (fun x c' => value_breaks w sc function md c (VStr t) x c' /\ tidyc c')).
            { eapply told_after; [ apply goes_lift; exact (written_key_new _ _ Hk) | ].
              eapply told_bind; [ eapply told_imp; [ exact (Hl md c (mk_key arg (PStr y :: ps)) y ps None Hc eq_refl) | intros a c' K; exact K | ] | ].
              - intros x c' [K T]. split; [ | exact T ]. rewrite <- Ht in *.
                eapply (vb_str _ _ _ _ _ [] "" e [] ""); [ exact Hw | apply pa_nil | ]. eapply eb_lookup; eassumption.
              - intros [o b] c1 (H1 & T & C). cbn [fst snd] in *. apply told_ret. exists o. auto. }
            destruct Hal as [->|[[->| ->] _]]; [ | exact G | exact G ].
            exfalso. specialize (E arg Ha). rewrite (calls_md _ _ _ Ha) in E. destruct Hn as [->| ->]; discriminate E.
          * intros r c' (o & -> & H1 & T & C). apply told_ret.
            assert (Eal : al = if String.eqb nm "alias" then MAlias else MStrictAlias).
            { specialize (E arg Ha). rewrite (calls_md _ _ _ Ha) in E. destruct Hn as [->| ->]; cbn in E; injection E as <-; reflexivity. }
            subst al. rewrite Et. destruct Hn as [->| ->]; cbn [String.eqb Ascii.eqb Bool.eqb].
            -- destruct o as [v|].
               ++ split; [ exact (st_alias w sc function md c e arg _ (Some v) c' Hb Ha Hk H1) | auto ].
               ++ split; [ exact (st_alias w sc function md c e arg _ None c' Hb Ha Hk H1) | ]. split; [ apply tidy_some; reflexivity | exact C ].
            -- destruct o as [v|]; (split; [ exact (st_strict_alias w sc function md c e arg _ _ c' Hb Ha Hk H1) | auto ]).
        + eapply told_falls.
          * apply falls_now. eapply falls_after; [ apply goes_lift; exact (E arg Ha) | ]. cbn [fst snd]. rewrite En.
            destruct Hal as [->|[[->| ->] _]]; apply falls_now; apply falls_lift; apply new_key_refused; exact Hx.
          * split; [ | exact Hc ]. rewrite <- Ht in *.
            eapply (vb_str _ _ _ _ _ [] "" e [] ""); [ exact Hw | apply pa_nil | ]. eapply eb_key; eassumption.
    Qed.

    (** ** Functions *)
    Lemma program_told p : neat p -> forall md c, tidyc c ->
      told md c (run_prog (run w n) p)
        (fun o c' => does w sc function md c p o c' /\ tidy o /\ tidyc c')
        (fun x c' => doing_fails w sc function md c p x c' /\ tidyc c').
    Proof.
      induction p as [o|x|v k IH|key o k IH|key v k IH|key k IH|key k IH|k IH|t k IH]; intros Hp md c Hc; cbn [run_prog neat] in *.
      - apply told_ret. split; [ apply do_return | auto ].
      - eapply told_falls; [ apply falls_panic | ]. split; [ apply df_panic | exact Hc ].
      - destruct Hp as [W Hp].
        eapply told_bind; [ eapply told_imp; [ exact (interpolate_told v md c W Hc) | intros a c' K; exact K | ] | ].
        { intros x c' [K T]. split; [ apply df_interpolate; exact K | exact T ]. }
        intros r c1 (H1 & T & C). eapply told_imp; [ exact (IH r (Hp r T) md c1 C) | | ].
        + intros o c' (H2 & R). split; [ eapply do_interpolate; eassumption | exact R ].
        + intros x c' [K T']. split; [ eapply df_interpolated; eassumption | exact T' ].
      - destruct (key_decided key) as [(y & ps & Hk)|(x & Hx)].
        + eapply told_after; [ apply goes_lift; exact (written_key_new _ _ Hk) | ].
          eapply told_bind; [ eapply told_imp; [ exact (Hl md c (mk_key key (PStr y :: ps)) y ps o Hc eq_refl) | intros a c' K; exact K | ] | ].
          { intros x c' [K T]. split; [ eapply df_lookup; eassumption | exact T ]. }
          intros [r b] c1 (H1 & T & C). cbn [fst snd] in *. eapply told_imp; [ exact (IH r (Hp r T) md c1 C) | | ].
          * intros o' c' (H2 & R). split; [ eapply do_lookup; eassumption | exact R ].
          * intros x c' [K T']. split; [ eapply df_looked_up; eassumption | exact T' ].
        + eapply told_falls; [ apply falls_now; apply falls_lift; apply new_key_refused; exact Hx | ].
          split; [ apply df_key; exact Hx | exact Hc ].
      - destruct Hp as [W Hp]. eapply told_after; [ apply goes_cached | ]. eapply told_after; [ apply goes_cache | ].
        assert (C : tidyc (put key v c)).
        { intro y. unfold put. destruct (string_dec y key); [ apply tidy_some; exact W | apply Hc ]. }
        eapply told_imp; [ exact (IH (c key) (Hp _ (Hc key)) md _ C) | | ].
        + intros o c' (H2 & R). split; [ apply do_cache; exact H2 | exact R ].
        + intros x c' [K T']. split; [ apply df_cache; exact K | exact T' ].
      - eapply told_after; [ apply goes_cached | ]. eapply told_imp; [ exact (IH (c key) (Hp _ (Hc key)) md c Hc) | | ].
        + intros o c' (H2 & R). split; [ apply do_cached; exact H2 | exact R ].
        + intros x c' [K T']. split; [ apply df_cached; exact K | exact T' ].
      - eapply told_after; [ apply goes_scope | ].
        assert (T : tidy (scope_get sc key)) by (intros v E; exact (Hvars _ _ E)).
        eapply told_imp; [ exact (IH _ (Hp _ T) md c Hc) | | ].
        + intros o c' (H2 & R). split; [ apply do_scope; exact H2 | exact R ].
        + intros x c' [K T']. split; [ apply df_scope; exact K | exact T' ].
      - eapply told_after; [ apply goes_mode | ]. eapply told_imp; [ exact (IH md (Hp md) md c Hc) | | ].
        + intros o c' (H2 & R). split; [ apply do_mode; exact H2 | exact R ].
        + intros x c' [K T']. split; [ apply df_mode; exact K | exact T' ].
      - eapply told_after; [ apply goes_report | ]. eapply told_imp; [ exact (IH Hp md c Hc) | | ].
        + intros o c' (H2 & R). split; [ apply do_explain; exact H2 | exact R ].
        + intros x c' [K T']. split; [ apply df_explain; exact K | exact T' ].
    Qed.

    Lemma lookup_told md c k r ps opts : tidyc c -> k_parts k = PStr r :: ps ->
      told md c (lookup w (run w n) k opts)
        (fun o c' => asks w sc function md c k opts o c' /\ tidy o /\ tidyc c')
        (fun x c' => asking_fails w sc function md c k opts x c' /\ tidyc c').
    Proof.
      intros Hc Hk. unfold lookup. eapply told_after; [ apply goes_lift; unfold root; rewrite Hk; reflexivity | ].
      destruct (String.eqb r "lookup_options") eqn:Er.
      - apply String.eqb_eq in Er. subst r. apply told_node. eapply told_after; [ apply goes_report | ]. apply told_ret.
        split; [ eapply as_hidden; exact Hk | ]. split; [ apply tidy_none | exact Hc ].
      - apply String.eqb_neq in Er. rewrite Htop. cbn [call_lk]. unfold call_fn.
        eapply told_bind with (P := fun o c' => does w sc function md c (function (ALookupKey (match opts with Some o => o | None => [] end) r)) o c' /\ tidy o /\ tidyc c').
        + eapply told_after; [ apply goes_ask; intro; apply Hcall | ].
          eapply told_imp; [ exact (program_told _ (Hneat _ _) md c Hc) | intros a c' K; exact K | ].
          intros x c' [K T]. split; [ eapply af_function; eassumption | exact T ].
        + intros [x|] c1 (H1 & T & C).
          * apply told_data.
            eapply told_bind; [ eapply told_imp; [ exact (interpolate_told x MdData c1 (T x eq_refl) C) | intros a c' K; exact K | ] | ].
            { intros e c' [K T']. split; [ eapply af_value; eassumption | exact T' ]. }
            intros y c2 (H2 & T2 & C2). destruct (digs_total ps y) as (o & D).
            eapply told_goes; [ eapply goes_dig; [ exact Hk | exact D ] | ].
            split; [ eapply as_value; eassumption | ]. split; [ eapply tidy_digs; eassumption | exact C2 ].
          * apply told_ret. split; [ eapply as_nothing; eassumption | ]. split; [ apply tidy_none | exact C ].
    Qed.
  End At.

  Lemma all_told n : strings_told n /\ lookups_told n.
  Proof.
    induction n as [|n [Hs Hl]].
    - split; [ intros md c t Hc s _ | intros md c k r ps opts Hc Hk s _ ]; exact I.
    - split.
      + intros md c t Hc. cbn [run body]. exact (string_told n Hs Hl t md c Hc).
      + intros md c k r ps opts Hc Hk. cbn [run body].
        eapply told_bind; [ exact (lookup_told n Hs Hl md c k r ps opts Hc Hk) | ].
        intros o c' H. apply told_ret. exact H.
  Qed.
End Complete.
