(** The engine fails as SpecServerFail.v says. *)

From Coq Require Import String Ascii List ZArith Bool Arith Lia.
From Verif Require Import Str Value Outcome Key Merge Fpath Config Ipl Explain State Engine Session Fuel
  SpecKey SpecKeyErr SpecIpl SpecInterp SpecLookup SpecFail SpecServer SpecServerFail
  KeyFacts KeyErrFacts ValueFacts StrFacts IplFacts InterpFacts IplExact ServerExact.
Import ListNotations.
Open Scope nat_scope.
Open Scope string_scope.
Open Scope list_scope.

Scheme asking_fails_ind2 := Minimality for asking_fails Sort Prop
  with doing_fails_ind2 := Minimality for doing_fails Sort Prop
  with value_breaks_ind2 := Minimality for value_breaks Sort Prop
  with expression_breaks_ind2 := Minimality for expression_breaks Sort Prop.
Combined Scheme server_fails_ind from asking_fails_ind2, doing_fails_ind2, value_breaks_ind2, expression_breaks_ind2.

(** Code that fails and leaves a cache. *)
Definition falls {A} (sc : scope) (md : imode) (c : cached) (m : M st A) (x : err) (c' : cached) : Prop :=
  forall s, at_ sc md c s -> exists s', m s = (Panic x, s') /\ forall y, aget y (s_tpc s') = c' y.

Section Fail.
  Variables (w : world) (sc : scope) (function : args -> prog) (name : string).
  Hypothesis Htop : w_top w = LkUser name.
  Hypothesis Hcall : forall t a, w_call w t (FnTop name) a = function a.

  Lemma falls_panic A md c x : falls sc md c (panic x : M st A) x c.
  Proof. intros s H. exists s. split; [ reflexivity | exact (proj2 (proj2 (proj2 H))) ]. Qed.
  Lemma falls_lift A md c (o : outcome A) x : o = Panic x -> falls sc md c (lift o) x c.
  Proof. intros -> s H. exists s. split; [ reflexivity | exact (proj2 (proj2 (proj2 H))) ]. Qed.
  Lemma falls_now A B md c c' (m : M st A) (f : A -> M st B) x : falls sc md c m x c' -> falls sc md c (bind m f) x c'.
  Proof. intros H s Hs. destruct (H s Hs) as (s' & E & K). exists s'. unfold bind. rewrite E. auto. Qed.
  Lemma falls_after A B md c c1 c' (m : M st A) (f : A -> M st B) a x :
    goes sc md c m a c1 -> falls sc md c1 (f a) x c' -> falls sc md c (bind m f) x c'.
  Proof.
    intros H H' s Hs. destruct (H s Hs) as (s1 & E & K). destruct (H' s1 K) as (s2 & E' & K'). exists s2.
    unfold bind. rewrite E. auto.
  Qed.
  Lemma falls_steps A md c c1 c' (m m' : M st A) x : steps sc md c m m' c1 -> falls sc md c1 m' x c' -> falls sc md c m x c'.
  Proof.
    intros H H' s Hs. destruct (H s Hs) as (s1 & E & K). destruct (H' s1 K) as (s2 & E' & K'). exists s2.
    split; [ congruence | exact K' ].
  Qed.
  Lemma falls_node A md c c' k i (m : M st A) x : falls sc md c m x c' -> falls sc md c (run_scoped (SNode k i) m) x c'.
  Proof. intros H s Hs. rewrite node_off by exact (proj1 Hs). exact (H s Hs). Qed.
  Lemma falls_data A md c c' (m : M st A) x : falls sc MdData c m x c' -> falls sc md c (run_scoped SData m) x c'.
  Proof.
    intros H s (H1 & H2 & H3 & H4). unfold run_scoped. rewrite H3.
    assert (G : forall f : iv -> iv, iv_expl (f (s_iv s)) = false -> iv_scope (f (s_iv s)) = sc -> iv_mode (f (s_iv s)) = MdData ->
                exists s', with_copy f m s = (Panic x, s') /\ forall y, aget y (s_tpc s') = c' y).
    { intros f F1 F2 F3. destruct (H (with_iv (f (s_iv s)) s)) as (s1 & E & K).
      - split; [ exact F1 | ]. split; [ exact F2 | ]. split; [ exact F3 | exact H4 ].
      - exists (with_iv (s_iv s) s1). unfold with_copy. rewrite E. split; [ reflexivity | exact K ]. }
    destruct md; [ | | exact (H s (conj H1 (conj H2 (conj H3 H4)))) ].
    all: apply G; cbn; [ unfold off in H1; rewrite H1; reflexivity | exact H2 | reflexivity ].
  Qed.
  Lemma falls_call md c c' a x n : falls sc md c (run_prog (run w n) (function a)) x c' ->
    falls sc md c (call_fn w (run w n) (FnTop name) a) x c'.
  Proof. intro H. unfold call_fn. eapply falls_after; [ apply goes_ask; intro; apply Hcall | exact H ]. Qed.

  Definition F_asking md c k opts x c' := later (fun n => falls sc md c (run w n (RLookup k opts)) x c').
  Definition F_doing md c p x c' := later (fun n => falls sc md c (run_prog (run w n) p) x c').
  Definition F_value md c v x c' := later (fun n => falls sc md c (do_interp (run w n) true v) x c').
  Definition F_expression md c t e x c' :=
    later (fun n => forall ts acc m result, falls sc md c (istr_loop w (run w n) t true (TExpr e :: ts) acc m result) x c').

  Let exact_ := server_exact w sc function name Htop Hcall.
  Lemma asks_goes md c k opts o c' : asks w sc function md c k opts o c' -> P_asks w sc md c k opts o c'.
  Proof. apply exact_. Qed.
  Lemma does_goes md c p o c' : does w sc function md c p o c' -> P_does w sc md c p o c'.
  Proof. apply exact_. Qed.
  Lemma becomes_goes md c v o c' : becomes w sc function md c v o c' -> P_becomes w sc md c v o c'.
  Proof. apply exact_. Qed.
  Lemma expression_goes md c e r c' : expression_becomes w sc function md c e r c' -> P_expression w sc md c e r c'.
  Proof. apply exact_. Qed.

  (** After the parts that can be replaced the loop is at the one that cannot. *)
  Lemma parts_go md c pre rs c1 : parts_become w sc function md c pre rs c1 ->
    later (fun n => forall str u e post last acc m result, m <> MStrictAlias -> exists acc' m',
      steps sc md c (istr_loop w (run w n) str true (toks (pre ++ (u, e) :: post) last) acc m result)
                    (istr_loop w (run w n) str true (TExpr e :: toks post last) acc' m' result) c1).
  Proof.
    induction 1 as [md c|md c t0 e0 r pre rs c1 c2 H1 _ IH].
    - apply later_now. intros n str u e post last acc m result Hm. exists (acc ++ u)%string, m. apply steps_refl.
    - eapply later_and; [ | exact (expression_goes _ _ _ _ _ H1) | exact IH ].
      intros n G1 G2 str u e post last acc m result Hm. cbn [app toks].
      destruct (G1 str (toks (pre ++ (u, e) :: post) last) (acc ++ t0)%string m result Hm) as (m1 & Hm1 & E1).
      destruct (G2 str u e post last ((acc ++ t0) ++ r)%string m1 result Hm1) as (acc2 & m2 & E2).
      exists acc2, m2. intros s Hs. destruct (E1 s Hs) as (s1 & Q1 & K1). destruct (E2 s1 K1) as (s2 & Q2 & K2).
      exists s2. split; [ etransitivity; [ exact Q1 | exact Q2 ] | exact K2 ].
  Qed.

  Lemma all_fall md c pre pre' c1 v post x c' : all_become w sc function md c pre pre' c1 -> F_value md c1 v x c' ->
    later (fun n => falls sc md c (each_arr (run w n) true (pre ++ v :: post)) x c').
  Proof.
    intros H Hv. induction H as [md c|md c y r l l' c1 c2 H1 _ IH].
    - eapply later_mono; [ | exact Hv ]. intros n G. cbn [app each_arr]. apply falls_now. exact G.
    - destruct (becomes_goes _ _ _ _ _ H1) as (b & _ & G1). eapply later_and; [ | exact G1 | exact (IH Hv) ].
      intros n K1 K2. cbn [app each_arr]. eapply falls_after; [ exact K1 | ]. apply falls_now. exact K2.
  Qed.

  Lemma entries_fall md c pre pre' c1 e post x c' : entries_become w sc function md c pre pre' c1 ->
    later (fun n => forall cp, falls sc md c1 (each_map (run w n) true (e :: post) cp) x c') ->
    later (fun n => forall cp, falls sc md c (each_map (run w n) true (pre ++ e :: post) cp) x c').
  Proof.
    intros H Hv. induction H as [md c|md c k k' y y' m m' c1 c2 c3 H1 H2 _ IH].
    - exact Hv.
    - destruct (becomes_goes _ _ _ _ _ H1) as (b1 & _ & G1). destruct (becomes_goes _ _ _ _ _ H2) as (b2 & _ & G2).
      eapply later_and; [ | exact G1 | eapply later_and; [ | exact G2 | exact (IH Hv) ]; intros n K2 K3; exact (conj K2 K3) ].
      intros n K1 [K2 K3] cp. cbn [app each_map]. eapply falls_after; [ exact K1 | ]. eapply falls_after; [ exact K2 | ].
      apply falls_now. apply K3.
  Qed.

  Lemma looks_up_md t e nm : looks_up t e nm -> exists md,
    (md = MLookup \/ ((md = MAlias \/ md = MStrictAlias) /\ t = ("%{" ++ e ++ "}")%string)) /\
    is_alias md && negb (String.eqb ("%{" ++ e ++ "}") t) = false /\
    forall arg, calls (trim_space e) nm arg -> method_and_data (trim_space e) true = Ok (md, arg).
  Proof.
    intros [->|[->|[[->| ->] Et]]].
    - exists MLookup. split; [ auto | ]. split; [ reflexivity | ]. intros arg Hc. exact (calls_md _ _ _ Hc).
    - exists MLookup. split; [ auto | ]. split; [ reflexivity | ]. intros arg Hc. exact (calls_md _ _ _ Hc).
    - exists MAlias. split; [ auto | ]. split; [ rewrite Et, String.eqb_refl; reflexivity | ]. intros arg Hc. exact (calls_md _ _ _ Hc).
    - exists MStrictAlias. split; [ auto | ]. split; [ rewrite Et, String.eqb_refl; reflexivity | ]. intros arg Hc. exact (calls_md _ _ _ Hc).
  Qed.

  Lemma server_fails :
    (forall md c k opts x c', asking_fails w sc function md c k opts x c' -> F_asking md c k opts x c') /\
    (forall md c p x c', doing_fails w sc function md c p x c' -> F_doing md c p x c') /\
    (forall md c v x c', value_breaks w sc function md c v x c' -> F_value md c v x c') /\
    (forall md c t e x c', expression_breaks w sc function md c t e x c' -> F_expression md c t e x c').
  Proof.
    apply (server_fails_ind w sc function F_asking F_doing F_value F_expression).
    (* lookups *)
    - intros md c k opts r ps x c' Hk Hr _ IH. eapply later_next; [ | exact IH ]. intros n H. cbn [run body].
      apply falls_now. unfold lookup. eapply falls_after; [ apply goes_lift; unfold root; rewrite Hk; reflexivity | ].
      apply String.eqb_neq in Hr. rewrite Hr, Htop. cbn [call_lk]. apply falls_now. apply falls_call. exact H.
    - intros md c k opts r ps v x c1 c' Hk Hr H1 _ IH. destruct (does_goes _ _ _ _ _ H1) as [a A]. destruct IH as [d D].
      exists (S (a + d)). intros [|n] Hn; [ lia | ]. pose proof (A n ltac:(lia)) as G1. pose proof (D n ltac:(lia)) as G2.
      cbn beta in G1, G2. cbn [run body].
      apply falls_now. unfold lookup. eapply falls_after; [ apply goes_lift; unfold root; rewrite Hk; reflexivity | ].
      apply String.eqb_neq in Hr. rewrite Hr, Htop. cbn [call_lk].
      eapply falls_after; [ apply (goes_call w sc function name Hcall); exact G1 | ]. apply falls_data. apply falls_now.
      unfold interpolate. apply falls_now. exact G2.
    (* programs *)
    - intros md c x. apply later_now. intro n. apply falls_panic.
    - intros md c k v next x c' _ IH. eapply later_mono; [ | exact IH ]. intros n H. cbn [run_prog].
      eapply falls_after; [ apply goes_cached | ]. eapply falls_after; [ apply goes_cache | exact H ].
    - intros md c k next x c' _ IH. eapply later_mono; [ | exact IH ]. intros n H. cbn [run_prog].
      eapply falls_after; [ apply goes_cached | exact H ].
    - intros md c k next x c' _ IH. eapply later_mono; [ | exact IH ]. intros n H. cbn [run_prog].
      eapply falls_after; [ apply goes_scope | exact H ].
    - intros md c next x c' _ IH. eapply later_mono; [ | exact IH ]. intros n H. cbn [run_prog].
      eapply falls_after; [ apply goes_mode | exact H ].
    - intros md c t next x c' _ IH. eapply later_mono; [ | exact IH ]. intros n H. cbn [run_prog].
      eapply falls_after; [ apply goes_report | exact H ].
    - intros md c v next x c' _ IH. eapply later_mono; [ | exact IH ]. intros n H. cbn [run_prog].
      apply falls_now. unfold interpolate. apply falls_now. exact H.
    - intros md c v next r x c1 c' H1 _ IH. destruct (becomes_goes _ _ _ _ _ H1) as (b & B & G).
      eapply later_and; [ | exact G | exact IH ]. intros n K1 K2. cbn [run_prog].
      eapply falls_after; [ exact (goes_interp _ _ _ _ _ _ _ _ _ B K1) | exact K2 ].
    - intros md c t opts next x H. apply later_now. intro n. cbn [run_prog]. apply falls_now. apply falls_lift.
      now apply new_key_refused.
    - intros md c t ps opts next x c' Hk _ IH. eapply later_mono; [ | exact IH ]. intros n H. cbn [run_prog].
      eapply falls_after; [ apply goes_lift; exact (written_key_new _ _ Hk) | ]. apply falls_now. exact H.
    - intros md c t ps opts next r x c1 c' Hk H1 _ IH. eapply later_and; [ | exact (asks_goes _ _ _ _ _ _ H1) | exact IH ].
      intros n K1 K2. cbn [run_prog].
      eapply falls_after; [ apply goes_lift; exact (written_key_new _ _ Hk) | ].
      eapply falls_after; [ exact K1 | exact K2 ].
    (* values *)
    - intros md c cut u e post last rs x c1 c' Hw Hp _ IH.
      eapply later_next; [ | exact (later_and _ _ (fun n => _) (fun n a b => conj a b) (parts_go _ _ _ _ _ Hp) IH) ].
      intros n [G1 G2]. cbn beta in G1, G2. cbn [do_interp]. cbn [run body]. unfold istr.
      assert (Ec : contains "%{" (assembled (cut ++ (u, e) :: post) last) = true).
      { apply contains_has. clear. induction cut as [|[a b] cut IH]; cbn [app assembled].
        - exists u, (e ++ "}" ++ assembled post last)%string. reflexivity.
        - exists a, (b ++ "}" ++ assembled (cut ++ (u, e) :: post) last)%string. reflexivity. }
      rewrite Ec. cbn [negb]. apply falls_now. apply falls_node. apply falls_now. rewrite (tokens_cut _ _ Hw).
      destruct (G1 (assembled (cut ++ (u, e) :: post) last) u e post last "" MScope None) as (acc & m & E); [ discriminate | ].
      exact (falls_steps _ _ _ _ _ _ _ _ E (G2 _ _ _ _)).
    - intros md c pre v post pre' x c1 c' Hp _ IH.
      eapply later_mono; [ | exact (all_fall _ _ _ _ _ _ post _ _ Hp IH) ]. intros n G.
      rewrite do_interp_arr. apply falls_now. exact G.
    - intros md c pre k v post pre' x c1 c' Hp _ IH.
      eapply later_mono; [ | apply (entries_fall _ _ _ _ _ (k, v) post x c' Hp) ].
      + intros n G. rewrite do_interp_map. apply falls_now. exact (G []).
      + eapply later_mono; [ | exact IH ]. intros n G cp. cbn [each_map]. apply falls_now. exact G.
    - intros md c pre k v post pre' k' x c1 c2 c' Hp Hk _ IH. destruct (becomes_goes _ _ _ _ _ Hk) as (b & _ & G1).
      eapply later_mono; [ | apply (entries_fall _ _ _ _ _ (k, v) post x c' Hp) ].
      + intros n G. rewrite do_interp_map. apply falls_now. exact (G []).
      + eapply later_and; [ | exact G1 | exact IH ]. intros n K1 K2 cp. cbn [each_map].
        eapply falls_after; [ exact K1 | ]. apply falls_now. exact K2.
    (* expressions *)
    - intros md c t e nm arg Hc Hn. apply later_now. intros n ts acc m result. cbn [istr_loop].
      rewrite (calls_nonempty _ _ _ Hc). apply falls_now. apply falls_lift. rewrite (calls_md _ _ _ Hc).
      assert (N : forall t, In t ["alias"; "strict_alias"; "hiera"; "lookup"; "literal"; "scope"] -> String.eqb nm t = false).
      { intros t0 Hin. apply String.eqb_neq. intros ->. exact (Hn Hin). }
      rewrite !N by (cbn; tauto). reflexivity.
    - intros md c t e nm arg Hc Hn Ht. apply later_now. intros n ts acc m result. cbn [istr_loop].
      rewrite (calls_nonempty _ _ _ Hc). apply String.eqb_neq in Ht. rewrite String.eqb_sym in Ht.
      assert (Hd : exists al, is_alias al = true /\ method_and_data (trim_space e) true = Ok (al, arg)).
      { destruct Hn as [->| ->]; [ exists MAlias | exists MStrictAlias ]; (split; [ reflexivity | exact (calls_md _ _ _ Hc) ]). }
      destruct Hd as (al & Em & E). eapply falls_after; [ apply goes_lift; exact E | ]. cbn [fst snd].
      rewrite Em, Ht. cbn [negb andb]. apply falls_panic.
    - intros md c t e arg x Hin Ha Hm. apply later_now. intros n ts acc m result. cbn [istr_loop].
      rewrite (empty_interpolation_out _ Hin).
      eapply falls_after; [ apply goes_lift; exact (asks_scope_md _ _ _ Ha) | ]. cbn [fst snd is_alias andb].
      apply falls_now. unfold in_scope. apply falls_now. apply falls_lift. now apply new_key_refused.
    - intros md c t e arg y ps v x c' Hin Ha Hk Hg _ IH. eapply later_mono; [ | exact IH ]. intros n G ts acc m result.
      cbn [istr_loop]. rewrite (empty_interpolation_out _ Hin).
      eapply falls_after; [ apply goes_lift; exact (asks_scope_md _ _ _ Ha) | ]. cbn [fst snd is_alias andb].
      apply falls_now. unfold in_scope. eapply falls_after; [ apply goes_lift; exact (written_key_new _ _ Hk) | ].
      eapply falls_after; [ apply goes_lift; reflexivity | ]. eapply falls_after; [ apply goes_scope | ].
      rewrite Hg. apply falls_now. exact G.
    - intros md c t e nm arg x Hc Hl Hm. apply later_now. intros n ts acc m result. cbn [istr_loop].
      rewrite (calls_nonempty _ _ _ Hc). destruct (looks_up_md _ _ _ Hl) as (al & Hal & En & E).
      eapply falls_after; [ apply goes_lift; exact (E arg Hc) | ]. cbn [fst snd]. rewrite En.
      destruct Hal as [->|[[->| ->] _]]; apply falls_now; apply falls_lift; now apply new_key_refused.
    - intros md c t e nm arg ps x c' Hc Hl Hk _ IH. eapply later_mono; [ | exact IH ]. intros n G ts acc m result.
      cbn [istr_loop]. rewrite (calls_nonempty _ _ _ Hc). destruct (looks_up_md _ _ _ Hl) as (al & Hal & En & E).
      eapply falls_after; [ apply goes_lift; exact (E arg Hc) | ]. cbn [fst snd]. rewrite En.
      destruct Hal as [->|[[->| ->] _]]; (eapply falls_after; [ apply goes_lift; exact (written_key_new _ _ Hk) | ]);
        apply falls_now; exact G.
  Qed.
End Fail.
