(** The engine does what SpecServer.v says. *)

From Coq Require Import String Ascii List ZArith Bool Arith Lia.
From Verif Require Import Str Value Outcome Key Merge Fpath Config Ipl Explain State Engine Session Fuel
  SpecKey SpecIpl SpecInterp SpecLookup SpecServer
  KeyFacts ValueFacts StrFacts IplFacts InterpFacts IplExact.
Import ListNotations.
Open Scope nat_scope.
Open Scope string_scope.
Open Scope list_scope.

Scheme asks_ind2 := Minimality for asks Sort Prop
  with does_ind2 := Minimality for does Sort Prop
  with becomes_ind2 := Minimality for becomes Sort Prop
  with all_become_ind2 := Minimality for all_become Sort Prop
  with entries_become_ind2 := Minimality for entries_become Sort Prop
  with string_becomes_ind2 := Minimality for string_becomes Sort Prop
  with parts_become_ind2 := Minimality for parts_become Sort Prop
  with expression_becomes_ind2 := Minimality for expression_becomes Sort Prop.
Combined Scheme server_ind from asks_ind2, does_ind2, becomes_ind2, all_become_ind2, entries_become_ind2,
  string_becomes_ind2, parts_become_ind2, expression_becomes_ind2.

(** A state with the cache [c], without an explainer. *)
Definition at_ (sc : scope) (md : imode) (c : cached) (s : st) : Prop :=
  off s /\ iv_scope (s_iv s) = sc /\ iv_mode (s_iv s) = md /\ forall x, aget x (s_tpc s) = c x.

(** Code that gives a value and changes the cache. *)
Definition goes {A} (sc : scope) (md : imode) (c : cached) (m : M st A) (a : A) (c' : cached) : Prop :=
  forall s, at_ sc md c s -> exists s', m s = (Ok a, s') /\ at_ sc md c' s'.

(** Code that changes the cache and goes on with other code, whatever that does. *)
Definition steps {A} (sc : scope) (md : imode) (c : cached) (m m' : M st A) (c' : cached) : Prop :=
  forall s, at_ sc md c s -> exists s', m s = m' s' /\ at_ sc md c' s'.

Section Exact.
  Variables (w : world) (sc : scope) (function : args -> prog) (name : string).
  Hypothesis Htop : w_top w = LkUser name.
  Hypothesis Hcall : forall t a, w_call w t (FnTop name) a = function a.

  Lemma goes_ret A md c (a : A) : goes sc md c (ret a) a c.
  Proof. intros s H. exists s. auto. Qed.
  Lemma goes_lift A md c (a : A) o : o = Ok a -> goes sc md c (lift o) a c.
  Proof. intros -> s H. exists s. auto. Qed.
  Lemma goes_bind A B md c c1 c2 (m : M st A) (f : A -> M st B) a b :
    goes sc md c m a c1 -> goes sc md c1 (f a) b c2 -> goes sc md c (bind m f) b c2.
  Proof.
    intros Hm Hf s H. destruct (Hm s H) as (s1 & E1 & H1). destruct (Hf s1 H1) as (s2 & E2 & H2).
    exists s2. unfold bind. rewrite E1. auto.
  Qed.
  Lemma steps_refl A md c (m : M st A) : steps sc md c m m c.
  Proof. intros s Hs. exists s. auto. Qed.
  Lemma steps_bind A B md c c1 c' (m : M st A) (f : A -> M st B) m' a :
    goes sc md c m a c1 -> steps sc md c1 (f a) m' c' -> steps sc md c (bind m f) m' c'.
  Proof.
    intros H H' s Hs. destruct (H s Hs) as (s1 & E & K). destruct (H' s1 K) as (s2 & E' & K'). exists s2.
    split; [ unfold bind; rewrite E; exact E' | exact K' ].
  Qed.
  Lemma goes_steps A md c c1 c' (m m' : M st A) a : steps sc md c m m' c1 -> goes sc md c1 m' a c' -> goes sc md c m a c'.
  Proof.
    intros H H' s Hs. destruct (H s Hs) as (s1 & E & K). destruct (H' s1 K) as (s2 & E' & K'). exists s2.
    split; [ congruence | exact K' ].
  Qed.
  Lemma goes_node A md c c' k i (m : M st A) a : goes sc md c m a c' -> goes sc md c (run_scoped (SNode k i) m) a c'.
  Proof. intros H s Hs. rewrite node_off by exact (proj1 Hs). exact (H s Hs). Qed.
  Lemma goes_report md c r : goes sc md c (run_op (OReport r)) tt c.
  Proof. intros s Hs. rewrite report_off by exact (proj1 Hs). exists s. auto. Qed.
  Lemma goes_scope md c : goes sc md c (run_op OScope) sc c.
  Proof. intros s Hs. exists s. split; [ | exact Hs ]. unfold run_op. destruct Hs as (_ & -> & _). reflexivity. Qed.
  Lemma goes_mode md c : goes sc md c (run_op OMode) md c.
  Proof. intros s Hs. exists s. split; [ | exact Hs ]. unfold run_op. destruct Hs as (_ & _ & -> & _). reflexivity. Qed.
  Lemma goes_cached md c k : goes sc md c (run_op (OCached k)) (c k) c.
  Proof. intros s Hs. exists s. split; [ | exact Hs ]. unfold run_op. destruct Hs as (_ & _ & _ & ->). reflexivity. Qed.
  Lemma goes_cache md c k v : goes sc md c (run_op (OCache k v)) tt (put k v c).
  Proof.
    intros s (H1 & H2 & H3 & H4). exists (with_tpc (aput k v (s_tpc s)) s). split; [ reflexivity | ].
    repeat (split; [ assumption | ]). intro x. cbn. unfold put.
    destruct (string_dec x k) as [->|E]; [ now rewrite String.eqb_refl | ].
    apply String.eqb_neq in E. rewrite E. apply H4.
  Qed.
  Lemma goes_ask A md c e (f : list event -> A) a : (forall t, f t = a) -> goes sc md c (ask e f) a c.
  Proof.
    intros Hf s (H1 & H2 & H3 & H4). exists (with_trace (s_trace s ++ [e])%list s).
    split; [ unfold ask, bind, run_op, ret; rewrite Hf; reflexivity | ]. repeat (split; [ assumption | ]). exact H4.
  Qed.
  Lemma goes_data A md c c' (m : M st A) a : goes sc MdData c m a c' -> goes sc md c (run_scoped SData m) a c'.
  Proof.
    intros H s (H1 & H2 & H3 & H4). unfold run_scoped. rewrite H3.
    assert (G : forall f : iv -> iv, iv_expl (f (s_iv s)) = false -> iv_scope (f (s_iv s)) = sc -> iv_mode (f (s_iv s)) = MdData ->
                exists s', with_copy f m s = (Ok a, s') /\ at_ sc md c' s').
    { intros f F1 F2 F3. destruct (H (with_iv (f (s_iv s)) s)) as (s1 & E & K1 & K2 & K3 & K4).
      - split; [ exact F1 | ]. split; [ exact F2 | ]. split; [ exact F3 | exact H4 ].
      - exists (with_iv (s_iv s) s1). unfold with_copy. rewrite E. split; [ reflexivity | ].
        split; [ exact H1 | ]. split; [ exact H2 | ]. split; [ exact H3 | exact K4 ]. }
    destruct md; [ | | exact (H s (conj H1 (conj H2 (conj H3 H4)))) ].
    all: apply G; cbn; [ unfold off in H1; rewrite H1; reflexivity | exact H2 | reflexivity ].
  Qed.

  Lemma goes_dig md c k x ps r o : k_parts k = PStr x :: ps -> digs ps r o -> goes sc md c (dig_in k r) o c.
  Proof.
    intros Hk H s Hs. exists s. split; [ | exact Hs ]. pose proof (proj1 Hs) as Ho.
    destruct H as [|v y Hp|v Hp].
    - apply dig_in_none. exact Ho.
    - rewrite dig_in_off by exact Ho. unfold dig. rewrite Hk. cbn [tl]. apply dig_parts_path in Hp. rewrite Hp. reflexivity.
    - rewrite dig_in_off by exact Ho. unfold dig. rewrite Hk. cbn [tl].
      destruct (dig_parts ps v) as [y|] eqn:E; [ apply dig_parts_path in E; destruct (Hp _ E) | reflexivity ].
  Qed.

  (** With enough fuel. *)
  Definition later (Q : nat -> Prop) : Prop := exists n0, forall n, n0 <= n -> Q n.

  Definition P_asks md c k opts o c' := later (fun n => goes sc md c (run w n (RLookup k opts)) (o, true) c').
  Definition P_does md c p o c' := later (fun n => goes sc md c (run_prog (run w n) p) o c').
  Definition P_becomes md c v o c' := exists b, (b = false -> o = Some v) /\
    later (fun n => goes sc md c (do_interp (run w n) true v) (o, b) c').
  Definition P_all md c l l' c' := exists b, (b = false -> l' = l) /\
    later (fun n => goes sc md c (each_arr (run w n) true l) (l', b) c').
  Definition P_entries md c m m' c' := exists b, (b = false -> m' = m) /\
    later (fun n => forall cp, goes sc md c (each_map (run w n) true m cp) (mputall cp m', b) c').
  Definition P_string md c t o c' := exists b, (b = false -> o = Some (VStr t)) /\
    later (fun n => goes sc md c (run w n (RStr t true)) (o, b) c').
  Definition P_parts md c (cut : list (string * string)) rs c' :=
    later (fun n => forall str last acc m result, m <> MStrictAlias ->
      exists m', m' <> MStrictAlias /\
      goes sc md c (istr_loop w (run w n) str true (toks cut last) acc m result) ((acc ++ filled cut rs last)%string, m', result) c').
  Definition P_expression md c e r c' :=
    later (fun n => forall str ts acc m result, m <> MStrictAlias ->
      exists m', m' <> MStrictAlias /\
      steps sc md c (istr_loop w (run w n) str true (TExpr e :: ts) acc m result)
                    (istr_loop w (run w n) str true ts (acc ++ r) m' result) c').

  Lemma later_mono (Q R : nat -> Prop) : (forall n, Q n -> R n) -> later Q -> later R.
  Proof. intros H [n0 G]. exists n0. intros n Hn. apply H. exact (G n Hn). Qed.
  Lemma later_now (Q : nat -> Prop) : (forall n, Q n) -> later Q.
  Proof. intro H. exists 0. intros n _. apply H. Qed.
  Lemma later_and (Q R S : nat -> Prop) : (forall n, Q n -> R n -> S n) -> later Q -> later R -> later S.
  Proof. intros H [a A] [b B]. exists (a + b). intros n Hn. apply H; [ apply A | apply B ]; lia. Qed.
  Lemma later_next (Q R : nat -> Prop) : (forall n, Q n -> R (S n)) -> later Q -> later R.
  Proof. intros H [a A]. exists (S a). intros [|n] Hn; [ lia | ]. apply H. apply A. lia. Qed.

  Lemma goes_call md c c' a o n : goes sc md c (run_prog (run w n) (function a)) o c' ->
    goes sc md c (call_fn w (run w n) (FnTop name) a) o c'.
  Proof. intro H. unfold call_fn. eapply goes_bind; [ apply goes_ask; intro; apply Hcall | exact H ]. Qed.

  Lemma goes_interp md c c' v o b n : (b = false -> o = Some v) ->
    goes sc md c (do_interp (run w n) true v) (o, b) c' -> goes sc md c (interpolate (run w n) true v) o c'.
  Proof.
    intros B G. unfold interpolate. eapply goes_bind; [ exact G | ]. cbn [fst snd].
    destruct b; [ apply goes_ret | rewrite (B eq_refl); apply goes_ret ].
  Qed.

  Lemma server_exact :
    (forall md c k opts o c', asks w sc function md c k opts o c' -> P_asks md c k opts o c') /\
    (forall md c p o c', does w sc function md c p o c' -> P_does md c p o c') /\
    (forall md c v o c', becomes w sc function md c v o c' -> P_becomes md c v o c') /\
    (forall md c l l' c', all_become w sc function md c l l' c' -> P_all md c l l' c') /\
    (forall md c m m' c', entries_become w sc function md c m m' c' -> P_entries md c m m' c') /\
    (forall md c t o c', string_becomes w sc function md c t o c' -> P_string md c t o c') /\
    (forall md c cut rs c', parts_become w sc function md c cut rs c' -> P_parts md c cut rs c') /\
    (forall md c e r c', expression_becomes w sc function md c e r c' -> P_expression md c e r c').
  Proof.
    apply (server_ind w sc function P_asks P_does P_becomes P_all P_entries P_string P_parts P_expression).
    (* asks *)
    - intros md c k opts ps Hk. exists 1. intros [|n] Hn; [ lia | ]. cbn [run body].
      eapply goes_bind; [ | apply goes_ret ]. unfold lookup.
      eapply goes_bind; [ apply goes_lift; unfold root; rewrite Hk; reflexivity | ]. cbn [String.eqb Ascii.eqb Bool.eqb].
      apply goes_node. eapply goes_bind; [ apply goes_report | apply goes_ret ].
    - intros md c k opts r ps c' Hk Hr _ IH. eapply later_next; [ | exact IH ]. intros n H. cbn [run body].
      eapply goes_bind; [ | apply goes_ret ]. unfold lookup.
      eapply goes_bind; [ apply goes_lift; unfold root; rewrite Hk; reflexivity | ].
      apply String.eqb_neq in Hr. rewrite Hr, Htop. cbn [call_lk].
      eapply goes_bind; [ apply goes_call; exact H | apply goes_ret ].
    - intros md c k opts r ps x y o c1 c' Hk Hr _ IH1 _ (b & B & IH2) Hd.
      destruct IH1 as [a A]. destruct IH2 as [d D]. exists (S (a + d)). intros [|n] Hn; [ lia | ].
      pose proof (A n ltac:(lia)) as H1. pose proof (D n ltac:(lia)) as H2. cbn beta in H1, H2. cbn [run body].
      eapply goes_bind; [ | apply goes_ret ]. unfold lookup.
      eapply goes_bind; [ apply goes_lift; unfold root; rewrite Hk; reflexivity | ].
      apply String.eqb_neq in Hr. rewrite Hr, Htop. cbn [call_lk].
      eapply goes_bind; [ apply goes_call; exact H1 | ]. apply goes_data.
      eapply goes_bind; [ exact (goes_interp _ _ _ _ _ _ _ B H2) | ]. exact (goes_dig _ _ _ _ _ _ _ Hk Hd).
    (* does *)
    - intros md c o. apply later_now. intro n. apply goes_ret.
    - intros md c k v next o c' _ IH. eapply later_mono; [ | exact IH ]. intros n H. cbn [run_prog].
      eapply goes_bind; [ apply goes_cached | ]. eapply goes_bind; [ apply goes_cache | exact H ].
    - intros md c k next o c' _ IH. eapply later_mono; [ | exact IH ]. intros n H. cbn [run_prog].
      eapply goes_bind; [ apply goes_cached | exact H ].
    - intros md c k next o c' _ IH. eapply later_mono; [ | exact IH ]. intros n H. cbn [run_prog].
      eapply goes_bind; [ apply goes_scope | exact H ].
    - intros md c next o c' _ IH. eapply later_mono; [ | exact IH ]. intros n H. cbn [run_prog].
      eapply goes_bind; [ apply goes_mode | exact H ].
    - intros md c t next o c' _ IH. eapply later_mono; [ | exact IH ]. intros n H. cbn [run_prog].
      eapply goes_bind; [ apply goes_report | exact H ].
    - intros md c v next r o c1 c' _ (b & B & IH1) _ IH2. eapply later_and; [ | exact IH1 | exact IH2 ].
      intros n H1 H2. cbn [run_prog]. eapply goes_bind; [ exact (goes_interp _ _ _ _ _ _ _ B H1) | exact H2 ].
    - intros md c t ps opts next r o c1 c' Hk _ IH1 _ IH2. eapply later_and; [ | exact IH1 | exact IH2 ].
      intros n H1 H2. cbn [run_prog]. eapply goes_bind; [ apply goes_lift; exact (written_key_new _ _ Hk) | ].
      eapply goes_bind; [ exact H1 | exact H2 ].
    (* becomes *)
    - intros md c t r c' _ (b & B & IH). exists b. split; [ exact B | exact IH ].
    - intros md c l l' c' _ (b & B & IH). exists b. split; [ intro Eb; rewrite (B Eb); reflexivity | ].
      eapply later_mono; [ | exact IH ]. intros n H. rewrite do_interp_arr. eapply goes_bind; [ exact H | ]. cbn [fst snd].
      replace (if b then l' else l) with l' by (destruct b; [ reflexivity | exact (B eq_refl) ]). apply goes_ret.
    - intros md c m m' c' W _ (b & B & IH). exists b. split.
      + intro Eb. rewrite (B Eb). rewrite mputall_nil_self by exact W. reflexivity.
      + eapply later_mono; [ | exact IH ]. intros n H. rewrite do_interp_map. eapply goes_bind; [ exact (H []) | ]. cbn [fst snd].
        destruct b; [ apply goes_ret | ]. rewrite (B eq_refl), mputall_nil_self by exact W. apply goes_ret.
    - intros md c v H1 H2 H3. exists false. split; [ reflexivity | ]. apply later_now. intro n.
      destruct v; first [ apply goes_ret | exfalso; eapply H1; reflexivity | exfalso; eapply H2; reflexivity | exfalso; eapply H3; reflexivity ].
    (* arrays *)
    - intros md c. exists false. split; [ reflexivity | ]. apply later_now. intro n. apply goes_ret.
    - intros md c x r l l' c1 c' _ (b1 & B1 & IH1) _ (b2 & B2 & IH2). exists (b1 || b2)%bool. split.
      + intro Eb. apply orb_false_iff in Eb as [Eb1 Eb2]. rewrite (B1 Eb1), (B2 Eb2). reflexivity.
      + eapply later_and; [ | exact IH1 | exact IH2 ]. intros n G1 G2.
        cbn [each_arr]. eapply goes_bind; [ exact G1 | ]. eapply goes_bind; [ exact G2 | ]. cbn [fst snd].
        replace (if b1 then nil_to_null r else x) with (element r); [ apply goes_ret | ].
        destruct b1; [ destruct r; reflexivity | rewrite (B1 eq_refl); reflexivity ].
    (* maps *)
    - intros md c. exists false. split; [ reflexivity | ]. apply later_now. intros n cp. apply goes_ret.
    - intros md c k k' v v' m m' c1 c2 c' _ (b1 & B1 & IH1) _ (b2 & B2 & IH2) _ (b3 & B3 & IH3).
      exists (b1 || b2 || b3)%bool. split.
      + intro Eb. apply orb_false_iff in Eb as [Eb Eb3]. apply orb_false_iff in Eb as [Eb1 Eb2].
        rewrite (B1 Eb1), (B2 Eb2), (B3 Eb3). reflexivity.
      + eapply later_and; [ | exact IH1 | eapply later_and; [ | exact IH2 | exact IH3 ]; intros n G2 G3; exact (conj G2 G3) ].
        intros n G1 [G2 G3] cp. cbn [each_map]. eapply goes_bind; [ exact G1 | ]. eapply goes_bind; [ exact G2 | ].
        cbn [fst snd].
        replace (nil_to_null k') with (element k') by (destruct k'; reflexivity).
        replace (nil_to_null v') with (element v') by (destruct v'; reflexivity).
        eapply goes_bind; [ exact (G3 _) | ]. apply goes_ret.
    (* strings *)
    - intros md c cut rs last c' Hw Hp IH. destruct (contains "%{" (assembled cut last)) eqn:Ec.
      + exists true. split; [ discriminate | ]. eapply later_next; [ | exact IH ]. intros n H.
        cbn [run body]. unfold istr. rewrite Ec. cbn [negb].
        eapply goes_bind; [ | apply goes_ret ]. apply goes_node. rewrite (tokens_cut _ _ Hw).
        destruct (H (assembled cut last) last "" MScope None) as (m & Hm & E); [ discriminate | ].
        eapply goes_bind; [ exact E | ]. cbn. destruct m; try apply goes_ret. congruence.
      + exists false. pose proof Ec as Ec'. apply contains_not in Ec.
        destruct cut as [|[a b] cut]; [ | exfalso; apply Ec; exists a, (b ++ "}" ++ assembled cut last)%string; reflexivity ].
        inversion Hp; subst. split; [ reflexivity | ]. exists 1. intros [|n] Hn; [ lia | ].
        cbn [run body]. unfold istr. rewrite Ec'. apply goes_ret.
    - intros md c e arg ps o c' Hb Hc Hk _ IH. exists true. split; [ discriminate | ].
      eapply later_next; [ | exact IH ]. intros n G. destruct (alone_cut e Hb) as [Hw Ha].
      assert (Ec : contains "%{" ("%{" ++ e ++ "}") = true) by (apply contains_has; exists "", (e ++ "}")%string; reflexivity).
      cbn [run body]. unfold istr. rewrite Ec. cbn [negb].
      eapply goes_bind; [ | apply goes_ret ]. apply goes_node.
      assert (Et : tokens ("%{" ++ e ++ "}") = toks [("", e)] "") by (rewrite <- Ha; apply tokens_cut; exact Hw).
      rewrite Et. clear Et.
      eapply goes_bind with (a := (""%string, MAlias, o)).
      + cbn [toks istr_loop]. rewrite (calls_nonempty _ _ _ Hc).
        eapply goes_bind; [ apply goes_lift; exact (alias_md _ false _ Hc) | ]. cbn [fst snd].
        rewrite String.eqb_refl. cbn [negb andb is_alias].
        eapply goes_bind; [ apply goes_lift; exact (written_key_new _ _ Hk) | ].
        eapply goes_bind; [ exact G | ]. apply goes_ret.
      + destruct o; apply goes_ret.
    - intros md c e arg ps o c' Hb Hc Hk _ IH. exists true. split; [ discriminate | ].
      eapply later_next; [ | exact IH ]. intros n G. destruct (alone_cut e Hb) as [Hw Ha].
      assert (Ec : contains "%{" ("%{" ++ e ++ "}") = true) by (apply contains_has; exists "", (e ++ "}")%string; reflexivity).
      cbn [run body]. unfold istr. rewrite Ec. cbn [negb].
      eapply goes_bind; [ | apply goes_ret ]. apply goes_node.
      assert (Et : tokens ("%{" ++ e ++ "}") = toks [("", e)] "") by (rewrite <- Ha; apply tokens_cut; exact Hw).
      rewrite Et. clear Et.
      eapply goes_bind with (a := (""%string, MStrictAlias, o)).
      + cbn [toks istr_loop]. rewrite (calls_nonempty _ _ _ Hc).
        eapply goes_bind; [ apply goes_lift; exact (alias_md _ true _ Hc) | ]. cbn [fst snd].
        rewrite String.eqb_refl. cbn [negb andb is_alias].
        eapply goes_bind; [ apply goes_lift; exact (written_key_new _ _ Hk) | ].
        eapply goes_bind; [ exact G | ]. apply goes_ret.
      + destruct o; apply goes_ret.
    (* parts *)
    - intros md c. apply later_now. intros n str last acc m result Hm. exists m. split; [ exact Hm | apply goes_ret ].
    - intros md c t e r cut rs c1 c' _ IH1 _ IH2. eapply later_and; [ | exact IH1 | exact IH2 ].
      intros n G1 G2 str last acc m result Hm. cbn [toks].
      destruct (G1 str (toks cut last) (acc ++ t)%string m result Hm) as (m1 & Hm1 & E).
      destruct (G2 str last ((acc ++ t) ++ r)%string m1 result Hm1) as (m2 & Hm2 & E2).
      exists m2. split; [ exact Hm2 | ]. pose proof (goes_steps _ _ _ _ _ _ _ _ E E2) as E3. cbn [filled].
      replace (acc ++ t ++ r ++ filled cut rs last)%string with (((acc ++ t) ++ r) ++ filled cut rs last)%string
        by (rewrite !app_assoc_s; reflexivity).
      exact E3.
    (* expressions *)
    - intros md c e Hin. apply later_now. intros n str ts acc m result Hm. cbn [istr_loop].
      rewrite (empty_interpolation_is _ Hin). exists m. rewrite app_nil_s. split; [ exact Hm | apply steps_refl ].
    - intros md c e arg Hc. apply later_now. intros n str ts acc m result Hm. cbn [istr_loop].
      rewrite (calls_nonempty _ _ _ Hc). exists MLiteral. split; [ discriminate | ].
      eapply steps_bind; [ apply goes_lift; exact (calls_md _ _ _ Hc) | apply steps_refl ].
    - intros md c e arg x ps Hin Ha Hk Hg. apply later_now. intros n str ts acc m result Hm. cbn [istr_loop].
      rewrite (empty_interpolation_out _ Hin). exists MScope. split; [ discriminate |  ].
      eapply steps_bind; [ apply goes_lift; exact (asks_scope_md _ _ _ Ha) | ].
      cbn [fst snd is_alias andb]. eapply steps_bind with (a := None); [ | apply steps_refl ].
      intros s Hs. exists s. split; [ | exact Hs ]. apply (in_scope_unset _ _ _ _ _ _ Hk).
      destruct Hs as (_ & -> & _). exact Hg.
    - intros md c e arg x ps v r o c' Hin Ha Hk Hg _ (b & B & IH) Hd. eapply later_mono; [ | exact IH ].
      intros n G str ts acc m result Hm. cbn [istr_loop].
      rewrite (empty_interpolation_out _ Hin). exists MScope. split; [ discriminate |  ].
      eapply steps_bind; [ apply goes_lift; exact (asks_scope_md _ _ _ Ha) | ].
      cbn [fst snd is_alias andb]. eapply steps_bind with (a := o); [ | apply steps_refl ].
      unfold in_scope. eapply goes_bind; [ apply goes_lift; exact (written_key_new _ _ Hk) | ].
      eapply goes_bind; [ apply goes_lift; reflexivity | ]. eapply goes_bind; [ apply goes_scope | ].
      rewrite Hg. eapply goes_bind; [ exact G | ]. cbn [fst]. eapply goes_dig; [ reflexivity | exact Hd ].
    - intros md c e nm arg ps o c' Hc Hn Hk _ IH. eapply later_mono; [ | exact IH ].
      intros n G str ts acc m result Hm. cbn [istr_loop].
      rewrite (calls_nonempty _ _ _ Hc). exists MLookup. split; [ discriminate | ].
      eapply steps_bind; [ apply goes_lift; rewrite (calls_md _ _ _ Hc); destruct Hn as [-> | ->]; reflexivity | ].
      cbn [fst snd is_alias andb].
      eapply steps_bind; [ apply goes_lift; exact (written_key_new _ _ Hk) | ].
      eapply steps_bind; [ exact G | apply steps_refl ].
  Qed.
End Exact.
