(** Sessions whose top provider reads no configuration (towards C84). *)

From Coq Require Import String Ascii List ZArith Bool Arith Lia.
From Verif Require Import Str Value Outcome Key Merge Fpath Config Ipl Explain State Engine Meta Fuel Session
  SpecKey SpecKeyErr SpecIpl SpecInterp SpecConfig SpecMerge SpecPath SpecLookup SpecFail SpecWorld SpecTop
  KeyFacts KeyErrFacts ValueFacts MergeFacts MergeLookup StrFacts IplFacts InterpFacts IplExact ResolveFacts
  LookupExact FailExact FailText Acyclic Cycles Decided DecidedLevels.
Import ListNotations.
Open Scope nat_scope.
Open Scope string_scope.
Open Scope list_scope.

(** ** What every lookup leaves as it is *)

Definition keeps {A} (I : st -> Prop) (m : M st A) : Prop := forall s, I s -> I (snd (m s)).

Section Keeps.
  Variable I : st -> Prop.
  (** What is said does not depend on the invocation or the explainer. *)
  Hypothesis Iiv : forall i s, I s -> I (with_iv i s).
  Hypothesis Iex : forall x s, I s -> I (with_ex x s).
  Variable w : world.

  Lemma keeps_ret A (a : A) : keeps I (ret a).
  Proof. intros s H. exact H. Qed.
  Lemma keeps_lift A (o : outcome A) : keeps I (lift o).
  Proof. intros s H. exact H. Qed.
  Lemma keeps_panic A e : keeps I (panic e : M st A).
  Proof. intros s H. exact H. Qed.
  Lemma keeps_bind A B (m : M st A) (f : A -> M st B) : keeps I m -> (forall a, keeps I (f a)) -> keeps I (bind m f).
  Proof.
    intros Hm Hf s H. unfold bind. specialize (Hm s H). destruct (m s) as [[a|x| |] s']; cbn [snd] in *; [ apply Hf | | | ]; exact Hm.
  Qed.
  Lemma keeps_node A k i (m : M st A) : keeps I m -> keeps I (run_scoped (SNode k i) m).
  Proof.
    intros Hm s H. unfold run_scoped. destruct (iv_expl (s_iv s)); [ | exact (Hm s H) ].
    destruct (xpush k i (s_ex s)) as [x|]; [ | apply Iex; exact H ].
    specialize (Hm (with_ex x s) (Iex x s H)). destruct (m (with_ex x s)) as [o s']. cbn [snd] in *. apply Iex. exact Hm.
  Qed.
  Lemma keeps_data A (m : M st A) : keeps I m -> keeps I (run_scoped SData m).
  Proof.
    intros Hm s H. unfold run_scoped.
    assert (C : forall f, I (snd (with_copy f m s))).
    { intro f. unfold with_copy. specialize (Hm (with_iv (f (s_iv s)) s) (Iiv _ s H)).
      destruct (m (with_iv (f (s_iv s)) s)) as [o s']. cbn [snd] in *. apply Iiv. exact Hm. }
    destruct (iv_mode (s_iv s)); first [ apply C | exact (Hm s H) ].
  Qed.
  Lemma keeps_report r : keeps I (run_op (OReport r)).
  Proof. intros s H. unfold run_op. destruct (iv_expl (s_iv s)); [ | exact H ]. cbn. repeat match goal with |- context [match ?x with _ => _ end] => destruct x end; cbn; try apply Iex; exact H. Qed.
  Lemma keeps_scope : keeps I (run_op OScope).
  Proof. intros s H. exact H. Qed.

  Variable rec : req -> M st res.
  Hypothesis Hrec : forall t, keeps I (rec (RStr t true)).
  Hypothesis Hkey : forall k, keeps I (rec (RLookup k None)).

  Ltac walk := repeat first
    [ apply keeps_ret | apply keeps_lift | apply keeps_panic | apply keeps_report | apply keeps_scope | apply keeps_node | apply Hkey
    | (apply keeps_bind; [ | intro ]) | match goal with |- keeps I (match ?x with _ => _ end) => destruct x end ].

  Lemma keeps_do_interp : forall v, keeps I (do_interp rec true v).
  Proof.
    fix IH 1. intro v. destruct v as [|b|z|z|t|l|m|v]; simpl; try apply keeps_ret; try apply Hrec.
    - apply keeps_bind; [ | intro; apply keeps_ret ]. induction l as [|x l IHl]; [ apply keeps_ret | ].
      apply keeps_bind; [ apply IH | intro ]. apply keeps_bind; [ exact IHl | intro; apply keeps_ret ].
    - apply keeps_bind; [ | intro; apply keeps_ret ]. generalize (@nil (value * value)).
      induction m as [|[k v] m IHm]; intro cp; [ apply keeps_ret | ].
      apply keeps_bind; [ apply IH | intro ]. apply keeps_bind; [ apply IH | intro ]. apply keeps_bind; [ apply IHm | intro; apply keeps_ret ].
  Qed.
  Lemma keeps_interpolate v : keeps I (interpolate rec true v).
  Proof. unfold interpolate. apply keeps_bind; [ apply keeps_do_interp | intro; walk ]. Qed.
  Lemma keeps_dig_loop : forall ps v, keeps I (dig_loop ps v).
  Proof. induction ps as [|p ps IH]; intro v; simpl; [ walk | ]. unfold dig_step. walk; try apply IH. Qed.
  Lemma keeps_dig k v : keeps I (dig_in k v).
  Proof. unfold dig_in. destruct (tl (k_parts k)); walk; try apply keeps_dig_loop. Qed.
  Lemma keeps_in_scope e : keeps I (in_scope rec true e).
  Proof. unfold in_scope. walk; first [ apply keeps_do_interp | apply keeps_dig ]. Qed.
  Lemma keeps_istr_loop t : forall ts acc m result, keeps I (istr_loop w rec t true ts acc m result).
  Proof.
    induction ts as [|tk ts IH]; intros acc m result; cbn [istr_loop]; [ apply keeps_ret | ].
    destruct tk as [l|e]; [ apply IH | ]. destruct (empty_interpolation (trim_space e)); [ apply IH | ].
    apply keeps_bind; [ walk | intro md ].
    destruct (is_alias (fst md) && negb (String.eqb ("%{" ++ e ++ "}") t)); [ walk | ].
    destruct (fst md); walk; first [ apply keeps_do_interp | apply keeps_dig | apply IH ].
  Qed.
  Lemma keeps_istr t : keeps I (istr w rec t true).
  Proof. unfold istr. destruct (negb (contains "%{" t)); [ apply keeps_ret | ]. walk. apply keeps_istr_loop. Qed.

  Lemma keeps_lookup k opts : (forall r, keeps I (call_lk w rec (w_top w) (match opts with Some o => o | None => [] end) r)) ->
    keeps I (lookup w rec k opts).
  Proof.
    intro Ht. unfold lookup. apply keeps_bind; [ apply keeps_lift | intro r ]. destruct (String.eqb r "lookup_options"); [ walk | ].
    apply keeps_bind; [ apply Ht | intro v ]. destruct v; [ | apply keeps_ret ].
    apply keeps_data. apply keeps_bind; [ apply keeps_interpolate | intro; apply keeps_dig ].
  Qed.
End Keeps.

Lemma keeps_run (I : st -> Prop) w : (forall i s, I s -> I (with_iv i s)) -> (forall x s, I s -> I (with_ex x s)) ->
  (forall rec opts r, keeps I (call_lk w rec (w_top w) opts r)) ->
  forall n, (forall t, keeps I (run w n (RStr t true))) /\ (forall k opts, keeps I (run w n (RLookup k opts))).
Proof.
  intros Iiv Iex Ht. induction n as [|n [IH1 IH2]]; [ split; intros; intros s H; exact H | ]. split.
  - intro t. cbn [run body]. apply (keeps_istr I Iex w (run w n)); [ exact IH1 | intro k; apply IH2 ].
  - intros k opts. cbn [run body]. apply keeps_bind; [ | intro; apply keeps_ret ].
    apply (keeps_lookup I Iiv Iex w (run w n)); [ exact IH1 | intros r; apply Ht ].
Qed.

(** ** The description *)

Section Top.
  Variables (w : world) (src : entries + err).
  Hypothesis Htop : plain_top (w_top w).
  Hypothesis Hsrc : w_top w = LkYaml -> yaml_source w src.
  Hypothesis Hcall : forall f a, (exists v, (forall t, w_call w t f a = PRet v) /\ tidy v) \/ (exists x, forall t, w_call w t f a = PPanic x).
  Variable sh : list (string * shared).

  (** The file has not been read yet, or what was read is kept. *)
  Definition cached (s : st) : Prop := w_top w = LkYaml ->
    match src with
    | inl m => (aget "yaml::data" (s_tpc s) = None /\ ~ In (EvYaml (yaml_path w)) (s_trace s)) \/ aget "yaml::data" (s_tpc s) = Some (VMap m)
    | inr _ => aget "yaml::data" (s_tpc s) = None
    end.
  Definition same (s : st) : Prop := s_shared s = sh /\ cached s.

  Lemma same_iv i s : same s -> same (with_iv i s).
  Proof. intro H. exact H. Qed.
  Lemma same_ex x s : same s -> same (with_ex x s).
  Proof. intro H. exact H. Qed.

  Lemma file_run s : file_data w false [(VStr "path", nil_to_null (w_yamlpath w))] s =
    (match w_yaml w (s_trace s) (yaml_path w) with
     | DfMissing => Ok []
     | DfError e => Panic e
     | DfValue (VMap m) => Ok m
     | DfValue _ => Panic (EErr ("file '" ++ yaml_path w ++ "' does not contain a YAML hash"))
     end, with_trace (s_trace s ++ [EvYaml (yaml_path w)])%list s).
  Proof.
    unfold file_data. cbn [mgets mget veq String.eqb Ascii.eqb Bool.eqb].
    change (vstring w (nil_to_null (w_yamlpath w))) with (yaml_path w).
    unfold ask, bind, run_op, ret. destruct (w_yaml w (s_trace s) (yaml_path w)) as [|e|[]]; reflexivity.
  Qed.

  Lemma yaml_run key s : w_top w = LkYaml -> same s ->
    exists s', yaml_lookup w key s = (match src with inl m => Ok (mgets key m) | inr x => Panic x end, s') /\ same s' /\ s_iv s' = s_iv s.
  Proof.
    intros Ht [Hs Hc]. pose proof (Hc Ht) as Hd. pose proof (Hsrc Ht) as Y. unfold yaml_lookup. unfold bind at 1. unfold run_op at 1.
    unfold same, cached. destruct src as [m|x].
    - destruct Hd as [[Hd Hn]|Hd]; rewrite Hd.
      + inversion Y as [m0 Hm|]; subst m0. specialize (Hm _ Hn).
        unfold bind at 1. unfold bind at 1. rewrite file_run.
        assert (E : match w_yaml w (s_trace s) (yaml_path w) with
             | DfMissing => Ok [] | DfError e => Panic e | DfValue (VMap m) => Ok m
             | DfValue _ => Panic (EErr ("file '" ++ yaml_path w ++ "' does not contain a YAML hash")) end = Ok m)
          by (inversion Hm; reflexivity).
        rewrite E. eexists. split; [ reflexivity | ]. split; [ | reflexivity ]. split; [ exact Hs | ]. intros _. right. reflexivity.
      + eexists. split; [ reflexivity | ]. split; [ | reflexivity ]. split; [ exact Hs | ]. intros _. right. exact Hd.
    - rewrite Hd. inversion Y as [|x0 Hx]; subst x0. specialize (Hx (s_trace s)).
      unfold bind at 1. unfold bind at 1. rewrite file_run.
      assert (E : match w_yaml w (s_trace s) (yaml_path w) with
             | DfMissing => Ok [] | DfError e => Panic e | DfValue (VMap m) => Ok m
             | DfValue _ => Panic (EErr ("file '" ++ yaml_path w ++ "' does not contain a YAML hash")) end = Panic x).
      { inversion Hx as [e Ee|v Hv Ev]; [ reflexivity | ]. destruct v; try reflexivity. destruct (Hv m eq_refl). }
      rewrite E. eexists. split; [ reflexivity | ]. split; [ | reflexivity ]. split; [ exact Hs | ]. intros _. exact Hd.
  Qed.

  Lemma top_keeps rec opts r : keeps same (call_lk w rec (w_top w) opts r).
  Proof.
    intros s H. pose proof Htop as Hp. pose proof (yaml_run r s) as YR. remember (w_top w) as tp eqn:Et. destruct Hp as [| | |f]; cbn [call_lk].
    - exact H.
    - exact H.
    - destruct (YR eq_refl H) as (s' & -> & Hs' & _). exact Hs'.
    - assert (K : same (with_trace (s_trace s ++ [EvCall (FnTop f) (ALookupKey opts r)])%list s)).
      { destruct H as [H _]. split; [ exact H | ]. intro E. congruence. }
      unfold call_fn, ask, bind, run_op, ret. destruct (Hcall (FnTop f) (ALookupKey opts r)) as [(v & Hv & _)|(x & Hx)].
      + rewrite Hv. exact K.
      + rewrite Hx. exact K.
  Qed.

  Lemma keeps_requests n k opts : keeps same (run w n (RLookup k opts)).
  Proof. exact (proj2 (keeps_run same w same_iv same_ex top_keeps n) k opts). Qed.

  (** ** Runs *)

  Section Scope.
    Variable sc : scope.
    Definition ready (s : st) : Prop := off s /\ iv_scope (s_iv s) = sc /\ same s.
    Lemma ready_off s : ready s -> off s.
    Proof. intros (H & _). exact H. Qed.
    Lemma ready_scope s : ready s -> iv_scope (s_iv s) = sc.
    Proof. intros (_ & H & _). exact H. Qed.
    Lemma ready_shared s : ready s -> s_shared s = sh.
    Proof. intros (_ & _ & H & _). exact H. Qed.

    Lemma top_yields rec opts r v : top_has w sc src opts r (w_top w) v -> yields ready (call_lk w rec (w_top w) opts r) v.
    Proof.
      intros H s Hs. pose proof Hs as (Ho & Hsc & Hr). pose proof (yaml_run r s) as YR. remember (w_top w) as tp eqn:Et.
      destruct H as [| |m Em|f v Hv]; cbn [call_lk].
      - exists s. auto.
      - exists s. unfold scope_lookup, bind, run_op, ret. rewrite Hsc. auto.
      - destruct (YR eq_refl Hr) as (s' & E & Hs' & Hi). rewrite Em in E. exists s'. split; [ exact E | ].
        split; [ unfold off; rewrite Hi; exact Ho | ]. split; [ rewrite Hi; exact Hsc | exact Hs' ].
      - unfold call_fn, ask, bind, run_op, ret. rewrite Hv. eexists. split; [ reflexivity | ]. split; [ exact Ho | ]. split; [ exact Hsc | ].
        destruct Hr as [Hr _]. split; [ exact Hr | ]. intro E. congruence.
    Qed.

    Lemma top_breaks_run rec opts r x : SpecTop.top_fails w src opts r (w_top w) x -> breaks sh ready (call_lk w rec (w_top w) opts r) x.
    Proof.
      intros H s Hs. pose proof Hs as (Ho & Hsc & Hr). pose proof (yaml_run r s) as YR. remember (w_top w) as tp eqn:Et.
      destruct H as [x Ex|f x Hx]; cbn [call_lk].
      - destruct (YR eq_refl Hr) as (s' & E & Hs' & Hi). rewrite Ex in E. exists s'. split; [ exact E | ]. exact (proj1 Hs').
      - unfold call_fn, ask, bind, run_op, ret. rewrite Hx. eexists. split; [ reflexivity | ]. exact (proj1 Hr).
    Qed.

    Lemma yields_data A (m : M st A) a : yields ready m a -> yields ready (run_scoped SData m) a.
    Proof.
      intros Hm s Hs. pose proof Hs as (Ho & Hsc & Hr).
      assert (C : forall f, (forall i, iv_expl i = false -> iv_expl (f i) = false) -> (forall i, iv_scope (f i) = iv_scope i) ->
                exists s', with_copy f m s = (Ok a, s') /\ ready s').
      { intros f F1 F2. unfold with_copy. destruct (Hm (with_iv (f (s_iv s)) s)) as (s' & -> & _ & _ & Hs').
        - split; [ exact (F1 _ Ho) | ]. split; [ cbn; rewrite F2; exact Hsc | exact Hr ].
        - eexists. split; [ reflexivity | ]. split; [ exact Ho | ]. split; [ exact Hsc | exact Hs' ]. }
      unfold run_scoped. destruct (iv_mode (s_iv s)); try exact (Hm s Hs);
        (apply C; [ intros i E; cbn; rewrite E; reflexivity | reflexivity ]).
    Qed.

    Lemma breaks_data A (m : M st A) x : breaks sh ready m x -> breaks sh ready (run_scoped SData m) x.
    Proof.
      intros Hm s Hs. pose proof Hs as (Ho & Hsc & Hr).
      assert (C : forall f, (forall i, iv_expl i = false -> iv_expl (f i) = false) -> (forall i, iv_scope (f i) = iv_scope i) ->
                exists s', with_copy f m s = (Panic x, s') /\ s_shared s' = sh).
      { intros f F1 F2. unfold with_copy. destruct (Hm (with_iv (f (s_iv s)) s)) as (s' & -> & Hs').
        - split; [ exact (F1 _ Ho) | ]. split; [ cbn; rewrite F2; exact Hsc | exact Hr ].
        - eexists. split; [ reflexivity | exact Hs' ]. }
      unfold run_scoped. destruct (iv_mode (s_iv s)); try exact (Hm s Hs);
        (apply C; [ intros i E; cbn; rewrite E; reflexivity | reflexivity ]).
    Qed.

    Lemma div_data A (m : M st A) : diverges ready m -> diverges ready (run_scoped SData m).
    Proof.
      intros Hm s Hs. pose proof Hs as (Ho & Hsc & Hr).
      assert (C : forall f, (forall i, iv_expl i = false -> iv_expl (f i) = false) -> (forall i, iv_scope (f i) = iv_scope i) ->
                fst (with_copy f m s) = NoFuel).
      { intros f F1 F2. unfold with_copy. assert (E : fst (m (with_iv (f (s_iv s)) s)) = NoFuel).
        - apply Hm. split; [ exact (F1 _ Ho) | ]. split; [ cbn; rewrite F2; exact Hsc | exact Hr ].
        - destruct (m (with_iv (f (s_iv s)) s)) as [o s']. exact E. }
      unfold run_scoped. destruct (iv_mode (s_iv s)); try exact (Hm s Hs);
        (apply C; [ intros i E; cbn; rewrite E; reflexivity | reflexivity ]).
    Qed.

    Section Step.
      Variable rec : req -> M st res.
      Variable string_is : string -> option value -> Prop.
      Hypothesis Hstr : forall t o, string_is t o ->
        exists b, (b = false -> o = Some (VStr t)) /\ yields ready (rec (RStr t true)) (o, b).
      Variable string_fails : string -> err -> Prop.
      Hypothesis Hsf : forall t x, string_fails t x -> breaks sh ready (rec (RStr t true)) x.

      Lemma lookup_yields k opts o :
        key_gives w sc src string_is (match opts with Some l => l | None => [] end) k o -> yields ready (lookup w rec k opts) o.
      Proof.
        intro H. unfold lookup. inversion H as [ps Hk|r ps Hk Hr Hv|r ps v y o' Hk Hr Hv Hy Hd]; subst.
        - eapply yields_bind with (a := "lookup_options"); [ apply yields_lift; unfold root; rewrite Hk; reflexivity | ].
          cbn [String.eqb Ascii.eqb Bool.eqb]. apply (yields_node ready ready_off).
          eapply yields_bind; [ apply (yields_report ready ready_off) | apply yields_ret ].
        - apply String.eqb_neq in Hr. eapply yields_bind with (a := r); [ apply yields_lift; unfold root; rewrite Hk; reflexivity | ]. rewrite Hr.
          eapply yields_bind; [ apply top_yields; exact Hv | apply yields_ret ].
        - apply String.eqb_neq in Hr. eapply yields_bind with (a := r); [ apply yields_lift; unfold root; rewrite Hk; reflexivity | ]. rewrite Hr.
          eapply yields_bind; [ apply top_yields; exact Hv | ]. apply yields_data.
          eapply yields_bind; [ exact (yields_interpolate ready rec string_is Hstr v y Hy) | ].
          destruct k as [t parts]. cbn in Hk. rewrite Hk. apply (digs_dig ready ready_off). exact Hd.
      Qed.

      Lemma lookup_breaks k opts x :
        key_breaks w sc src string_is string_fails (match opts with Some l => l | None => [] end) k x -> breaks sh ready (lookup w rec k opts) x.
      Proof.
        intro H. unfold lookup. destruct H as [r ps Hk Hr Hx|r ps v Hk Hr Hv Hx];
          apply String.eqb_neq in Hr; (eapply breaks_after with (a := r); [ apply yields_lift; unfold root; rewrite Hk; reflexivity | ]); rewrite Hr.
        - apply breaks_now. apply top_breaks_run. exact Hx.
        - eapply breaks_after; [ apply top_yields; exact Hv | ]. apply breaks_data. apply breaks_now.
          exact (breaks_interpolate sh ready rec string_is Hstr string_fails Hsf v x Hx).
      Qed.

      Hypothesis Dval : forall v, wf v = true ->
        (exists o, value_is string_is v o /\ tidy o) \/ (exists x, value_fails string_is string_fails v x) \/ diverges ready (interpolate rec true v).
      Hypothesis Wsrc : forall m, src = inl m -> wf (VMap m) = true.
      Hypothesis Hvars : forall x v, scope_get sc x = Some v -> wf v = true.

      Lemma top_decided opts r :
        (exists v, top_has w sc src opts r (w_top w) v /\ tidy v) \/ (exists x, SpecTop.top_fails w src opts r (w_top w) x).
      Proof.
        destruct Htop as [| | |f].
        - left. eexists. split; [ apply th_environment | ]. apply tidy_environment.
        - left. eexists. split; [ apply th_scope | ]. intros v E. exact (Hvars r v E).
        - destruct src as [m|x] eqn:Es.
          + left. eexists. split; [ apply th_yaml; reflexivity | ]. intros v E. exact (tidy_get r m v (Wsrc m eq_refl) E).
          + right. exists x. apply tf_yaml. reflexivity.
        - destruct (Hcall (FnTop f) (ALookupKey opts r)) as [(v & Hv & T)|(x & Hx)].
          + left. exists v. split; [ apply th_user; exact Hv | exact T ].
          + right. exists x. apply tf_user. exact Hx.
      Qed.

      Lemma lookup_settled k opts r ps : k_parts k = PStr r :: ps ->
        (exists o, key_gives w sc src string_is (match opts with Some l => l | None => [] end) k o /\ tidy o) \/
        (exists x, key_breaks w sc src string_is string_fails (match opts with Some l => l | None => [] end) k x) \/
        diverges ready (lookup w rec k opts).
      Proof.
        intro Hk. destruct (string_dec r "lookup_options") as [->|Hr].
        { left. exists None. split; [ eapply kg_options; exact Hk | exact tidy_none ]. }
        destruct (top_decided (match opts with Some l => l | None => [] end) r) as [(v & Hv & T)|(x & Hx)];
          [ | right; left; exists x; eapply kb_source; eassumption ].
        destruct v as [v|]; [ | left; exists None; split; [ eapply kg_none; eassumption | exact tidy_none ] ].
        destruct (Dval v (T v eq_refl)) as [(y & Hy & Ty)|[(x & Hx)|Hx]].
        - left. destruct (digs_total ps y) as (o & Ho). exists o. split; [ eapply kg_value; eassumption | exact (tidy_digs ps y o Ho Ty) ].
        - right. left. exists x. eapply kb_value; eassumption.
        - right. right. unfold lookup. apply String.eqb_neq in Hr.
          eapply div_after with (a := r); [ apply yields_lift; unfold root; rewrite Hk; reflexivity | ]. rewrite Hr.
          eapply div_after; [ apply top_yields; exact Hv | ]. apply div_data. apply div_bind. exact Hx.
      Qed.
    End Step.

    Lemma gives_run : forall n q o, top_gives w sc src n q o ->
      match q with
      | QStr t => exists b, (b = false -> o = Some (VStr t)) /\ yields ready (run w n (RStr t true)) (o, b)
      | QKey k => exists b, yields ready (run w n (RLookup k None)) (o, b)
      end.
    Proof.
      induction n as [|n IH]; intros q o H; [ destruct H | ]. cbn [top_gives] in H. destruct q as [t|k]; cbn [run body].
      - apply (yields_string w sc ready ready_off ready_scope (run w n) (fun t => top_gives w sc src n (QStr t)) (fun k => top_gives w sc src n (QKey k)));
          [ intros t' o' H'; exact (IH (QStr t') o' H') | intros k o' H'; exact (IH (QKey k) o' H') | exact H ].
      - exists true. eapply yields_bind; [ | apply yields_ret ].
        apply (lookup_yields (run w n) (fun t => top_gives w sc src n (QStr t))); [ intros t' o' H'; exact (IH (QStr t') o' H') | exact H ].
    Qed.

    Lemma breaks_run : forall n q x, top_breaks w sc src n q x ->
      match q with
      | QStr t => breaks sh ready (run w n (RStr t true)) x
      | QKey k => breaks sh ready (run w n (RLookup k None)) x
      end.
    Proof.
      induction n as [|n IH]; intros q x H; [ destruct H | ]. cbn [top_breaks] in H. destruct q as [t|k]; cbn [run body].
      - apply (breaks_string w sc sh ready ready_off ready_scope ready_shared (run w n)
                 (fun t => top_gives w sc src n (QStr t)) (fun k => top_gives w sc src n (QKey k))
                 (fun t o H' => gives_run n (QStr t) o H') (fun k o H' => gives_run n (QKey k) o H')
                 (fun t => top_breaks w sc src n (QStr t)) (fun k => top_breaks w sc src n (QKey k))
                 (fun t x H' => IH (QStr t) x H') (fun k x H' => IH (QKey k) x H')). exact H.
      - apply breaks_now.
        apply (lookup_breaks (run w n) (fun t => top_gives w sc src n (QStr t)) (fun t o H' => gives_run n (QStr t) o H')
                 (fun t => top_breaks w sc src n (QStr t)) (fun t x H' => IH (QStr t) x H')). exact H.
    Qed.

    Hypothesis Wsrc : forall m, src = inl m -> wf (VMap m) = true.
    Hypothesis Hvars : forall x v, scope_get sc x = Some v -> wf v = true.

    Lemma all_decided : forall n,
      (forall t, (exists o, top_gives w sc src n (QStr t) o /\ tidy o) \/ (exists x, top_breaks w sc src n (QStr t) x) \/
         diverges ready (run w n (RStr t true))) /\
      (forall k r ps, k_parts k = PStr r :: ps -> (exists o, top_gives w sc src n (QKey k) o /\ tidy o) \/ (exists x, top_breaks w sc src n (QKey k) x) \/
         diverges ready (run w n (RLookup k None))).
    Proof.
      induction n as [|n [IH1 IH2]].
      { split; [ intro t | intros k r ps _ ]; right; right; intros s _; reflexivity. }
      split.
      - intro t. exact (string_decided w sc ready ready_off ready_scope (run w n)
          (fun t => top_gives w sc src n (QStr t)) (fun k => top_gives w sc src n (QKey k))
          (fun t o H' => gives_run n (QStr t) o H') (fun k o H' => gives_run n (QKey k) o H')
          (fun t => top_breaks w sc src n (QStr t)) (fun k => top_breaks w sc src n (QKey k)) IH1 IH2 Hvars t).
      - intros k r ps Hk.
        destruct (lookup_settled (run w n) (fun t => top_gives w sc src n (QStr t)) (fun t => top_breaks w sc src n (QStr t))
                    (interpolate_decided ready (run w n) (fun t => top_gives w sc src n (QStr t)) (fun t o H' => gives_run n (QStr t) o H')
                       (fun t => top_breaks w sc src n (QStr t)) IH1) Wsrc Hvars k None r ps Hk) as [H|[H|H]]; [ left; exact H | right; left; exact H | ].
        right. right. cbn [run body]. apply div_bind. exact H.
    Qed.
  End Scope.
End Top.
