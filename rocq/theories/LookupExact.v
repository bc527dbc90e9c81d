(** The engine gives what the specification of lookups says. *)

From Coq Require Import String Ascii List ZArith Bool Arith Lia.
From Verif Require Import Str Value Outcome Key Merge Fpath Config Ipl Explain State Engine Meta Fuel
  SpecKey SpecIpl SpecInterp SpecConfig SpecMerge SpecLookup
  KeyFacts ValueFacts MergeFacts MergeLookup StrFacts IplFacts InterpFacts IplExact ResolveFacts.
Import ListNotations.
Open Scope nat_scope.
Open Scope string_scope.
Open Scope list_scope.

(** Code that gives a value and keeps an invariant. *)
Definition yields {A} (P : st -> Prop) (m : M st A) (a : A) : Prop :=
  forall s, P s -> exists s', m s = (Ok a, s') /\ P s'.

Lemma yields_ret P A (a : A) : yields P (ret a) a.
Proof. intros s H. exists s. auto. Qed.
Lemma yields_lift P A (a : A) o : o = Ok a -> yields P (lift o) a.
Proof. intros -> s H. exists s. auto. Qed.
Lemma yields_bind P A B (m : M st A) (f : A -> M st B) a b : yields P m a -> yields P (f a) b -> yields P (bind m f) b.
Proof.
  intros Hm Hf s H. destruct (Hm s H) as (s1 & E1 & H1). destruct (Hf s1 H1) as (s2 & E2 & H2).
  exists s2. unfold bind. rewrite E1. auto.
Qed.

Section Values.
  Variables (w : world) (sc : scope) (P : st -> Prop).
  Hypothesis Poff : forall s, P s -> off s.
  Hypothesis Psc : forall s, P s -> iv_scope (s_iv s) = sc.

  Lemma yields_node A k i (m : M st A) a : yields P m a -> yields P (run_scoped (SNode k i) m) a.
  Proof. intros H s Hs. rewrite node_off by exact (Poff s Hs). exact (H s Hs). Qed.
  Lemma yields_report r : yields P (run_op (OReport r)) tt.
  Proof. intros s Hs. rewrite report_off by exact (Poff s Hs). exists s. auto. Qed.
  Lemma yields_scope : yields P (run_op OScope) sc.
  Proof. intros s Hs. exists s. split; [ | exact Hs ]. unfold run_op. rewrite (Psc s Hs). reflexivity. Qed.

  Lemma digs_dig arg x ps r o : digs ps r o -> yields P (dig_in (mk_key arg (PStr x :: ps)) r) o.
  Proof.
    intros H s Hs. exists s. split; [ | exact Hs ]. pose proof (Poff s Hs) as Ho.
    destruct H as [|v y Hp|v Hp].
    - apply dig_in_none. exact Ho.
    - rewrite dig_in_off by exact Ho. unfold dig. cbn [k_parts tl]. apply dig_parts_path in Hp. rewrite Hp. reflexivity.
    - rewrite dig_in_off by exact Ho. unfold dig. cbn [k_parts tl].
      destruct (dig_parts ps v) as [y|] eqn:E; [ apply dig_parts_path in E; destruct (Hp _ E) | reflexivity ].
  Qed.

  Variable rec : req -> M st res.
  Variable string_is : string -> option value -> Prop.
  Variable lookup_is : key -> option value -> Prop.
  Hypothesis Hstr : forall t o, string_is t o ->
    exists b, (b = false -> o = Some (VStr t)) /\ yields P (rec (RStr t true)) (o, b).
  Hypothesis Hlook : forall k o, lookup_is k o -> exists b, yields P (rec (RLookup k None)) (o, b).

  Lemma yields_do_interp : forall v o, value_is string_is v o ->
    exists b, (b = false -> o = Some v) /\ yields P (do_interp rec true v) (o, b).
  Proof.
    fix IH 1. intros v o H. destruct v as [|x|z|z|t|l|m|v].
    all: try (inversion H; subst; exists false; split; [ reflexivity | apply yields_ret ]; fail).
    - inversion H as [t0 r Ht| | |v H1 _ _]; subst; [ | destruct (H1 t eq_refl) ]. exact (Hstr t o Ht).
    - inversion H as [|l0 l' Hl| |v _ H1 _]; subst; [ | destruct (H1 l eq_refl) ]. clear H.
      assert (Q : exists b, (b = false -> l' = l) /\ yields P (each_arr rec true l) (l', b)).
      { induction l as [|x l IHl] in l', Hl |- *; inversion Hl as [|? y ? l1 Hx Hr]; subst.
        - exists false. split; [ reflexivity | apply yields_ret ].
        - destruct Hx as (r & Hx & ->). destruct (IH x r Hx) as (b1 & B1 & G1). destruct (IHl l1 Hr) as (b2 & B2 & G2).
          exists (b1 || b2)%bool. split.
          + intro Eb. apply orb_false_iff in Eb as [Eb1 Eb2]. rewrite (B1 Eb1), (B2 Eb2). reflexivity.
          + cbn [each_arr]. eapply yields_bind; [ exact G1 | ]. eapply yields_bind; [ exact G2 | ]. cbn [fst snd].
            replace (if b1 then nil_to_null r else x) with (element r); [ apply yields_ret | ].
            destruct b1; [ destruct r; reflexivity | rewrite (B1 eq_refl); reflexivity ]. }
      destruct Q as (b & B & G). exists b. split; [ intro Eb; rewrite (B Eb); reflexivity | ].
      rewrite do_interp_arr. eapply yields_bind; [ exact G | ]. cbn [fst snd].
      replace (if b then l' else l) with l' by (destruct b; [ reflexivity | exact (B eq_refl) ]). apply yields_ret.
    - inversion H as [| |m0 m' W Hm|v _ _ H1]; subst; [ | destruct (H1 m eq_refl) ]. clear H.
      assert (Q : forall cp, exists b, (b = false -> m' = m) /\ yields P (each_map rec true m cp) (mputall cp m', b)).
      { clear W. induction m as [|[k x] m IHm] in m', Hm |- *; intro cp;
          inversion Hm as [|? [k' x'] ? m1 [Hk Hx] Hr]; subst.
        - exists false. split; [ reflexivity | apply yields_ret ].
        - cbn [fst snd] in *. destruct Hk as (rk & Hk & ->). destruct Hx as (rx & Hx & ->).
          destruct (IH k rk Hk) as (b1 & B1 & G1). destruct (IH x rx Hx) as (b2 & B2 & G2).
          destruct (IHm m1 Hr (mput (element rk) (element rx) cp)) as (b3 & B3 & G3).
          exists (b1 || b2 || b3)%bool. split.
          + intro Eb. apply orb_false_iff in Eb as [Eb Eb3]. apply orb_false_iff in Eb as [Eb1 Eb2].
            rewrite (B1 Eb1), (B2 Eb2), (B3 Eb3). reflexivity.
          + cbn [each_map]. eapply yields_bind; [ exact G1 | ]. eapply yields_bind; [ exact G2 | ].
            cbn [fst snd].
            replace (nil_to_null rk) with (element rk) by (destruct rk; reflexivity).
            replace (nil_to_null rx) with (element rx) by (destruct rx; reflexivity).
            eapply yields_bind; [ exact G3 | ]. apply yields_ret. }
      destruct (Q []) as (b & B & G). exists b. split.
      + intro Eb. rewrite (B Eb). rewrite mputall_nil_self by exact W. reflexivity.
      + rewrite do_interp_map. eapply yields_bind; [ exact G | ]. cbn [fst snd].
        destruct b; [ apply yields_ret | ]. rewrite (B eq_refl), mputall_nil_self by exact W. apply yields_ret.
  Qed.

  Lemma yields_interpolate v o : value_is string_is v o -> yields P (interpolate rec true v) o.
  Proof.
    intro H. destruct (yields_do_interp v o H) as (b & B & G). unfold interpolate.
    eapply yields_bind; [ exact G | ]. cbn [fst snd]. destruct b; [ apply yields_ret | rewrite (B eq_refl); apply yields_ret ].
  Qed.

  Lemma yields_expression e r : expression_is w sc string_is lookup_is e r -> forall str ts acc m result,
    m <> MStrictAlias ->
    exists m', m' <> MStrictAlias /\
    forall x, yields P (istr_loop w rec str true ts (acc ++ r) m' result) x ->
    yields P (istr_loop w rec str true (TExpr e :: ts) acc m result) x.
  Proof.
    intros H str ts acc m result Hm. cbn [istr_loop].
    inversion H as [Hin|arg Hc|arg y ps Hin Ha Hk Hg|arg y ps v r0 o Hin Ha Hk Hg Hv Hd|name arg ps o Hc Hn Hk Hl]; subst.
    - rewrite (empty_interpolation_is _ Hin). exists m. rewrite app_nil_s. auto.
    - rewrite (calls_nonempty _ _ _ Hc). exists MLiteral. split; [ discriminate | intros x K ].
      eapply yields_bind; [ apply yields_lift; exact (calls_md _ _ _ Hc) | ]. exact K.
    - rewrite (empty_interpolation_out _ Hin). exists MScope. split; [ discriminate | intros x K ].
      eapply yields_bind; [ apply yields_lift; exact (asks_scope_md _ _ _ Ha) | ].
      cbn [fst snd is_alias andb]. eapply yields_bind with (a := None); [ | exact K ].
      intros s Hs. exists s. split; [ | exact Hs ]. apply (in_scope_unset _ _ _ _ _ _ Hk). rewrite (Psc s Hs). exact Hg.
    - rewrite (empty_interpolation_out _ Hin). exists MScope. split; [ discriminate | intros x K ].
      eapply yields_bind; [ apply yields_lift; exact (asks_scope_md _ _ _ Ha) | ].
      cbn [fst snd is_alias andb]. eapply yields_bind with (a := o); [ | exact K ].
      unfold in_scope. eapply yields_bind; [ apply yields_lift; exact (written_key_new _ _ Hk) | ].
      eapply yields_bind; [ apply yields_lift; reflexivity | ]. eapply yields_bind; [ exact yields_scope | ].
      rewrite Hg. destruct (yields_do_interp v r0 Hv) as (b & B & G). eapply yields_bind; [ exact G | ].
      cbn [fst]. exact (digs_dig arg y ps r0 o Hd).
    - rewrite (calls_nonempty _ _ _ Hc). exists MLookup. split; [ discriminate | intros x K ].
      eapply yields_bind; [ apply yields_lift; rewrite (calls_md _ _ _ Hc); destruct Hn as [-> | ->]; reflexivity | ].
      destruct (Hlook _ _ Hl) as (b & G). cbn [fst snd is_alias andb].
      eapply yields_bind; [ apply yields_lift; exact (written_key_new _ _ Hk) | ].
      eapply yields_bind; [ exact G | ]. exact K.
  Qed.

  Lemma yields_loop str : forall cut rs last acc m result,
    Forall2 (fun p r => expression_is w sc string_is lookup_is (snd p) r) cut rs -> m <> MStrictAlias ->
    exists m', m' <> MStrictAlias /\
    yields P (istr_loop w rec str true (toks cut last) acc m result) ((acc ++ filled cut rs last)%string, m', result).
  Proof.
    induction cut as [|[t e] cut IH]; intros rs last acc m result H Hm.
    - exists m. split; [ exact Hm | ]. inversion H; subst. apply yields_ret.
    - inversion H as [|? r ? rs' H1 H2]; subst. cbn [snd] in H1. cbn [toks].
      destruct (yields_expression e r H1 str (toks cut last) (acc ++ t)%string m result Hm) as (m1 & Hm1 & E).
      destruct (IH rs' last ((acc ++ t) ++ r)%string m1 result H2 Hm1) as (m2 & Hm2 & E2).
      exists m2. split; [ exact Hm2 | ]. apply E in E2. cbn [filled].
      replace (acc ++ t ++ r ++ filled cut rs' last)%string with (((acc ++ t) ++ r) ++ filled cut rs' last)%string
        by (rewrite !app_assoc_s; reflexivity).
      exact E2.
  Qed.

  Lemma yields_string t o : whole_is w sc string_is lookup_is t o ->
    exists b, (b = false -> o = Some (VStr t)) /\ yields P (istr w rec t true) (o, b).
  Proof.
    intro H. unfold istr. destruct (contains "%{" t) eqn:Ec.
    - exists true. split; [ discriminate | ]. cbn [negb].
      inversion H as [cut rs last Hw Hf E1 E2|e arg ps r Hb Hc Hk Hl E1 E2|e arg ps r Hb Hc Hk Hl E1 E2]; subst.
      + eapply yields_bind; [ | apply yields_ret ]. apply yields_node. rewrite (tokens_cut _ _ Hw).
        destruct (yields_loop (assembled cut last) cut rs last "" MScope None Hf) as (m & Hm & E); [ discriminate | ].
        eapply yields_bind; [ exact E | ]. cbn. destruct m; try apply yields_ret. congruence.
      + destruct (alone_cut e Hb) as [Hw Ha]. destruct (Hlook _ _ Hl) as (b & G).
        eapply yields_bind; [ | apply yields_ret ]. apply yields_node.
        assert (Et : tokens ("%{" ++ e ++ "}") = toks [("", e)] "") by (rewrite <- Ha; apply tokens_cut; exact Hw).
        rewrite Et. clear Et.
        eapply yields_bind with (a := (""%string, MAlias, r)).
        * cbn [toks istr_loop]. rewrite (calls_nonempty _ _ _ Hc).
          eapply yields_bind; [ apply yields_lift; exact (alias_md _ false _ Hc) | ]. cbn [fst snd].
          rewrite String.eqb_refl. cbn [negb andb is_alias].
          eapply yields_bind; [ apply yields_lift; exact (written_key_new _ _ Hk) | ].
          eapply yields_bind; [ exact G | ]. apply yields_ret.
        * destruct r; apply yields_ret.
      + destruct (alone_cut e Hb) as [Hw Ha]. destruct (Hlook _ _ Hl) as (b & G).
        eapply yields_bind; [ | apply yields_ret ]. apply yields_node.
        assert (Et : tokens ("%{" ++ e ++ "}") = toks [("", e)] "") by (rewrite <- Ha; apply tokens_cut; exact Hw).
        rewrite Et. clear Et.
        eapply yields_bind with (a := (""%string, MStrictAlias, o)).
        * cbn [toks istr_loop]. rewrite (calls_nonempty _ _ _ Hc).
          eapply yields_bind; [ apply yields_lift; exact (alias_md _ true _ Hc) | ]. cbn [fst snd].
          rewrite String.eqb_refl. cbn [negb andb is_alias].
          eapply yields_bind; [ apply yields_lift; exact (written_key_new _ _ Hk) | ].
          eapply yields_bind; [ exact G | ]. apply yields_ret.
        * destruct o; apply yields_ret.
    - exists false. apply contains_not in Ec.
      inversion H as [cut rs last Hw Hf E1 E2|e arg ps r Hb Hc Hk Hl E1 E2|e arg ps r Hb Hc Hk Hl E1 E2]; subst.
      + destruct cut as [|[a b] cut]; [ | exfalso; apply Ec; exists a, (b ++ "}" ++ assembled cut last)%string; reflexivity ].
        inversion Hf; subst. split; [ reflexivity | apply yields_ret ].
      + exfalso. apply Ec. exists "", (e ++ "}")%string. reflexivity.
      + exfalso. apply Ec. exists "", (e ++ "}")%string. reflexivity.
  Qed.

  (** ** Strategies *)

  Section Merge.
    Variable L : Type.
    Variable f : L -> M st (option value).
    Variable from : L -> option value -> Prop.

    Lemma yields_first_loop_none l : Forall (fun y => yields P (f y) None) l -> yields P (first_loop f l) None.
    Proof.
      induction 1 as [|x l Hx _ IH]; [ apply yields_ret | ]. cbn [first_loop]. eapply yields_bind; [ exact Hx | exact IH ].
    Qed.
    Lemma yields_first_loop pre x post v : Forall (fun y => yields P (f y) None) pre -> yields P (f x) (Some v) ->
      yields P (first_loop f (pre ++ x :: post)) (Some v).
    Proof.
      intros Hp Hx. induction Hp as [|y l Hy _ IH]; cbn [app first_loop].
      - eapply yields_bind; [ exact Hx | apply yields_ret ].
      - eapply yields_bind; [ exact Hy | exact IH ].
    Qed.

    Lemma yields_merge_loop s : forall l outs memo, Forall2 (fun x o => yields P (f x) o) l outs ->
      yields P (merge_loop f s memo l)
             (match memo with Some m => Some (fold_left (merge2 s) (found outs) m) | None => merge_fold s (found outs) end).
    Proof.
      intros l outs memo H. revert memo. induction H as [|x o l outs Hx _ IH]; intro memo; cbn [merge_loop].
      - destruct memo; apply yields_ret.
      - eapply yields_bind; [ exact Hx | ]. cbn [found]. destruct o as [v|]; [ | apply IH ].
        destruct memo as [m|]; exact (IH (Some _)).
    Qed.

    Lemma yields_report_some v : yields P (report_some report_result v) v.
    Proof.
      destruct v; [ | apply yields_ret ]. unfold report_some. eapply yields_bind; [ apply yields_report | apply yields_ret ].
    Qed.

    Lemma yields_picks s l o : (forall x o, In x l -> from x o -> yields P (f x) o) ->
      picks from s l o -> yields P (merging s l f) o.
    Proof.
      intros Hf H. unfold merging, merge_lookup. destruct H as [pre x post v Hp Hx|l Hn|s l outs Hs Ha].
      - assert (Hp' : Forall (fun y => yields P (f y) None) pre).
        { apply Forall_forall. intros y Hy. apply Hf; [ apply in_or_app; left; exact Hy | ].
          exact (proj1 (Forall_forall _ _) Hp y Hy). }
        assert (Hx' : yields P (f x) (Some v)) by (apply Hf; [ apply in_or_app; right; left; reflexivity | exact Hx ]).
        destruct pre as [|p pre]; [ destruct post as [|q post]; [ exact Hx' | ] | ].
        + eapply yields_bind; [ exact (yields_first_loop [] x (q :: post) v Hp' Hx') | apply yields_report_some ].
        + assert (E : exists a b r, (p :: pre) ++ x :: post = a :: b :: r) by (destruct pre; eexists _, _, _; reflexivity).
          destruct E as (a & b & r & E). rewrite E. eapply yields_bind; [ | apply yields_report_some ].
          rewrite <- E. exact (yields_first_loop (p :: pre) x post v Hp' Hx').
      - assert (Hn' : Forall (fun y => yields P (f y) None) l).
        { apply Forall_forall. intros y Hy. apply Hf; [ exact Hy | ]. exact (proj1 (Forall_forall _ _) Hn y Hy). }
        destruct l as [|a [|b l]]; [ apply yields_ret | inversion Hn'; assumption | ].
        eapply yields_bind; [ exact (yields_first_loop_none _ Hn') | apply yields_ret ].
      - assert (Ha' : Forall2 (fun x o => yields P (f x) o) l outs).
        { clear Hs. induction Ha as [|x o l outs Hx _ IH]; constructor; [ apply Hf; [ left; reflexivity | exact Hx ] | ].
          apply IH. intros y o' Hy. apply Hf. right. exact Hy. }
        assert (E : forall a b r outs', l = a :: b :: r -> outs = outs' -> pure_lookup s outs = merge_fold s (found outs)).
        { intros a b r outs' -> _. inversion Ha as [|? ? ? ? _ Hb]; subst. inversion Hb; subst.
          unfold pure_lookup. destruct s; [ congruence | reflexivity.. ]. }
        assert (M : yields P (match l with
                              | [] => ret None
                              | [x] => bind (f x) (fun v => ret (merge_single s v))
                              | _ => with_merge s (bind (merge_loop f s None l) (report_some report_result))
                              end) (pure_lookup s outs)).
        { destruct l as [|a [|b l]].
          - inversion Ha; subst. destruct s; [ congruence | apply yields_ret.. ].
          - inversion Ha' as [|? o ? outs' Hx Hr]; subst. inversion Hr; subst.
            eapply yields_bind; [ exact Hx | ]. destruct s; [ congruence | apply yields_ret.. ].
          - rewrite (E a b l outs eq_refl eq_refl). apply yields_node.
            eapply yields_bind; [ exact (yields_merge_loop s _ outs None Ha') | apply yields_report_some ]. }
        destruct s; [ congruence | exact M.. ].
    Qed.
  End Merge.
End Values.
