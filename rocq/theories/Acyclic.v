(** Lookups in data without circles have an answer. *)

From Coq Require Import String Ascii List ZArith Bool Arith Lia DecimalString.
From Verif Require Import Str Value ValueFacts Outcome Key Merge SpecMerge MergeFacts MergeLookup Fpath Config Ipl State Engine
  SpecKey SpecIpl SpecInterp SpecConfig KeyFacts StrFacts IplFacts InterpFacts SpecLookup SettledLookup AnswerFacts SpecAcyclic RootFacts.
Import ListNotations.
Open Scope nat_scope.
Open Scope string_scope.
Open Scope list_scope.

Lemma sound_key_more (a b : reference -> Prop) arg : (forall f, a f -> b f) -> sound_key a arg -> sound_key b arg.
Proof. intros H (r & ps & H1 & H2 & H3 & H4). exists r, ps. auto. Qed.

Lemma sound_text_more c (a b : reference -> Prop) t : (forall f, a f -> b f) -> sound_text c a t -> sound_text c b t.
Proof.
  intros H [cut last H1 H2 H3|e name arg H1 H2 H3 H4].
  - apply so_text; [ exact H1 | | exact H3 ]. eapply Forall_impl; [ | exact H2 ].
    intros p [Ha He]. split; [ exact Ha | ]. destruct He as [He|arg He Hb|arg x ps N He Hk Hb|name arg Hn He Hk].
    + apply so_empty. exact He.
    + eapply so_literal; eassumption.
    + eapply so_scope; eauto.
    + eapply so_lookup; eauto using sound_key_more.
  - eapply so_alias; eauto using sound_key_more.
Qed.

Lemma digs_total ps r : exists o, digs ps r o.
Proof.
  destruct r as [v|]; [ | exists None; constructor ]. destruct (dig_parts ps v) as [y|] eqn:E.
  - exists (Some y). apply digs_path. apply dig_parts_path. exact E.
  - exists None. apply digs_no_path. intros y H. apply dig_parts_path in H. congruence.
Qed.

Lemma orderly_path Q v ps x : path v ps x -> orderly Q v -> orderly Q x.
Proof.
  induction 1 as [v|v p u ps x H P IH]; [ auto | ]. intros [W S]. apply IH.
  destruct H as [pre y post | m pre z y post -> N | m pre k y post -> N].
  - split; [ apply wf_arr in W; apply Forall_elt in W; exact W | ].
    intros t I. apply S. apply inside_arr with y; [ apply in_elt | exact I ].
  - split; [ exact (proj2 (wfm_in _ (VInt z, y) W (in_elt _ _ _))) | ].
    intros t I. apply S. apply inside_val with (VInt z) y; [ apply in_elt | exact I ].
  - split; [ exact (proj2 (wfm_in _ (VStr k, y) W (in_elt _ _ _))) | ].
    intros t I. apply S. apply inside_val with (VStr k) y; [ apply in_elt | exact I ].
Qed.

Lemma orderly_mputall Q : forall a m, orderly Q (VMap m) ->
  Forall (fun e => orderly Q (fst e) /\ orderly Q (snd e)) a -> orderly Q (VMap (mputall m a)).
Proof.
  induction a as [|[k v] a IH]; intros m Hm Ha; [ exact Hm | ]. inversion Ha as [|? ? [[Wk Sk] [Wv Sv]] Ha']; subst.
  rewrite mputall_cons. apply IH; [ | exact Ha' ]. destruct Hm as [Wm Sm]. split.
  - apply mput_wf; assumption.
  - intros t I. apply inside_mput in I as [I|[I|I]]; [ exact (Sk t I) | exact (Sv t I) | exact (Sm t I) ].
Qed.

(** Digits and a minus sign. *)
Lemma digits_only c u : c = "%"%char \/ c = "{"%char -> ~ occurs c (NilEmpty.string_of_uint u).
Proof.
  intro Hc. induction u; cbn; [ tauto | .. ];
    (intros [E|E]; [ destruct Hc; subst; discriminate | exact (IHu E) ]).
Qed.
Lemma show_int_bare c z : c = "%"%char \/ c = "{"%char -> ~ occurs c (show_int z).
Proof.
  intro Hc. unfold show_int. destruct (Z.to_int z) as [u|u]; cbn [NilZero.string_of_int].
  - destruct u; try exact (digits_only c _ Hc). cbn. intros [E|[]]. destruct Hc; subst; discriminate.
  - assert (H : ~ occurs c (NilZero.string_of_uint u)).
    { destruct u; try exact (digits_only c _ Hc). cbn. intros [E|[]]. destruct Hc; subst; discriminate. }
    cbn [occurs]. intros [E|E]; [ destruct Hc; subst; discriminate | exact (H E) ].
Qed.

Section Acyclic.
  Variables (w : world) (sc : scope) (es : list entry) (files : list (option entries)).
  Variables (c : ascii) (rank : reference -> nat) (s : strategy).
  Hypothesis Hrank : ranked c rank sc files.
  Hypothesis Hlevels : Forall2 (level_is w) es files.

  Definition bare (t : string) : Prop := ~ occurs c t.
  Hypothesis Hshow : forall v, orderly bare v -> bare (w_show w v).
  Definition clean (o : option value) : Prop := forall v, o = Some v -> orderly bare v.

  Lemma bare_app a b : bare a -> bare b -> bare (a ++ b).
  Proof. intros Ha Hb H. apply occurs_app in H as [H|H]; auto. Qed.

  Lemma bare_not_has t : bare t -> ~ has "%{" t.
  Proof.
    intros H (a & b & ->). apply H. apply occurs_app. right. apply occurs_app. left. simpl.
    destruct (rk_char _ _ _ _ Hrank); auto.
  Qed.

  Lemma clean_quiet v : orderly bare v -> quiet v.
  Proof. intros [W S]. split; [ exact W | ]. intros t I. exact (bare_not_has t (S t I)). Qed.

  Lemma text_bare o : clean o -> bare (text w o).
  Proof.
    intro H. destruct o as [v|]; [ | intros [] ]. specialize (H v eq_refl). pose proof (rk_char _ _ _ _ Hrank) as Hc.
    destruct v as [|[|]|z|z|t|l|m|v]; cbn [text vstring]; try exact (Hshow _ H).
    - unfold bare. cbn. intros H'. repeat (destruct H' as [H'|H']; [ destruct Hc; congruence | ]). exact H'.
    - unfold bare. cbn. intros H'. repeat (destruct H' as [H'|H']; [ destruct Hc; congruence | ]). exact H'.
    - apply show_int_bare. exact Hc.
    - destruct H as [_ S]. apply (S t). constructor.
  Qed.

  Lemma clean_digs ps r o : digs ps r o -> clean r -> clean o.
  Proof.
    intros [|v y H|v H] Hr x E; try discriminate. injection E as <-. exact (orderly_path bare v ps y H (Hr v eq_refl)).
  Qed.

  Lemma clean_element o : clean o -> orderly bare (element o).
  Proof. intro H. destruct o as [v|]; [ exact (H v eq_refl) | ]. split; [ reflexivity | ]. intros t I. inversion I. Qed.

  Section Value.
    Variables (si : string -> option value -> Prop) (below : reference -> Prop).
    Hypothesis Hsi : forall t, sound_text c below t -> exists o, si t o /\ clean o.

    Lemma value_ok : forall v, sound_value c below v -> exists o, value_is si v o /\ clean o.
    Proof.
      assert (Other : forall v, (forall t, v <> VStr t) -> (forall l, v <> VArr l) -> (forall m, v <> VMap m) ->
                sound_value c below v -> exists o, value_is si v o /\ clean o).
      { intros v H1 H2 H3 [W _]. exists (Some v). split; [ apply vi_other; assumption | ].
        intros x E. injection E as <-. split; [ exact W | ]. intros t I. inversion I; subst; exfalso; eauto;
          [ eapply H1 | eapply H2 | eapply H3 | eapply H3 ]; reflexivity. }
      intro v. induction v using value_ind2; intro Hv;
        try (apply Other; [ intros; discriminate | intros; discriminate | intros; discriminate | exact Hv ]).
      - destruct Hv as [_ S]. destruct (Hsi s0 (S s0 (inside_str s0))) as (o & H1 & H2).
        exists o. split; [ apply vi_str; exact H1 | exact H2 ].
      - destruct Hv as [W S]. apply wf_arr in W.
        assert (Q : exists l', Forall2 (fun x y => exists r, value_is si x r /\ y = element r) l l' /\
                    Forall (orderly bare) l').
        { induction H as [|x l Hx H IH]; [ exists []; split; constructor | ]. inversion W; subst.
          destruct IH as (l' & I1 & I2); [ assumption | | ].
          - intros t I. apply S. inversion I as [|? y Hy I'| |]; subst. apply inside_arr with y; [ right; exact Hy | exact I' ].
          - destruct Hx as (r & R1 & R2).
            { split; [ assumption | ]. intros t I. apply S. apply inside_arr with x; [ left; reflexivity | exact I ]. }
            exists (element r :: l'). split; constructor; eauto using clean_element. }
        destruct Q as (l' & Q1 & Q2). exists (Some (VArr l')). split; [ apply vi_arr; exact Q1 | ].
        intros x E. injection E as <-. split.
        + apply wf_arr. eapply Forall_impl; [ | exact Q2 ]. intros a [A _]. exact A.
        + intros t I. inversion I as [|? y Hy I'| |]; subst. exact (proj2 (proj1 (Forall_forall _ _) Q2 y Hy) t I').
      - destruct Hv as [W S].
        assert (Q : exists m', Forall2 (fun e e' => (exists r, value_is si (fst e) r /\ fst e' = element r) /\
                           (exists r, value_is si (snd e) r /\ snd e' = element r)) m m' /\
                    Forall (fun e => orderly bare (fst e) /\ orderly bare (snd e)) m').
        { assert (W' : Forall (fun e => wf (fst e) = true /\ wf (snd e) = true) m)
            by (apply Forall_forall; intros e He; exact (wfm_in m e W He)). clear W.
          induction H as [|[k v] m [Hk Hv] H IH]; [ exists []; split; constructor | ].
          inversion W' as [|? ? [Wk Wv] W2]; subst. cbn [fst snd] in *.
          destruct IH as (m' & I1 & I2); [ | assumption | ].
          - intros t I. apply S. inversion I; subst; [ eapply inside_key | eapply inside_val ]; try eassumption; right; eassumption.
          - destruct Hk as (rk & K1 & K2).
            { split; [ assumption | ]. intros t I. apply S. apply inside_key with k v; [ left; reflexivity | exact I ]. }
            destruct Hv as (rv & V1 & V2).
            { split; [ assumption | ]. intros t I. apply S. apply inside_val with k v; [ left; reflexivity | exact I ]. }
            exists ((element rk, element rv) :: m'). split; constructor; cbn [fst snd]; eauto 6 using clean_element. }
        destruct Q as (m' & Q1 & Q2). exists (Some (VMap (mputall [] m'))). split; [ apply vi_map; [ exact W | exact Q1 ] | ].
        intros x E. injection E as <-. apply orderly_mputall; [ | exact Q2 ].
        split; [ reflexivity | ]. intros t I. inversion I; subst; contradiction.
    Qed.
  End Value.

  (** A key, when the strings in its values have answers. *)
  Section Key.
    Variables (si : string -> option value -> Prop) (r : string).
    Hypothesis Hsi : forall t, sound_text c (fun f => rank f < rank (RKey r)) t -> exists o, si t o /\ clean o.
    Hypothesis Hpl : plain_key r.

    Lemma hierarchy_ok st : exists v, hierarchy_gives w sc (value_is si) r st es v /\ clean v.
    Proof.
      assert (Q : exists outs, Forall2 (entry_gives w sc (value_is si) r st) es outs /\ Forall clean outs).
      { assert (G : forall es' files', Forall2 (level_is w) es' files' ->
                  (forall m v, In (Some m) files' -> mgets r m = Some v -> sound_value c (fun f => rank f < rank (RKey r)) v) ->
                  exists outs, Forall2 (entry_gives w sc (value_is si) r st) es' outs /\ Forall clean outs);
          [ | apply (G es files Hlevels); intros m v; apply (rk_data _ _ _ _ Hrank) ].
        intros es' files' Hl'. induction Hl' as [|e l es' ls H Hl IH]; intro Hd; [ exists []; split; constructor | ].
        destruct IH as (outs & I1 & I2); [ intros m v Hin; apply Hd; right; exact Hin | ].
        destruct (under r l) as [v|] eqn:E.
        - destruct l as [m|]; [ | discriminate ].
          destruct (value_ok si _ Hsi v (Hd m v (or_introl eq_refl) E)) as (o & O1 & O2).
          exists (o :: outs). split; constructor; try assumption. exact (level_value w sc _ r st e (Some m) v o Hpl H E O1).
        - exists (None :: outs). split; constructor; try assumption; [ exact (level_none w sc _ r st e l Hpl H E) | discriminate ]. }
      destruct Q as (outs & Q1 & Q2). exists (pure_lookup st outs). split; [ apply picks_pure; exact Q1 | ].
      intros v E. exact (orderly_pure bare st outs Q2 v E).
    Qed.
  End Key.

  Lemma key_ok n k r ps : k_parts k = PStr r :: ps -> r <> "lookup_options" -> plain_key r ->
    (forall t, sound_text c (fun f => rank f < rank (RKey r)) t ->
       exists o, answers w sc es (Some s) (S n) (QStr t) o /\ clean o) ->
    exists o, answers w sc es (Some s) (S (S n)) (QKey k) o /\ clean o.
  Proof.
    intros Hk Hr Hp Hs.
    destruct (hierarchy_ok (fun t => answers w sc es (Some s) (S n) (QStr t)) r Hs Hp s) as (v & V1 & V2).
    destruct (digs_total ps v) as (o & D). exists o. split; [ | exact (clean_digs ps v o D V2) ].
    right. pose proof (plain_correct r Hp) as Hc. exists s, r, ps, v. repeat (split; [ first [ reflexivity | assumption ] | ]).
    destruct v as [x|]; [ | inversion D; reflexivity ].
    exists (Some x). split; [ | exact D ]. apply quiet_answers. apply clean_quiet. exact (V2 x eq_refl).
  Qed.

  Lemma text_ok n (below : reference -> Prop) :
    (forall r, below (RKey r) -> r <> "lookup_options" -> plain_key r -> forall k ps, k_parts k = PStr r :: ps ->
       exists o, answers w sc es (Some s) n (QKey k) o /\ clean o) ->
    (forall x v, below (RVar x) -> scope_get sc x = Some v ->
       exists o, value_is (fun t => answers w sc es (Some s) n (QStr t)) v o /\ clean o) ->
    forall t, sound_text c below t -> exists o, answers w sc es (Some s) (S n) (QStr t) o /\ clean o.
  Proof.
    intros Hk Hv t Ht.
    assert (Sk : forall arg, sound_key below arg -> exists ps o, written_key arg ps /\
              answers w sc es (Some s) n (QKey (mk_key arg ps)) o /\ clean o).
    { intros arg (r & ps & H1 & H2 & H3 & H4). destruct (Hk r H4 H2 H3 (mk_key arg (PStr r :: ps)) ps eq_refl) as (o & O1 & O2).
      exists (PStr r :: ps), o. auto. }
    set (si := fun t => answers w sc es (Some s) n (QStr t)). set (li := fun k => answers w sc es (Some s) n (QKey k)).
    change (exists o, whole_is w sc si li t o /\ clean o). destruct Ht as [cut last Hw Hc Hl|e name arg Hb Hn Hc Hsk].
    - assert (Q : exists rs, Forall2 (fun p r => expression_is w sc si li (snd p) r) cut rs /\
                  bare (filled cut rs last)).
      { clear Hw. induction Hc as [|[a e] cut [Ha He] Hc IH]; [ exists []; split; [ constructor | exact Hl ] | ].
        destruct IH as (rs & I1 & I2). cbn [fst snd] in *.
        assert (E : exists x, expression_is w sc si li e x /\ bare x).
        { destruct He as [He|arg He Hbr|arg x ps N He Hk' Hb|name arg Hn He Hk'].
          - exists "". split; [ apply ei_empty; exact He | intros [] ].
          - exists arg. split; [ apply ei_literal; exact He | exact Hbr ].
          - destruct (scope_get sc x) as [v|] eqn:Eg.
            + destruct (Hv x v Hb Eg) as (r & R1 & R2). destruct (digs_total ps r) as (o & D).
              exists (text w o). split; [ eapply ei_scope; eassumption | ].
              apply text_bare. exact (clean_digs ps r o D R2).
            + exists "". split; [ eapply ei_unset; eassumption | intros [] ].
          - destruct (Sk arg Hk') as (ps & o & S1 & S2 & S3). exists (text w o). split; [ | apply text_bare; exact S3 ].
            eapply ei_lookup; try eassumption. destruct Hn as [<-|[<-|[]]]; auto. }
        destruct E as (x & E1 & E2). exists (x :: rs). split; [ constructor; assumption | ].
        cbn [filled]. apply bare_app; [ exact Ha | ]. apply bare_app; assumption. }
      destruct Q as (rs & Q1 & Q2). exists (Some (VStr (filled cut rs last))). split; [ apply wi_text; assumption | ].
      intros v E. injection E as <-. split; [ reflexivity | ]. intros u I. inversion I; subst. exact Q2.
    - destruct (Sk arg Hsk) as (ps & o & S1 & S2 & S3). destruct Hn as [<-|[<-|[]]].
      + eexists. split; [ eapply wi_alias; eassumption | ]. destruct o as [v|]; [ exact S3 | ].
        intros v E. injection E as <-. split; [ reflexivity | ]. intros u I. inversion I; subst. intros [].
      + eexists. split; [ eapply wi_strict_alias; eassumption | exact S3 ].
  Qed.

  Lemma answers_more n m q o : n <= m -> answers w sc es (Some s) n q o -> answers w sc es (Some s) m q o.
  Proof. induction 1 as [|m H IH]; [ auto | ]. intro A. apply answers_step. auto. Qed.

  Lemma texts_ok : forall N t, sound_text c (fun f => rank f < N) t ->
    exists o, answers w sc es (Some s) (S (2 * N)) (QStr t) o /\ clean o.
  Proof.
    induction N as [|N IH].
    - apply text_ok; intros; lia.
    - replace (S (2 * S N)) with (S (S (S (2 * N)))) by lia.
      assert (Low : forall f t, rank f < S N -> sound_text c (fun g => rank g < rank f) t ->
                exists o, answers w sc es (Some s) (S (2 * N)) (QStr t) o /\ clean o).
      { intros f t Hf Ht. apply IH. eapply sound_text_more; [ | exact Ht ]. cbn. intros; lia. }
      apply text_ok.
      + intros r Hr Hlo Hp k ps Hk. apply (key_ok (2 * N) k r ps Hk Hlo Hp). intros t Ht. exact (Low (RKey r) t Hr Ht).
      + intros x v Hx Hg. apply (value_ok _ (fun g => rank g < rank (RVar x))).
        * intros t Ht. destruct (Low (RVar x) t Hx Ht) as (o & O1 & O2). exists o. split; [ apply answers_step; exact O1 | exact O2 ].
        * exact (rk_scope _ _ _ _ Hrank x v Hg).
  Qed.

  Lemma no_options : Forall (fun l => under "lookup_options" l = None) files ->
    forall vi, hierarchy_gives w sc vi "lookup_options" (SDeep []) es None.
  Proof.
    intros Ho vi.
    assert (P : pure_lookup (SDeep []) (map (under "lookup_options") files) = None).
    { assert (N : found (map (under "lookup_options") files) = []).
      { clear - Ho. induction Ho as [|l ls H Ho IH]; [ reflexivity | ]. simpl. rewrite H. exact IH. }
      destruct files as [|l [|l2 ls]]; [ reflexivity | | ].
      - inversion Ho; subst. simpl. match goal with H : under _ l = None |- _ => rewrite H end. reflexivity.
      - change (merge_fold (SDeep []) (found (map (under "lookup_options") (l :: l2 :: ls))) = None). rewrite N. reflexivity. }
    unfold hierarchy_gives. rewrite <- P. apply picks_pure. clear - Hlevels Ho.
    induction Hlevels as [|e l es ls H Hl IH]; [ constructor | ]. inversion Ho; subst. constructor; [ | apply IH; assumption ].
    apply level_gives; [ exact options_key_plain | exact H | ]. intros v E. congruence.
  Qed.

  Lemma lookup_ok k r ps opts mo : k_parts k = PStr r :: ps -> r <> "lookup_options" -> plain_key r ->
    Forall (fun l => under "lookup_options" l = None) files ->
    merge_option opts None mo -> strategy_is mo s ->
    exists o, lookup_gives w sc es (S (2 * rank (RKey r))) k opts o.
  Proof.
    intros Hk Hr Hp Ho Hm Hs.
    destruct (hierarchy_ok (fun t => answers w sc es (Some s) (S (2 * rank (RKey r))) (QStr t)) r (texts_ok (rank (RKey r))) Hp s)
      as (v & V1 & V2).
    destruct (digs_total ps v) as (o & D). exists o.
    exists r, ps, None, None, mo, s, None, v, v. split; [ exact Hk | ]. split; [ exact Hr | ]. split; [ exact (plain_correct r Hp) | ].
    split; [ apply no_options; exact Ho | ]. split; [ apply plain_options; [ exact Hp | apply of_none; discriminate ] | ]. split; [ exact Hm | ].
    split; [ exact Hs | ]. split; [ apply ci_none; discriminate | ]. split; [ exact V1 | ]. split; [ apply cv_no_conversion | ].
    destruct v as [x|]; [ | inversion D; reflexivity ].
    exists (Some x). split; [ | exact D ]. apply quiet_answers. apply clean_quiet. exact (V2 x eq_refl).
  Qed.
End Acyclic.
