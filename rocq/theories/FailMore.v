(** Failures that stay failures. *)

From Coq Require Import String Ascii List ZArith Bool Arith Lia.
From Verif Require Import Str Value Outcome Key Merge Fpath Config State Engine
  SpecKey SpecKeyErr SpecIpl SpecInterp SpecConfig SpecLookup SpecFail MergeLookup ValueFacts AnswerFacts.
Import ListNotations.
Open Scope string_scope.
Open Scope list_scope.

Section More.
  Variables (w : world) (sc : scope).
  Variables (si si' : string -> option value -> Prop) (li li' : key -> option value -> Prop).
  Variables (sf sf' : string -> err -> Prop) (kf kf' : key -> err -> Prop).
  Hypothesis Hs : forall t o, si t o -> si' t o.
  Hypothesis Hl : forall k o, li k o -> li' k o.
  Hypothesis Hsf : forall t x, sf t x -> sf' t x.
  Hypothesis Hkf : forall k x, kf k x -> kf' k x.

  Lemma known_more v : (exists r, value_is si v r) -> exists r, value_is si' v r.
  Proof. intros (r & H). exists r. exact (value_is_more si si' Hs v r H). Qed.

  Lemma value_fails_more : forall v x, value_fails si sf v x -> value_fails si' sf' v x.
  Proof.
    induction 1 as [t x H|pre v post x Hp _ IH|pre k v post x Hp _ IH|pre k v post x Hp Hk _ IH].
    - apply vf_str. apply Hsf. exact H.
    - apply vf_element; [ | exact IH ]. eapply Forall_impl; [ | exact Hp ]. intro y. apply known_more.
    - apply vf_key; [ | exact IH ]. eapply Forall_impl; [ | exact Hp ]. intros y [A B]. split; now apply known_more.
    - apply vf_value; [ | now apply known_more | exact IH ]. eapply Forall_impl; [ | exact Hp ].
      intros y [A B]. split; now apply known_more.
  Qed.

  Lemma expression_fails_more t e x : expression_fails sc si sf kf t e x -> expression_fails sc si' sf' kf' t e x.
  Proof.
    intro H. destruct H as [name arg H1 H2 H3|name arg H1 H2 H3 H4|arg H1 H2 H3|arg y ps v H1 H2 H3 H4 H5|name arg H1 H2 H3|name arg ps H1 H2 H3 H4].
    - eapply xf_unknown; eassumption.
    - eapply xf_misplaced; eassumption.
    - eapply xf_variable; eassumption.
    - eapply xf_scope; try eassumption. now apply value_fails_more.
    - eapply xf_key; eassumption.
    - eapply xf_lookup; try eassumption. now apply Hkf.
  Qed.

  Lemma whole_fails_more t x : whole_fails w sc si li sf kf t x -> whole_fails w sc si' li' sf' kf' t x.
  Proof.
    intros [pre u e post last rs H1 H2 H3 H4]. eapply wf_expression; [ exact H1 | exact H2 | | now apply expression_fails_more ].
    eapply Forall2_weaken; [ | exact H3 ]. intros p r. apply expression_is_more; assumption.
  Qed.
End More.

Section MoreHierarchy.
  Variables (w : world) (sc : scope) (vi vi' : value -> option value -> Prop) (vf vf' : value -> err -> Prop) (r : string).
  Hypothesis Hv : forall v o, vi v o -> vi' v o.
  Hypothesis Hf : forall v x, vf v x -> vf' v x.

  Lemma fails_more e loc x : fails w vf r e loc x -> fails w vf' r e loc x.
  Proof.
    intro H. destruct H.
    - eapply fa_hash; eassumption.
    - eapply fa_value; eauto.
    - eapply fa_key; eassumption.
    - eapply fa_key_load; eassumption.
    - eapply fa_dig; eassumption.
    - eapply fa_dig_load; eassumption.
  Qed.

  Lemma reaches_more {L} (g g' : L -> option value -> Prop) (f f' : L -> err -> Prop) s l x :
    (forall y o, g y o -> g' y o) -> (forall y x, f y x -> f' y x) ->
    reaches_failure g f s l x -> reaches_failure g' f' s l x.
  Proof.
    intros Hg Hf' [pre p post x' H1 H2|s' pre p post outs x' H1 H2 H3].
    - apply rf_first; [ | auto ]. eapply Forall_impl; [ | exact H1 ]. auto.
    - eapply rf_merge; [ exact H1 | | auto ]. eapply Forall2_weaken; [ exact Hg | exact H2 ].
  Qed.

  Lemma entry_fails_more s e x : entry_fails w sc vi vf r s e x -> entry_fails w sc vi' vf' r s e x.
  Proof.
    intros [H1 H2|l H1 [H2 H3]|l1 l2 ls H1 H2].
    - apply ef_plain; [ exact H1 | now apply fails_more ].
    - eapply ef_one; [ exact H1 | ]. split; [ exact H2 | now apply fails_more ].
    - eapply ef_many; [ exact H1 | ]. eapply reaches_more; [ | | exact H2 ].
      + apply location_gives_more. exact Hv.
      + intros y x' [A B]. split; [ exact A | now apply fails_more ].
  Qed.

  Lemma hierarchy_fails_more s es x : hierarchy_fails w sc vi vf r s es x -> hierarchy_fails w sc vi' vf' r s es x.
  Proof. apply reaches_more; [ now apply entry_gives_more | apply entry_fails_more ]. Qed.
End MoreHierarchy.

Lemma fails_step w sc es p : forall n q x, fails_at w sc es p n q x -> fails_at w sc es p (S n) q x.
Proof.
  induction n as [|n IH]; intros q x H; [ destruct H | ].
  assert (Hv : forall v o, value_is (fun t => answers w sc es (strategy_in p) n (QStr t)) v o ->
     value_is (fun t => answers w sc es (strategy_in p) (S n) (QStr t)) v o).
  { intros v o. apply value_is_more. intros t o'. apply answers_step. }
  assert (Hf : forall v x, value_fails (fun t => answers w sc es (strategy_in p) n (QStr t)) (fun t => fails_at w sc es p n (QStr t)) v x ->
     value_fails (fun t => answers w sc es (strategy_in p) (S n) (QStr t)) (fun t => fails_at w sc es p (S n) (QStr t)) v x).
  { intros v x'. apply value_fails_more; [ intros t o'; apply answers_step | intros t x''; apply IH ]. }
  destruct q as [t|k].
  - change (whole_fails w sc (fun t => answers w sc es (strategy_in p) (S n) (QStr t)) (fun k => answers w sc es (strategy_in p) (S n) (QKey k))
              (fun t => fails_at w sc es p (S n) (QStr t)) (fun k => fails_at w sc es p (S n) (QKey k)) t x).
    change (whole_fails w sc (fun t => answers w sc es (strategy_in p) n (QStr t)) (fun k => answers w sc es (strategy_in p) n (QKey k))
              (fun t => fails_at w sc es p n (QStr t)) (fun k => fails_at w sc es p n (QKey k)) t x) in H.
    eapply whole_fails_more; [ | | | | exact H ]; intros; first [ apply answers_step; assumption | apply IH; assumption ].
  - destruct H as (r & ps & H1 & H2 & H). exists r, ps. split; [ exact H1 | split; [ exact H2 | ] ].
    destruct p as [|s|]; [ exact H | | exact H ]. destruct H as [H|(Hc & [H|(v & H & H')])]; [ left; exact H | right; split; [ exact Hc | left ] | right; split; [ exact Hc | right ] ].
    + eapply hierarchy_fails_more; [ exact Hv | exact Hf | exact H ].
    + exists v. split; [ | exact (Hf v x H') ]. eapply hierarchy_gives_more; [ exact Hv | exact H ].
Qed.

Lemma value_in_step w sc es p n v o : value_in w sc es p n v o -> value_in w sc es p (S n) v o.
Proof. apply value_is_more. intros t o'. apply answers_step. Qed.
Lemma fails_in_step w sc es p n v x : fails_in w sc es p n v x -> fails_in w sc es p (S n) v x.
Proof. apply value_fails_more; [ intros t o'; apply answers_step | intros t x'; apply fails_step ]. Qed.
