(** Answers that stay answers. *)

From Coq Require Import String Ascii List ZArith Bool Arith Lia.
From Verif Require Import Str Value Outcome Key Merge Fpath Config State Engine
  SpecKey SpecIpl SpecInterp SpecConfig SpecLookup MergeLookup ValueFacts.
Import ListNotations.
Open Scope string_scope.
Open Scope list_scope.

Lemma Forall2_weaken {A B} (P Q : A -> B -> Prop) l l' :
  (forall x y, P x y -> Q x y) -> Forall2 P l l' -> Forall2 Q l l'.
Proof. intros H. induction 1; constructor; auto. Qed.

(** Values, expressions and strings with more answers to the strings and
    lookups in them. *)
Section More.
  Variables (w : world) (sc : scope).
  Variables (si si' : string -> option value -> Prop) (li li' : key -> option value -> Prop).
  Hypothesis Hs : forall t o, si t o -> si' t o.
  Hypothesis Hl : forall k o, li k o -> li' k o.

  Lemma value_is_more : forall v o, value_is si v o -> value_is si' v o.
  Proof.
    fix go 3. intros v o [t r H|l l' H|m m' Hw H|v' H1 H2 H3].
    - apply vi_str. apply Hs. exact H.
    - apply vi_arr. induction H as [|x y l l' (r & Hx & E) _ IH]; constructor; [ | exact IH ].
      exists r. split; [ exact (go x r Hx) | exact E ].
    - apply vi_map; [ exact Hw | ]. clear Hw. induction H as [|x y m m' ((r & Hx & E) & (r2 & Hy & E2)) _ IH]; constructor; [ | exact IH ].
      split; [ exists r; split; [ exact (go (fst x) r Hx) | exact E ] | exists r2; split; [ exact (go (snd x) r2 Hy) | exact E2 ] ].
    - apply vi_other; assumption.
  Qed.

  Lemma expression_is_more : forall e t, expression_is w sc si li e t -> expression_is w sc si' li' e t.
  Proof.
    intros e t [H|arg H|arg x ps H1 H2 H3 H4|arg x ps v r o H1 H2 H3 H4 H5 H6|name arg ps o H1 H2 H3 H4].
    - apply ei_empty. exact H.
    - apply ei_literal. exact H.
    - eapply ei_unset; eassumption.
    - eapply ei_scope; try eassumption. apply value_is_more. exact H5.
    - eapply ei_lookup; try eassumption. apply Hl. exact H4.
  Qed.

  Lemma whole_is_more : forall t o, whole_is w sc si li t o -> whole_is w sc si' li' t o.
  Proof.
    intros t o [cut rs last H1 H2|e arg ps o' H1 H2 H3 H4|e arg ps o' H1 H2 H3 H4].
    - apply wi_text; [ exact H1 | ]. eapply Forall2_weaken; [ | exact H2 ]. intros p r. apply expression_is_more.
    - eapply wi_alias; try eassumption. apply Hl. exact H4.
    - eapply wi_strict_alias; try eassumption. apply Hl. exact H4.
  Qed.
End More.

(** The hierarchy with more answers to the values in it. *)
Section MoreHierarchy.
  Variables (w : world) (sc : scope) (vi vi' : value -> option value -> Prop) (r : string).
  Hypothesis Hv : forall v o, vi v o -> vi' v o.

  Lemma provides_more : forall e loc o, provides w sc vi r e loc o -> provides w sc vi' r e loc o.
  Proof.
    intros e loc o H. destruct H.
    - eapply pr_hash; eauto.
    - eapply pr_hash_not; eassumption.
    - eapply pr_environment; eassumption.
    - eapply pr_scope; eassumption.
    - eapply pr_key; eassumption.
    - eapply pr_key_unknown; eassumption.
    - eapply pr_dig; eassumption.
    - eapply pr_dig_unknown; eassumption.
  Qed.

  Lemma location_gives_more : forall e l o, location_gives w sc vi r e l o -> location_gives w sc vi' r e l o.
  Proof. intros e l o [H|o' H1 H2]; [ apply lg_absent; exact H | apply lg_there; [ exact H1 | apply provides_more; exact H2 ] ]. Qed.

  Lemma picks_more {L} (g g' : L -> option value -> Prop) s l o :
    (forall x o, g x o -> g' x o) -> picks g s l o -> picks g' s l o.
  Proof.
    intros H [pre x post v H1 H2|l' H1|s' l' outs H1 H2].
    - apply pk_first; [ | auto ]. eapply Forall_impl; [ | exact H1 ]. auto.
    - apply pk_none. eapply Forall_impl; [ | exact H1 ]. auto.
    - apply pk_merge; [ exact H1 | ]. eapply Forall2_weaken; [ exact H | exact H2 ].
  Qed.

  Lemma entry_gives_more : forall s e o, entry_gives w sc vi r s e o -> entry_gives w sc vi' r s e o.
  Proof.
    intros s e o [o' H1 H2|H1|l o' H1 H2|l1 l2 ls o' H1 H2].
    - apply eg_plain; [ exact H1 | apply provides_more; exact H2 ].
    - apply eg_empty. exact H1.
    - eapply eg_one; [ exact H1 | apply location_gives_more; exact H2 ].
    - eapply eg_many; [ exact H1 | ]. eapply picks_more; [ | exact H2 ]. apply location_gives_more.
  Qed.

  Lemma hierarchy_gives_more : forall s es o, hierarchy_gives w sc vi r s es o -> hierarchy_gives w sc vi' r s es o.
  Proof. intros s es o. apply picks_more. apply entry_gives_more. Qed.
End MoreHierarchy.

(** What needs no strategy is the same with one. *)
Lemma answers_any_strategy w sc es s : forall n t o,
  answers w sc es None n (QStr t) o -> answers w sc es (Some s) n (QStr t) o.
Proof.
  induction n as [|n IH]; intros t o H; [ destruct H | ]. cbn [answers] in *.
  eapply whole_is_more; [ exact IH | | exact H ]. intros k o'. clear - k. intro H.
  destruct n as [|n]; [ destruct H | ]. cbn [answers] in H. destruct H as [(ps & Ep & ->)|(s' & r & ps & v & E & _)]; [ | discriminate ].
  left. exists ps. auto.
Qed.

(** More nested steps. *)
Lemma answers_step w sc es st : forall n q o, answers w sc es st n q o -> answers w sc es st (S n) q o.
Proof.
  induction n as [|n IH]; intros q o H; [ destruct H | ].
  destruct q as [t|k].
  - change (answers w sc es st (S (S n)) (QStr t) o)
      with (whole_is w sc (fun t => answers w sc es st (S n) (QStr t)) (fun k => answers w sc es st (S n) (QKey k)) t o).
    change (answers w sc es st (S n) (QStr t) o)
      with (whole_is w sc (fun t => answers w sc es st n (QStr t)) (fun k => answers w sc es st n (QKey k)) t o) in H.
    eapply whole_is_more; [ | | exact H ]; intros; apply IH; assumption.
  - destruct H as [H|(s & r & ps & v & E & H1 & H2 & H3 & H4 & H5)]; [ left; exact H | right ].
    exists s, r, ps, v. repeat (split; [ assumption | ]). split.
    + eapply hierarchy_gives_more; [ | exact H4 ]. intros x y. apply value_is_more. intros t o'. apply IH.
    + destruct v as [x|]; [ | exact H5 ]. destruct H5 as (y & H5 & H6). exists y. split; [ | exact H6 ].
      eapply value_is_more; [ | exact H5 ]. intros t o'. apply IH.
Qed.
