(** Lookup2 and LookupAll, /repo/hiera/hiera.go: C35, C36 and C37. *)

From Coq Require Import String Ascii List ZArith Bool Lia.
From Verif Require Import Str Value Outcome Config State Api SpecApi ValueFacts.
Import ListNotations.
Open Scope string_scope.
Open Scope list_scope.

(** *** Maps *)

Lemma lookup_in_map_some names m v : lookup_in_map names m = Some v -> first_in m names v.
Proof.
  destruct m as [[|e0 r0]|]; [ discriminate | | discriminate ]. unfold lookup_in_map. generalize (e0 :: r0). intros e E. clear e0 r0.
  revert E. induction names as [|n r IH]; intro E; [ discriminate | ]. cbn [get_first] in E. destruct (mgets n e) eqn:G.
  - injection E as <-. exists [], n, r. split; [ reflexivity | ]. split; [ constructor | ]. exists e. split; [ reflexivity | exact G ].
  - destruct (IH E) as (pre & x & post & -> & H1 & H2). exists (n :: pre), x, post. split; [ reflexivity | ]. split; [ | exact H2 ].
    constructor; [ | exact H1 ]. intros w (e' & X & Y). injection X as <-. congruence.
Qed.

Lemma lookup_in_map_none names m : lookup_in_map names m = None -> Forall (without m) names.
Proof.
  destruct m as [[|e0 r0]|].
  - intros _. apply Forall_forall. intros n _ v (e & X & Y). injection X as <-. discriminate Y.
  - unfold lookup_in_map. generalize (e0 :: r0). intros e E. clear e0 r0.
    revert E. induction names as [|n r IH]; intro E; [ constructor | ]. cbn [get_first] in E. destruct (mgets n e) eqn:G; [ discriminate | ].
    constructor; [ | exact (IH E) ]. intros w (e' & X & Y). injection X as <-. congruence.
  - intros _. apply Forall_forall. intros n _ v (e & X & Y). discriminate X.
Qed.

Lemma first_in_not_without m names v : first_in m names v -> ~ Forall (without m) names.
Proof.
  intros (pre & n & post & -> & _ & H) F. apply Forall_app in F. destruct F as [_ F]. apply Forall_cons_iff in F.
  exact (proj1 F v H).
Qed.

Lemma app_same {A} (P : A -> Prop) pre n post pre' n' post' :
  pre ++ n :: post = pre' ++ n' :: post' -> Forall P pre -> Forall P pre' -> ~ P n -> ~ P n' -> pre = pre' /\ n = n' /\ post = post'.
Proof.
  revert pre'. induction pre as [|a pre IH]; intros [|a' pre'] E H H' Hn Hn'; cbn [app] in E.
  - inversion E; subst. auto.
  - inversion E; subst. inversion H'; contradiction.
  - inversion E; subst. inversion H; contradiction.
  - injection E as Ea E. subst a'. inversion H; subst. inversion H'; subst. destruct (IH pre' E) as (-> & -> & ->); auto.
Qed.

Lemma first_in_unique m names v v' : first_in m names v -> first_in m names v' -> v = v'.
Proof.
  intros (pre & n & post & -> & H1 & H2) (pre' & n' & post' & E & H3 & H4).
  destruct (app_same (without m) _ _ _ _ _ _ E H1 H3) as (_ & <- & _).
  - intro W. exact (W v H2).
  - intro W. exact (W v' H4).
  - destruct H2 as (e & -> & A). destruct H4 as (e' & X & B). injection X as <-. congruence.
Qed.

Section Lookup2.
  Context {S T : Type}.
  Variable ask : string -> M S (option value).
  Variable inst : T -> option value -> bool.
  Variable conv : T -> option value -> outcome (option value).

  Lemma ensure_of_type t v r : ensure_type inst conv t v = r <-> of_type inst conv t v r.
  Proof.
    split.
    - intros <-. destruct t as [t|]; [ | constructor ]. cbn [ensure_type]. destruct (inst t v) eqn:E; [ constructor | econstructor ]; auto.
    - intros [v0|t0 v0 H|t0 v0 r0 H H0]; cbn [ensure_type]; [ reflexivity | | ]; rewrite H; auto.
  Qed.

  (** *** The data *)

  Lemma nothing_functional names : forall s s1 s2, nothing_for ask names s s1 -> nothing_for ask names s s2 -> s1 = s2.
  Proof.
    induction names as [|n r IH]; intros s s1 s2 H1 H2; inversion H1; subst; inversion H2; subst; [ reflexivity | ].
    match goal with A : ask n s = _, B : ask n s = _ |- _ => rewrite A in B; injection B as <- end. eauto.
  Qed.

  (** Asking for the names: nothing, a value, or a stop. *)
  Lemma ask_each_nothing names : forall s s', nothing_for ask names s s' -> ask_each ask names s = (Ok None, s').
  Proof.
    intros s s' H. induction H as [s|n r s s1 s2 H H0 IH]; [ reflexivity | ]. cbn [ask_each]. unfold bind. rewrite H. exact IH.
  Qed.

  Lemma ask_each_skip pre : forall s s1 r, nothing_for ask pre s s1 -> ask_each ask (pre ++ r) s = ask_each ask r s1.
  Proof.
    intros s s1 r H. induction H as [s|n q s s1 s2 H H0 IH]; [ reflexivity | ]. cbn [app ask_each]. unfold bind. rewrite H. exact IH.
  Qed.

  Lemma ask_each_found names s v s' : first_found ask names s v s' -> ask_each ask names s = (Ok (Some v), s').
  Proof.
    intros (pre & n & post & s1 & -> & H & E). rewrite (ask_each_skip pre s s1 _ H). cbn [ask_each]. unfold bind. rewrite E. reflexivity.
  Qed.

  Lemma ask_each_cases names : forall s o s', ask_each ask names s = (o, s') ->
    (o = Ok None /\ nothing_for ask names s s') \/
    (exists v, o = Ok (Some v) /\ first_found ask names s v s') \/
    (exists pre n post s1, names = pre ++ n :: post /\ nothing_for ask pre s s1 /\ ask n s1 = (o, s') /\ (forall x, o <> Ok x)).
  Proof.
    induction names as [|n r IH]; intros s o s' E.
    - injection E as <- <-. left. split; [ reflexivity | constructor ].
    - cbn [ask_each] in E. unfold bind in E. destruct (ask n s) as [[[v|]|e| |] s1] eqn:G.
      + injection E as <- <-. right. left. exists v. split; [ reflexivity | ]. exists [], n, r, s. split; [ reflexivity | ]. split; [ constructor | exact G ].
      + destruct (IH s1 o s' E) as [[-> H]|[(v & -> & pre & n' & post & s2 & -> & H & H0)|(pre & n' & post & s2 & -> & H & H0 & H1)]].
        * left. split; [ reflexivity | ]. econstructor; eassumption.
        * right. left. exists v. split; [ reflexivity | ]. exists (n :: pre), n', post, s2. split; [ reflexivity | ]. split; [ econstructor; eassumption | exact H0 ].
        * right. right. exists (n :: pre), n', post, s2. split; [ reflexivity | ]. split; [ econstructor; eassumption | ]. split; assumption.
      + injection E as <- <-. right. right. exists [], n, r, s. split; [ reflexivity | ]. split; [ constructor | ]. split; [ exact G | discriminate ].
      + injection E as <- <-. right. right. exists [], n, r, s. split; [ reflexivity | ]. split; [ constructor | ]. split; [ exact G | discriminate ].
      + injection E as <- <-. right. right. exists [], n, r, s. split; [ reflexivity | ]. split; [ constructor | ]. split; [ exact G | discriminate ].
  Qed.

  Lemma lookup2_cases names t dv ov df fn s r s' : lookup2 inst conv ask names t dv ov df fn s = (r, s') ->
    (exists a, answer ask names ov df dv fn s a s' /\ delivered inst conv t a r) \/ stops ask names ov df dv fn s r s'.
  Proof.
    intro E. unfold lookup2 in E. destruct (lookup_in_map names ov) as [v|] eqn:Eo.
    { left. exists (Some (Some v)). injection E as E <-. split; [ apply an_override, lookup_in_map_some, Eo | ].
      constructor. apply ensure_of_type, E. }
    apply lookup_in_map_none in Eo. unfold bind at 1 in E. destruct (ask_each ask names s) as [o s1] eqn:G.
    destruct (ask_each_cases names s o s1 G) as [[-> H]|[(v & -> & H)|(pre & n & post & s2 & Hn & H & H0 & H1)]].
    - destruct (lookup_in_map names df) as [v|] eqn:Ed.
      { left. exists (Some (Some v)). injection E as E <-. split; [ apply an_defaults; auto; apply lookup_in_map_some, Ed | ].
        constructor. apply ensure_of_type, E. }
      apply lookup_in_map_none in Ed. destruct dv as [v|].
      { left. exists (Some (Some v)). injection E as E <-. split; [ apply an_value; auto | ]. constructor. apply ensure_of_type, E. }
      destruct fn as [f|].
      + unfold bind in E. destruct (f s1) as [o2 s2] eqn:F. destruct o2 as [v|e| |].
        * left. exists (Some v). injection E as E <-. split; [ eapply an_function; eauto | ]. constructor. apply ensure_of_type, E.
        * right. injection E as <- <-. eapply st_function; eauto; discriminate.
        * right. injection E as <- <-. eapply st_function; eauto; discriminate.
        * right. injection E as <- <-. eapply st_function; eauto; discriminate.
      + injection E as <- <-. left. exists None. split; [ apply an_nothing; auto | constructor ].
    - injection E as E <-. left. exists (Some (Some v)). split; [ apply an_data; auto | ]. constructor. apply ensure_of_type, E.
    - right. destruct o as [x|e| |]; [ elim (H1 x eq_refl) | | | ]; injection E as <- <-; eapply st_data; eauto.
  Qed.

  Lemma lookup_in_map_first names m v : first_in m names v -> lookup_in_map names m = Some v.
  Proof.
    intro F. destruct (lookup_in_map names m) as [v'|] eqn:E.
    - apply lookup_in_map_some in E. f_equal. exact (first_in_unique m names v' v E F).
    - apply lookup_in_map_none in E. elim (first_in_not_without _ _ _ F E).
  Qed.
  Lemma lookup_in_map_without names m : Forall (without m) names -> lookup_in_map names m = None.
  Proof.
    intro F. destruct (lookup_in_map names m) as [v|] eqn:E; [ | reflexivity ].
    apply lookup_in_map_some in E. elim (first_in_not_without _ _ _ E F).
  Qed.

  Lemma lookup2_answer names t dv ov df fn s a s' r : answer ask names ov df dv fn s a s' -> delivered inst conv t a r ->
    lookup2 inst conv ask names t dv ov df fn s = (r, s').
  Proof.
    intros H D. unfold lookup2.
    destruct H as [s v H|s v s' H H0|s v s' H H0 H1|s v s' H H0 H1 H2|s f s1 v s' H H0 H1 H2 H3 H4|s s' H H0 H1 H2 H3];
      inversion D as [|? ? O]; subst; try (apply ensure_of_type in O; subst r).
    - rewrite (lookup_in_map_first names ov v H). reflexivity.
    - rewrite (lookup_in_map_without names ov H). unfold bind. rewrite (ask_each_found names s v s' H0). reflexivity.
    - rewrite (lookup_in_map_without names ov H). unfold bind. rewrite (ask_each_nothing names s s' H0).
      rewrite (lookup_in_map_first names df v H1). reflexivity.
    - rewrite (lookup_in_map_without names ov H). unfold bind. rewrite (ask_each_nothing names s s' H0).
      rewrite (lookup_in_map_without names df H1). reflexivity.
    - rewrite (lookup_in_map_without names ov H). unfold bind. rewrite (ask_each_nothing names s s1 H0).
      rewrite (lookup_in_map_without names df H1). rewrite H4. reflexivity.
    - rewrite (lookup_in_map_without names ov H). unfold bind. rewrite (ask_each_nothing names s s' H0).
      rewrite (lookup_in_map_without names df H1). reflexivity.
  Qed.

  Lemma lookup2_stops names t dv ov df fn s o s' : stops ask names ov df dv fn s o s' -> lookup2 inst conv ask names t dv ov df fn s = (o, s').
  Proof.
    intros [pre n post s0 s1 o0 s2 H -> H1 H2 H3|f s0 s1 o0 s2 H H0 H1 H2 H3 H4 H5]; unfold lookup2; rewrite (lookup_in_map_without _ ov H); unfold bind.
    - rewrite (ask_each_skip pre s0 s1 _ H1). cbn [ask_each]. unfold bind. rewrite H2.
      destruct o0 as [x|e| |]; [ elim (H3 x eq_refl) | | | ]; reflexivity.
    - rewrite (ask_each_nothing names s0 s1 H0). rewrite (lookup_in_map_without names df H1). rewrite H2, H3, H4.
      destruct o0 as [x|e| |]; [ elim (H5 x eq_refl) | | | ]; reflexivity.
  Qed.

  (** *** C35 *)

  (** Lookup2 returns (or panics, if the value has to be converted and cannot
      be) exactly as the first source that has a value says; what comes later is
      not asked, since the state is the one that source left. *)
  Theorem C35_first_source : forall names t dv ov df fn s r s',
    lookup2 inst conv ask names t dv ov df fn s = (r, s') <->
    (exists a, answer ask names ov df dv fn s a s' /\ delivered inst conv t a r) \/ stops ask names ov df dv fn s r s'.
  Proof.
    intros names t dv ov df fn s r s'. split; [ apply lookup2_cases | ].
    intros [(a & H & D)|H]; [ exact (lookup2_answer names t dv ov df fn s a s' r H D) | exact (lookup2_stops names t dv ov df fn s r s' H) ].
  Qed.

  (** There is only one such source. *)
  Theorem C35_one_answer : forall names dv ov df fn s a1 s1 a2 s2,
    answer ask names ov df dv fn s a1 s1 -> answer ask names ov df dv fn s a2 s2 -> a1 = a2 /\ s1 = s2.
  Proof.
    intros names dv ov df fn s a1 s1 a2 s2 H1 H2.
    assert (D : forall a, exists r, @delivered T inst conv None a r).
    { intros [v|]; [ exists (Ok v); constructor; constructor | exists (Ok None); constructor ]. }
    pose proof (fun r => lookup2_answer names None dv ov df fn s a1 s1 r H1) as E1.
    pose proof (fun r => lookup2_answer names None dv ov df fn s a2 s2 r H2) as E2.
    assert (V : forall s a s', answer ask names ov df dv fn s a s' -> a = None -> dv = None /\ fn = None).
    { intros ? ? ? [| | | | |] E; try discriminate E. auto. }
    assert (W : forall s a s', answer ask names ov df dv fn s a s' -> forall v, a = Some v -> dv = None -> fn = None -> exists x, v = Some x).
    { intros ? ? ? [? v0 H|? v0 ? H ?|? v0 ? H ? ?|? v0 ? H ? ? ?|? f ? v0 ? H ? ? ? H3 ?|? ? H ? ? ? ?] v E Hd Hf; try (injection E as <-; eauto); congruence. }
    destruct a1 as [v1|], a2 as [v2|].
    - specialize (E1 (Ok v1) ltac:(constructor; constructor)). specialize (E2 (Ok v2) ltac:(constructor; constructor)).
      rewrite E1 in E2. injection E2 as <- <-. auto.
    - specialize (E1 (Ok v1) ltac:(constructor; constructor)). specialize (E2 (Ok None) ltac:(constructor)).
      rewrite E1 in E2. injection E2 as -> <-. destruct (V _ _ _ H2 eq_refl) as [Hd Hf]. destruct (W _ _ _ H1 _ eq_refl Hd Hf). discriminate.
    - specialize (E1 (Ok None) ltac:(constructor)). specialize (E2 (Ok v2) ltac:(constructor; constructor)).
      rewrite E1 in E2. injection E2 as <- <-. destruct (V _ _ _ H1 eq_refl) as [Hd Hf]. destruct (W _ _ _ H2 _ eq_refl Hd Hf). discriminate.
    - specialize (E1 (Ok None) ltac:(constructor)). specialize (E2 (Ok None) ltac:(constructor)).
      rewrite E1 in E2. injection E2 as <-. auto.
  Qed.

  (** *** C37 *)

  (** What Lookup2 returns for a type is of that type, or is the result of
      converting the value of the first source, which is not, to it; or no
      source has a value. *)
  Theorem C37_typed : forall names t dv ov df fn s r s',
    lookup2 inst conv ask names (Some t) dv ov df fn s = (Ok r, s') ->
    inst t r = true \/
    (exists v, answer ask names ov df dv fn s (Some v) s' /\ inst t v = false /\ conv t v = Ok r) \/
    (r = None /\ answer ask names ov df dv fn s None s').
  Proof.
    intros names t dv ov df fn s r s' E. apply lookup2_cases in E. destruct E as [(a & H & D)|H].
    - inversion D as [|v r0 O]; subst; [ right; right; auto | ]. inversion O as [|t0 v0 I|t0 v0 r0 I C]; subst; [ left; exact I | ].
      right. left. exists v. auto.
    - inversion H; subst; exfalso; match goal with N : forall x, Ok r <> Ok x |- _ => exact (N r eq_refl) end.
  Qed.

  (** If the results of converting are always of the type then so is everything
      that Lookup2 returns. *)
  Theorem C37_always_of_type : forall names t dv ov df fn s v s',
    (forall x y, conv t x = Ok y -> inst t y = true) ->
    lookup2 inst conv ask names (Some t) dv ov df fn s = (Ok (Some v), s') -> inst t (Some v) = true.
  Proof.
    intros names t dv ov df fn s v s' C E. destruct (C37_typed _ _ _ _ _ _ _ _ _ E) as [H|[(x & _ & _ & H)|[H _]]];
      [ exact H | exact (C x (Some v) H) | discriminate H ].
  Qed.

  (** *** LookupAll *)

  Lemma one_in_map n m v : lookup_in_map [n] m = Some v <-> entry_of m n v.
  Proof.
    split.
    - intro E. apply lookup_in_map_some in E. destruct E as (pre & x & post & E & _ & H).
      destruct pre as [|a [|b pre]]; [ inversion E; subst; exact H | discriminate | discriminate ].
    - intro H. apply lookup_in_map_first. exists [], n, []. split; [ reflexivity | ]. split; [ constructor | exact H ].
  Qed.
  Lemma none_in_map n m : lookup_in_map [n] m = None <-> without m n.
  Proof.
    split.
    - intro E. apply lookup_in_map_none in E. inversion E; assumption.
    - intro H. apply lookup_in_map_without. repeat constructor. exact H.
  Qed.

  (** Put the values that were found. *)
  Fixpoint put_found (t : option (list (string * T))) (l : list (string * option value)) (m : entries) : outcome entries :=
    match l with
    | [] => Ok m
    | (n, None) :: r => put_found t r m
    | (n, Some v) :: r => obind (ensure_type_from_map inst conv t n v) (fun x => put_found t r (mput (VStr n) (or_null x) m))
    end.

  Lemma all_of_sources ov df names t : forall s l s' m, sources ask ov df names s l s' ->
    forall m', put_found t l m = Ok m' -> all_of inst conv ask names t ov df m s = (Ok m', s').
  Proof.
    intros s l s' m H. revert m. induction H as [s|n r s o s1 l s2 Hs H IH]; intros m m' E.
    - injection E as <-. reflexivity.
    - cbn [all_of]. cbn [put_found] in E. destruct Hs as [s v H1|s v s1 H1 H2|s v s1 H1 H2 H3|s s1 H1 H2 H3].
      + rewrite (proj2 (one_in_map n ov v) H1). unfold bind, lift. destruct (ensure_type_from_map inst conv t n v) as [x|e| |]; try discriminate E. exact (IH _ m' E).
      + rewrite (proj2 (none_in_map n ov) H1). unfold bind, lift. rewrite H2. cbv beta iota. destruct (ensure_type_from_map inst conv t n v) as [x|e| |]; try discriminate E. exact (IH _ m' E).
      + rewrite (proj2 (none_in_map n ov) H1). unfold bind, lift. rewrite H2. cbv beta iota. rewrite (proj2 (one_in_map n df v) H3).
        destruct (ensure_type_from_map inst conv t n v) as [x|e| |]; try discriminate E. exact (IH _ m' E).
      + rewrite (proj2 (none_in_map n ov) H1). unfold bind. rewrite H2. rewrite (proj2 (none_in_map n df) H3). exact (IH m m' E).
  Qed.

  Lemma all_of_ok ov df names t : forall s m m' s', all_of inst conv ask names t ov df m s = (Ok m', s') ->
    exists l, sources ask ov df names s l s' /\ put_found t l m = Ok m'.
  Proof.
    induction names as [|n r IH]; intros s m m' s' E.
    - injection E as <- <-. exists []. split; [ constructor | reflexivity ].
    - cbn [all_of] in E. destruct (lookup_in_map [n] ov) as [v|] eqn:Eo.
      { apply one_in_map in Eo. unfold bind, lift in E. destruct (ensure_type_from_map inst conv t n v) as [x|e| |] eqn:X; try discriminate E.
        destruct (IH _ _ _ _ E) as (l & H & P). exists ((n, Some v) :: l). split; [ econstructor; [ apply so_override, Eo | exact H ] | ].
        cbn [put_found]. rewrite X. exact P. }
      apply none_in_map in Eo. unfold bind at 1 in E. destruct (ask n s) as [[[v|]|e| |] s1] eqn:G; try discriminate E.
      + unfold bind, lift in E. destruct (ensure_type_from_map inst conv t n v) as [x|e| |] eqn:X; try discriminate E.
        destruct (IH _ _ _ _ E) as (l & H & P). exists ((n, Some v) :: l). split; [ econstructor; [ apply so_data; eassumption | exact H ] | ].
        cbn [put_found]. rewrite X. exact P.
      + destruct (lookup_in_map [n] df) as [v|] eqn:Ed.
        * apply one_in_map in Ed. unfold bind, lift in E. destruct (ensure_type_from_map inst conv t n v) as [x|e| |] eqn:X; try discriminate E.
          destruct (IH _ _ _ _ E) as (l & H & P). exists ((n, Some v) :: l). split; [ econstructor; [ eapply so_defaults; eassumption | exact H ] | ].
          cbn [put_found]. rewrite X. exact P.
        * apply none_in_map in Ed. destruct (IH _ _ _ _ E) as (l & H & P). exists ((n, None) :: l). split; [ | exact P ].
          econstructor; [ eapply so_none; eassumption | exact H ].
  Qed.

  (** What was put: the keys are the names that were answered, in order of the
      first time, and each has what the last answer with that name gives. *)
  Definition answered (l : list (string * option value)) : list string :=
    flat_map (fun e => match snd e with Some _ => [fst e] | None => [] end) l.
End Lookup2.

Lemma mput_str_keys n v m names : map fst m = map VStr names ->
  map fst (mput (VStr n) v m) = map VStr (names ++ if existsb (String.eqb n) names then [] else [n]).
Proof.
  revert m. induction names as [|x names IH]; intros [|[k w] m] E; try discriminate E; [ reflexivity | ].
  cbn [map fst] in E. injection E as -> E. cbn [mput existsb]. change (veq (VStr n) (VStr x)) with (String.eqb n x).
  destruct (String.eqb n x) eqn:X; cbn [orb].
  - cbn [map fst app]. rewrite app_nil_r, E. reflexivity.
  - cbn [map fst app]. f_equal. exact (IH m E).
Qed.

Lemma mgets_mput n v m x : mgets x (mput (VStr n) v m) = if String.eqb x n then Some v else mgets x m.
Proof.
  unfold mgets. induction m as [|[k w] m IH]; cbn [mput mget].
  - change (veq (VStr x) (VStr n)) with (String.eqb x n). reflexivity.
  - destruct (veq (VStr n) k) eqn:E; cbn [mget].
    + apply veq_str_l in E. subst k. change (veq (VStr x) (VStr n)) with (String.eqb x n). destruct (String.eqb x n); reflexivity.
    + rewrite IH. destruct (veq (VStr x) k) eqn:F; [ | reflexivity ]. apply veq_str_l in F. subst k.
      change (veq (VStr n) (VStr x)) with (String.eqb n x) in E. rewrite String.eqb_sym in E. rewrite E. reflexivity.
Qed.

(** Names in order of first occurrence, after others. *)
Lemma firsts_app done l : fold_left (fun acc n => acc ++ if existsb (String.eqb n) acc then [] else [n]) l done
  = done ++ filter (fun n => negb (existsb (String.eqb n) done)) (firsts l).
Proof.
  revert done. induction l as [|n r IH]; intro done; cbn [fold_left firsts filter]; [ rewrite app_nil_r; reflexivity | ].
  rewrite IH. destruct (existsb (String.eqb n) done) eqn:E; cbn [negb].
  - rewrite app_nil_r. f_equal. clear - E. induction (firsts r) as [|m l IH]; [ reflexivity | ]. cbn [filter].
    destruct (String.eqb m n) eqn:X; cbn [negb]; [ apply String.eqb_eq in X; subst m; rewrite E; exact IH | ].
    cbn [filter]. destruct (existsb (String.eqb m) done); cbn [negb]; [ exact IH | f_equal; exact IH ].
  - rewrite <- app_assoc. f_equal. cbn [app]. f_equal. clear. induction (firsts r) as [|m l IH]; [ reflexivity | ]. cbn [filter].
    rewrite existsb_app. cbn [existsb]. rewrite orb_false_r. destruct (String.eqb m n) eqn:X; cbn [negb].
    + rewrite orb_true_r. exact IH.
    + rewrite orb_false_r. cbn [filter]. destruct (existsb (String.eqb m) done); cbn [negb]; [ exact IH | f_equal; exact IH ].
Qed.

Section LookupAll.
  Context {S T : Type}.
  Variable ask : string -> M S (option value).
  Variable inst : T -> option value -> bool.
  Variable conv : T -> option value -> outcome (option value).

  Lemma put_keys t l : forall m m' names, map fst m = map VStr names -> put_found inst conv t l m = Ok m' ->
    map fst m' = map VStr (fold_left (fun acc n => acc ++ if existsb (String.eqb n) acc then [] else [n]) (answered l) names).
  Proof.
    induction l as [|[n [v|]] r IH]; intros m m' names E P; cbn [put_found] in P.
    - injection P as <-. exact E.
    - destruct (ensure_type_from_map inst conv t n v) as [x|e| |]; try discriminate P. cbn [obind] in P.
      unfold answered. cbn [flat_map snd fst app fold_left].
      exact (IH _ m' _ (mput_str_keys n (or_null x) m names E) P).
    - exact (IH m m' names E P).
  Qed.

  (** *** C36 *)

  (** For any data, also such that changes between two lookups: the keys are the
      names for which one of the sources had a value when asked, in order of
      the first time that happened; the sources are asked name by name, in the
      order of the request, and no others. *)
  Theorem C36_keys : forall names ov df t s v s',
    lookup_all inst conv ask names t ov df s = (Ok v, s') ->
    exists l m, sources ask ov df names s l s' /\ v = VMap m /\ map fst m = map VStr (firsts (answered l)).
  Proof.
    intros names ov df t s v s' E. unfold lookup_all, bind in E.
    destruct (all_of inst conv ask names t ov df [] s) as [[m|e| |] s1] eqn:A; try discriminate E. injection E as <- <-.
    destruct (all_of_ok ask inst conv ov df names t s [] m s1 A) as (l & H & P). exists l, m. split; [ exact H | ]. split; [ reflexivity | ].
    rewrite (put_keys t l [] m [] eq_refl P), firsts_app. cbn [existsb negb app]. f_equal.
    induction (firsts (answered l)) as [|x q IH]; [ reflexivity | ]. cbn [filter negb]. f_equal. exact IH.
  Qed.

  (** The value of the first of three sources. *)
  Inductive value_of (found : string -> option value) (ov df : option entries) (n : string) : option value -> Prop :=
  | vo_override v : entry_of ov n v -> value_of found ov df n (Some v)
  | vo_data v : without ov n -> found n = Some v -> value_of found ov df n (Some v)
  | vo_defaults v : without ov n -> found n = None -> entry_of df n v -> value_of found ov df n (Some v)
  | vo_none : without ov n -> found n = None -> without df n -> value_of found ov df n None.

  Lemma entry_dec m n : (exists v, entry_of m n v) \/ without m n.
  Proof.
    destruct m as [e|]; [ | right; intros v (x & E & _); discriminate E ].
    destruct (mgets n e) as [v|] eqn:G; [ left; exists v, e; auto | right ]. intros v (x & E & H). injection E as <-. congruence.
  Qed.

  Lemma value_of_total found ov df n : exists o, value_of found ov df n o.
  Proof.
    destruct (entry_dec ov n) as [[v H]|H]; [ eexists; eapply vo_override, H | ].
    destruct (found n) as [v|] eqn:F; [ eexists; eapply vo_data; eassumption | ].
    destruct (entry_dec df n) as [[v H0]|H0]; [ eexists; eapply vo_defaults; eassumption | ].
    eexists. apply vo_none; assumption.
  Qed.

  Lemma value_of_fun found ov df n o1 o2 : value_of found ov df n o1 -> value_of found ov df n o2 -> o1 = o2.
  Proof.
    assert (U : forall m v1 v2, entry_of m n v1 -> entry_of m n v2 -> v1 = v2).
    { intros m v1 v2 (e & -> & A) (e' & E & B). injection E as <-. congruence. }
    intros [v1 A|v1 A B|v1 A B C|A B C] [v2 D|v2 D E|v2 D E F|D E F]; try congruence; try (exfalso; unfold without, not in *; now eauto);
      f_equal; eauto.
  Qed.

  Section Steady.
    (** Data that does not change: asking leads from one good state to another. *)
    Variable good : S -> Prop.
    Variable found : string -> option value.
    Variables ov df : option entries.

    Lemma source_of names n s : (forall x q, In x names -> good q -> exists q', ask x q = (Ok (found x), q') /\ good q') ->
      In n names -> good s -> exists o s', source ask ov df n s o s' /\ value_of found ov df n o /\ good s'.
    Proof.
      intros H Hn G. destruct (entry_dec ov n) as [[v O]|O]; [ exists (Some v), s; split; [ | split ]; [ constructor | constructor | ]; assumption | ].
      destruct (H n s Hn G) as (s' & A & G'). destruct (found n) as [v|] eqn:F.
      - exists (Some v), s'. split; [ apply so_data; assumption | ]. split; [ apply vo_data; assumption | exact G' ].
      - destruct (entry_dec df n) as [[v D]|D].
        + exists (Some v), s'. split; [ apply so_defaults; assumption | ]. split; [ apply vo_defaults; assumption | exact G' ].
        + exists None, s'. split; [ apply so_none; assumption | ]. split; [ apply vo_none; assumption | exact G' ].
    Qed.

    Lemma sources_of names : (forall x q, In x names -> good q -> exists q', ask x q = (Ok (found x), q') /\ good q') ->
      forall s, good s -> exists l s', sources ask ov df names s l s' /\ good s' /\ map fst l = names /\
        Forall (fun e => value_of found ov df (fst e) (snd e)) l.
    Proof.
      induction names as [|n r IH]; intros H s G.
      - exists [], s. split; [ constructor | ]. split; [ exact G | ]. split; [ reflexivity | constructor ].
      - destruct (source_of (n :: r) n s H (or_introl eq_refl) G) as (o & s1 & H1 & V & G1).
        destruct (IH (fun x q Hx => H x q (or_intror Hx)) s1 G1) as (l & s2 & H2 & G2 & E & F).
        exists ((n, o) :: l), s2. split; [ econstructor; eassumption | ]. split; [ exact G2 | ]. split; [ cbn [map fst]; congruence | ].
        constructor; assumption.
    Qed.
  End Steady.

  Lemma put_values (found : string -> option value) ov df l : forall m, Forall (fun e => value_of found ov df (fst e) (snd e)) l ->
    (forall x v, mgets x m = Some v -> value_of found ov df x (Some v)) ->
    exists m', put_found inst conv None l m = Ok m' /\
      (forall x v, mgets x m' = Some v -> value_of found ov df x (Some v)) /\
      (forall x, In x (answered l) \/ mgets x m <> None -> mgets x m' <> None).
  Proof.
    induction l as [|[n [v|]] r IH]; intros m F Hm.
    - exists m. split; [ reflexivity | ]. split; [ exact Hm | ]. intros x [[]|H]. exact H.
    - inversion F as [|? ? V F']; subst. cbn [fst snd] in V. cbn [put_found ensure_type_from_map obind or_null].
      destruct (IH (mput (VStr n) v m) F') as (m' & P & A & B).
      { intros x w E. rewrite mgets_mput in E. destruct (String.eqb x n) eqn:X; [ | exact (Hm x w E) ].
        apply String.eqb_eq in X. subst x. injection E as <-. exact V. }
      exists m'. split; [ exact P | ]. split; [ exact A | ]. intros x H. apply B.
      rewrite mgets_mput. unfold answered in H. cbn [flat_map snd fst app] in H. destruct (String.eqb x n) eqn:X; [ right; discriminate | ].
      destruct H as [[->|H]|H]; [ rewrite String.eqb_refl in X; discriminate | left; exact H | right; exact H ].
    - inversion F as [|? ? V F']; subst. exact (IH m F' Hm).
  Qed.

  (** When the data gives each of the names the same answer whenever it is asked
      (in the states that good describes), LookupAll returns a map with exactly
      the names that have a value, in the order of first request, each with the
      value of its first source. *)
  Theorem C36_values : forall (good : S -> Prop) (found : string -> option value) names ov df s,
    (forall x q, In x names -> good q -> exists q', ask x q = (Ok (found x), q') /\ good q') -> good s ->
    exists m s', lookup_all inst conv ask names None ov df s = (Ok (VMap m), s') /\ good s' /\
      (exists has, (forall n, has n = true <-> exists v, value_of found ov df n (Some v)) /\
                   map fst m = map VStr (firsts (filter has names))) /\
      (forall n v, mgets n m = Some v <-> In n names /\ value_of found ov df n (Some v)).
  Proof.
    intros good found names ov df s H G.
    destruct (sources_of good found ov df names H s G) as (l & s' & Hl & G' & El & Fl).
    destruct (put_values found ov df l [] Fl) as (m & P & A & B); [ discriminate | ].
    exists m, s'. unfold lookup_all, bind. rewrite (all_of_sources ask inst conv ov df names None s l s' [] Hl m P).
    split; [ reflexivity | ]. split; [ exact G' | ].
    pose (has := fun n => match lookup_in_map [n] ov with Some _ => true | None => match found n with Some _ => true | None => match lookup_in_map [n] df with Some _ => true | None => false end end end).
    assert (Hh : forall n, has n = true <-> exists v, value_of found ov df n (Some v)).
    { intro n. unfold has. destruct (lookup_in_map [n] ov) as [v|] eqn:Eo.
      - apply one_in_map in Eo. split; [ intros _; exists v; apply vo_override, Eo | reflexivity ].
      - apply none_in_map in Eo. destruct (found n) as [v|] eqn:Ef.
        + split; [ intros _; exists v; apply vo_data; assumption | reflexivity ].
        + destruct (lookup_in_map [n] df) as [v|] eqn:Ed.
          * apply one_in_map in Ed. split; [ intros _; exists v; apply vo_defaults; assumption | reflexivity ].
          * apply none_in_map in Ed. split; [ discriminate | ]. intros (v & V).
            pose proof (value_of_fun _ _ _ _ _ _ V (vo_none found ov df n Eo Ef Ed)). discriminate. }
    assert (An : answered l = filter has names).
    { clear - Fl El Hh. subst names. induction Fl as [|[n o] l V Fl IH]; [ reflexivity | ]. cbn [map fst filter] in *.
      unfold answered. cbn [flat_map snd fst]. destruct o as [v|].
      - rewrite (proj2 (Hh n)) by (exists v; exact V). cbn [app]. f_equal. exact IH.
      - destruct (has n) eqn:E; [ | exact IH ]. apply Hh in E. destruct E as [v E]. pose proof (value_of_fun _ _ _ _ _ _ V E). discriminate. }
    split.
    - exists has. split; [ exact Hh | ]. rewrite (put_keys None l [] m [] eq_refl P), firsts_app. rewrite An. cbn [existsb negb app]. f_equal.
      induction (firsts (filter has names)) as [|x q IH]; [ reflexivity | ]. cbn [filter negb]. f_equal. exact IH.
    - intros n v. split.
      + intro E. split; [ | exact (A n v E) ].
        assert (K : In (VStr n) (map fst m)).
        { unfold mgets in E. apply mget_in in E. destruct E as (k & I & Q). apply veq_str_l in Q. subst k. apply (in_map fst) in I. exact I. }
        rewrite (put_keys None l [] m [] eq_refl P), firsts_app in K. cbn [app] in K. apply in_map_iff in K. destruct K as (x & E1 & E2). injection E1 as ->.
        apply filter_In in E2. destruct E2 as [E2 _]. rewrite An in E2.
        assert (In n (filter has names)) as I by (clear - E2; revert E2; generalize (filter has names); intro q; induction q as [|a q IH]; cbn [firsts]; [ auto | ];
          intros [->|I]; [ left; reflexivity | right ]; apply filter_In in I; apply IH, I).
        apply filter_In in I. apply I.
      + intros [I V]. assert (N : mgets n m <> None).
        { apply B. left. rewrite An. apply filter_In. split; [ exact I | ]. apply Hh. exists v. exact V. }
        destruct (mgets n m) as [w|] eqn:E; [ | contradiction ]. pose proof (value_of_fun _ _ _ _ _ _ V (A n w E)). congruence.
  Qed.

  (** *** C37 for LookupAll *)

  (** With a map type, the result has only names that the type has, with values
      that are instances of the type of that name, or converted to it. *)
  Theorem C37_all_typed : forall names types ov df s v s',
    lookup_all inst conv ask names (Some types) ov df s = (Ok v, s') ->
    exists m, v = VMap m /\
      forall n x, mgets n m = Some x -> exists t y, In (n, t) types /\ of_type inst conv (Some t) y (Ok (Some x)) \/
                                                    In (n, t) types /\ of_type inst conv (Some t) y (Ok None) /\ x = VNil.
  Proof.
    intros names types ov df s v s' E. unfold lookup_all, bind in E.
    destruct (all_of inst conv ask names (Some types) ov df [] s) as [[m|e| |] s1] eqn:A; try discriminate E. injection E as <- <-.
    exists m. split; [ reflexivity | ]. destruct (all_of_ok ask inst conv ov df names (Some types) s [] m s1 A) as (l & _ & P). clear A.
    assert (Q : forall (l : list (string * option value)) m m', put_found inst conv (Some types) l m = Ok m' ->
              (forall n x, mgets n m = Some x -> exists t y, In (n, t) types /\ of_type inst conv (Some t) y (Ok (Some x)) \/ In (n, t) types /\ of_type inst conv (Some t) y (Ok None) /\ x = VNil) ->
              forall n x, mgets n m' = Some x -> exists t y, In (n, t) types /\ of_type inst conv (Some t) y (Ok (Some x)) \/ In (n, t) types /\ of_type inst conv (Some t) y (Ok None) /\ x = VNil).
    { clear. intro l. induction l as [|[n [w|]] r IH]; intros m m' P H; cbn [put_found] in P.
      - injection P as <-. exact H.
      - unfold ensure_type_from_map in P. destruct (find (fun e => String.eqb (fst e) n) types) as [[n' t]|] eqn:F; [ | discriminate P ].
        apply find_some in F. destruct F as [I X]. apply String.eqb_eq in X. cbn [fst] in X. subst n'. cbn [snd] in P.
        destruct (ensure_type inst conv (Some t) (Some w)) as [x|e| |] eqn:T1; try discriminate P. apply ensure_of_type in T1. cbn [obind] in P.
        refine (IH _ m' P _). intros n2 x2 E2. rewrite mgets_mput in E2. destruct (String.eqb n2 n) eqn:X; [ | exact (H n2 x2 E2) ].
        apply String.eqb_eq in X. subst n2. injection E2 as <-. exists t, (Some w). destruct x as [x|]; [ left | right ]; auto.
      - exact (IH m m' P H). }
    refine (Q l [] m P _). discriminate.
  Qed.

  Lemma all_of_app types ov df post : forall pre m s m' s1, all_of inst conv ask pre types ov df m s = (Ok m', s1) ->
    all_of inst conv ask (pre ++ post) types ov df m s = all_of inst conv ask post types ov df m' s1.
  Proof.
    induction pre as [|n r IH]; intros m s m' s1 E; [ injection E as -> ->; reflexivity | ].
    cbn [app all_of] in *. destruct (lookup_in_map [n] ov) as [v|].
    - unfold bind in *. destruct (lift (ensure_type_from_map inst conv types n v) s) as [[x|e| |] s2]; try discriminate E. exact (IH _ _ _ _ E).
    - unfold bind at 1. unfold bind at 1 in E. destruct (ask n s) as [[[v|]|e| |] s2]; try discriminate E.
      + unfold bind in *. destruct (lift (ensure_type_from_map inst conv types n v) s2) as [[x|e| |] s3]; try discriminate E. exact (IH _ _ _ _ E).
      + destruct (lookup_in_map [n] df) as [v|]; [ | exact (IH _ _ _ _ E) ].
        unfold bind in *. destruct (lift (ensure_type_from_map inst conv types n v) s2) as [[x|e| |] s3]; try discriminate E. exact (IH _ _ _ _ E).
  Qed.

  (** The first name that is found but that the type does not have makes
      LookupAll panic; the names after it are not asked for. *)
  Theorem C37_unknown_name_panics : forall pre n post types ov df s v0 s1 v s2,
    lookup_all inst conv ask pre (Some types) ov df s = (Ok v0, s1) ->
    source ask ov df n s1 (Some v) s2 -> (forall t, ~ In (n, t) types) ->
    lookup_all inst conv ask (pre ++ n :: post) (Some types) ov df s
    = (Panic (EErr ("key '" ++ n ++ "' was not found in the type map")), s2).
  Proof.
    intros pre n post types ov df s v0 s1 v s2 E Hs Ht. unfold lookup_all, bind in *.
    destruct (all_of inst conv ask pre (Some types) ov df [] s) as [[m|e| |] s3] eqn:A; try discriminate E. injection E as _ ->.
    rewrite (all_of_app (Some types) ov df (n :: post) pre [] s m s1 A). cbn [all_of].
    assert (X : forall x, @ensure_type_from_map T inst conv (Some types) n x = Panic (EErr ("key '" ++ n ++ "' was not found in the type map"))).
    { intro x. unfold ensure_type_from_map. destruct (find (fun e => String.eqb (fst e) n) types) as [[n' t]|] eqn:F; [ | reflexivity ].
      apply find_some in F. destruct F as [I Y]. apply String.eqb_eq in Y. cbn [fst] in Y. subst n'. elim (Ht t I). }
    inversion Hs as [? ? H|? ? ? H H0|? ? ? H H0 H1|]; subst.
    - rewrite (proj2 (one_in_map n ov v) H). unfold bind, lift. rewrite X. reflexivity.
    - rewrite (proj2 (none_in_map n ov) H). unfold bind, lift. rewrite H0. cbv beta iota. rewrite X. reflexivity.
    - rewrite (proj2 (none_in_map n ov) H). unfold bind, lift. rewrite H0. cbv beta iota. rewrite (proj2 (one_in_map n df v) H1). rewrite X. reflexivity.
  Qed.
End LookupAll.
Print Assumptions C35_first_source.
Print Assumptions C35_one_answer.
Print Assumptions C37_typed.
Print Assumptions C37_always_of_type.
Print Assumptions C36_keys.
Print Assumptions C36_values.
Print Assumptions C37_all_typed.
Print Assumptions C37_unknown_name_panics.

(** *** Examples *)

(** Data with values for b and c that logs what it is asked; a type of strings,
    to which integers can be converted, and a type that nothing can be converted
    to. *)
Definition log_ask (n : string) : M (list string) (option value) := fun s =>
  (Ok (if String.eqb n "b" then Some (VInt 1) else if String.eqb n "c" then Some (VStr "x") else None), s ++ [n]).
Inductive ex_type : Type := TString | TNever.
Definition ex_inst (t : ex_type) (v : option value) : bool :=
  match t, v with TString, Some (VStr _) => true | _, _ => false end.
Definition ex_conv (t : ex_type) (v : option value) : outcome (option value) :=
  match t, v with TString, Some (VInt z) => Ok (Some (VStr "one")) | _, _ => Panic (EErr "cannot convert") end.

(** a has nothing, b has a value that is converted; c and the default are not
    used. *)
Example C35_data_ex :
  lookup2 ex_inst ex_conv log_ask ["a"; "b"; "c"] (Some TString) (Some (VStr "d")) (Some [(VStr "z", VInt 9)]) (Some [(VStr "a", VInt 3)]) None []
  = (Ok (Some (VStr "one")), ["a"; "b"]).
Proof.
  apply C35_first_source. left. exists (Some (Some (VInt 1))). split.
  - apply an_data.
    + repeat constructor; intros v (e & E & H); injection E as <-; discriminate H.
    + exists ["a"], "b", ["c"], ["a"]. split; [ reflexivity | ]. split; [ econstructor; [ reflexivity | constructor ] | reflexivity ].
  - constructor. apply ot_converted; reflexivity.
Qed.

(** The override of the second name counts before the data of the first. *)
Example C35_override_ex :
  lookup2 ex_inst ex_conv log_ask ["b"; "z"] None None (Some [(VStr "z", VInt 9)]) None None [] = (Ok (Some (VInt 9)), []).
Proof.
  apply C35_first_source. left. exists (Some (Some (VInt 9))). split; [ | repeat constructor ].
  apply an_override. exists ["b"], "z", []. split; [ reflexivity | ]. split; [ | eexists; split; reflexivity ].
  repeat constructor. intros v (e & E & H). injection E as <-. discriminate H.
Qed.

Example C35_one_answer_ex : exists a, answer log_ask ["a"; "q"] None None None (Some (fun s => (Ok (Some (VInt 5)), s))) [] a ["a"; "q"] /\
  (forall a' s', answer log_ask ["a"; "q"] None None None (Some (fun s => (Ok (Some (VInt 5)), s))) [] a' s' -> a' = a).
Proof.
  assert (A : answer log_ask ["a"; "q"] None None None (Some (fun s => (Ok (Some (VInt 5)), s))) [] (Some (Some (VInt 5))) ["a"; "q"]).
  { eapply an_function; try reflexivity.
    - repeat constructor; intros v (e & E & H); discriminate E.
    - econstructor; [ reflexivity | ]. econstructor; [ reflexivity | constructor ].
    - repeat constructor; intros v (e & E & H); discriminate E. }
  exists (Some (Some (VInt 5))). split; [ exact A | ]. intros a' s' A'.
  exact (proj1 (@C35_one_answer _ ex_type log_ask ex_inst ex_conv _ _ _ _ _ _ _ _ _ _ A' A)).
Qed.

Example C37_typed_ex : forall r s',
  lookup2 ex_inst ex_conv log_ask ["b"] (Some TString) None None None None [] = (Ok r, s') -> ex_inst TString r = true.
Proof.
  intros [v|] s' E; [ | discriminate E ]. refine (C37_always_of_type log_ask ex_inst ex_conv ["b"] TString None None None None [] v s' _ E).
  intros [[]|] y H; try discriminate H. injection H as <-. reflexivity.
Qed.

(** Names asked for twice, in three sources; e is in none. *)
Example C36_ex : exists m s',
  lookup_all ex_inst ex_conv log_ask ["d"; "b"; "e"; "d"; "c"] None (Some [(VStr "c", VInt 7)]) (Some [(VStr "d", VInt 8); (VStr "b", VInt 9)]) []
  = (Ok (VMap m), s') /\ map fst m = [VStr "d"; VStr "b"; VStr "c"] /\ mgets "b" m = Some (VInt 1) /\ mgets "c" m = Some (VInt 7).
Proof.
  destruct (C36_values log_ask ex_inst ex_conv (fun _ => True)
              (fun n => if String.eqb n "b" then Some (VInt 1) else if String.eqb n "c" then Some (VStr "x") else None)
              ["d"; "b"; "e"; "d"; "c"] (Some [(VStr "c", VInt 7)]) (Some [(VStr "d", VInt 8); (VStr "b", VInt 9)]) [])
    as (m & s' & E & _ & _ & H); [ | exact I | ].
  - intros x q _ _. eexists. split; [ reflexivity | exact I ].
  - exists m, s'. split; [ exact E | ]. split; [ vm_compute in E; injection E as <- <-; reflexivity | ].
    split; apply H; (split; [ simpl; tauto | ]).
    + apply vo_data; [ | reflexivity ]. intros v (e & X & Y). injection X as <-. discriminate Y.
    + apply vo_override. eexists. split; reflexivity.
Qed.

Example C36_keys_ex : exists v s', lookup_all ex_inst ex_conv log_ask ["d"; "b"; "b"] None None None [] = (Ok v, s') /\ s' = ["d"; "b"; "b"].
Proof. eexists; eexists. split; reflexivity. Qed.

Example C37_all_ex : exists v s', lookup_all ex_inst ex_conv log_ask ["b"; "e"] (Some [("b", TString)]) None None [] = (Ok v, s') /\
  v = VMap [(VStr "b", VStr "one")].
Proof. eexists; eexists. split; reflexivity. Qed.

(** c is found but the type has only b. *)
Example C37_unknown_ex :
  lookup_all ex_inst ex_conv log_ask ["b"; "c"; "d"] (Some [("b", TString)]) None None []
  = (Panic (EErr "key 'c' was not found in the type map"), ["b"; "c"]).
Proof.
  refine (C37_unknown_name_panics log_ask ex_inst ex_conv ["b"] "c" ["d"] [("b", TString)] None None [] _ ["b"] (VStr "x") _ eq_refl _ _).
  - apply so_data; [ intros v (e & E & _); discriminate E | reflexivity ].
  - intros t [E|[]]. discriminate E.
Qed.
