(** * C51: what calls of Cache made at the same time get *)
From Coq Require Import String List ZArith Arith Bool Lia.
From Verif Require Import Str Value Outcome Cache Conc P_Cache.
Import ListNotations.
Open Scope string_scope.

(** The value that is there after the turns given, the newest first: that of
    the goroutine that had its second turn last, or the one of the beginning.
    The first argument tells who calls Cache, with which value. *)
Fixpoint left_by (vs : nat -> option value) (v0 : value) (newest : list nat) : value :=
  match newest with
  | [] => v0
  | i :: r =>
      match vs i with
      | Some v => if (count_occ Nat.eq_dec r i =? 1)%nat then v else left_by vs v0 r
      | None => left_by vs v0 r
      end
  end.

(** What becomes of a goroutine that calls Cache: before its first turn nothing
    happened, at its first turn it gets what is there then, and at its second
    turn it is back with that. *)
Inductive became (k : string) (vs : nat -> option value) (v0 v : value) (i : nat) (sched : list nat) : caller -> Prop :=
| became_nothing : ~ In i sched -> became k vs v0 v i sched (Before k v)
| became_reader : forall a b, sched = (a ++ i :: b)%list -> ~ In i a -> ~ In i b ->
    became k vs v0 v i sched (Between k v (left_by vs v0 (rev a)))
| became_back : forall a b, sched = (a ++ i :: b)%list -> ~ In i a -> In i b ->
    became k vs v0 v i sched (After k v (Some (left_by vs v0 (rev a)))).

Lemma count_rev : forall (l : list nat) i, count_occ Nat.eq_dec (rev l) i = count_occ Nat.eq_dec l i.
Proof.
  induction l as [|x l IH]; intro i; [ reflexivity | ].
  cbn [rev]. rewrite count_occ_app, IH. cbn. destruct (Nat.eq_dec x i); lia.
Qed.

Lemma became_later : forall k vs v0 v i sched c j, j <> i ->
  became k vs v0 v i sched c -> became k vs v0 v i (sched ++ [j]) c.
Proof.
  intros k vs v0 v i sched c j N H. destruct H as [H|a b H1 H2 H3|a b H1 H2 H3].
  - apply became_nothing. rewrite in_app_iff. cbn. intuition.
  - apply became_reader with (b := (b ++ [j])%list); [ rewrite H1, <- app_assoc; reflexivity | exact H2 | ].
    rewrite in_app_iff. cbn. intuition.
  - apply became_back with (b := (b ++ [j])%list); [ rewrite H1, <- app_assoc; reflexivity | exact H2 | ].
    rewrite in_app_iff. auto.
Qed.

Lemma swaps : forall k vs ts0 m v0 sched ts m',
  (forall i v, vs i = Some v -> nth_error ts0 i = Some (Before k v)) ->
  (forall i c, vs i = None -> nth_error ts0 i = Some c -> is_back c = true) ->
  load k m = Some v0 ->
  turns caller_step sched (ts0, m) = (ts, m') ->
  load k m' = Some (left_by vs v0 (rev sched)) /\
  (forall i v, vs i = Some v -> exists c, nth_error ts i = Some c /\ became k vs v0 v i sched c) /\
  (forall i, vs i = None -> nth_error ts i = nth_error ts0 i).
Proof.
  intros k vs ts0 m v0 sched ts m' W1 W2 L0.
  revert ts m'. induction sched as [|j sched IH] using rev_ind; intros ts m' E.
  - cbn in E. injection E as <- <-. split; [ exact L0 | ]. split; [ | reflexivity ].
    intros i v Hi. exists (Before k v). split; [ exact (W1 _ _ Hi) | ].
    apply became_nothing. intros [].
  - rewrite turns_app in E.
    destruct (turns caller_step sched (ts0, m)) as [us s] eqn:Eu.
    destruct (IH us s eq_refl) as [Is [Ic In]]. clear IH. cbn [turns] in E.
    rewrite rev_app_distr. cbn [rev app left_by].
    unfold turn in E. cbn [fst snd] in E.
    destruct (vs j) as [v|] eqn:Ej.
    2: { assert (Nj : (us, s) = (ts, m')).
         { rewrite (In j Ej) in E. destruct (nth_error ts0 j) as [c|] eqn:Ec; [ | exact E ].
           pose proof (W2 _ _ Ej Ec) as B. destruct c; try discriminate B. exact E. }
         injection Nj as <- <-. split; [ exact Is | ]. split; [ | exact In ].
         intros i v Hi. destruct (Ic i v Hi) as [c [C1 C2]]. exists c. split; [ exact C1 | ].
         apply became_later; [ congruence | exact C2 ]. }
    rewrite count_rev.
    destruct (Ic j v Ej) as [c [C1 C2]]. rewrite C1 in E.
    destruct C2 as [C2|a b C2 C3 C4|a b C2 C3 C4]; cbn [caller_step] in E.
    + unfold load_or_store in E. rewrite Is in E. injection E as <- <-.
      assert (Z : count_occ Nat.eq_dec sched j = 0%nat) by (apply count_occ_not_In; exact C2).
      rewrite Z. cbn [Nat.eqb]. split; [ exact Is | ]. split.
      * intros i u Hi. destruct (Nat.eq_dec j i) as [<-|N].
        -- rewrite (set_nth_same _ _ _ _ C1). eexists. split; [ reflexivity | ].
           assert (u = v) by congruence. subst u.
           apply became_reader with (b := []); [ reflexivity | exact C2 | intros [] ].
        -- rewrite set_nth_other by exact N. destruct (Ic i u Hi) as [d [D1 D2]]. exists d. split; [ exact D1 | ].
           apply became_later; [ exact N | exact D2 ].
      * intros i Hi. rewrite set_nth_other by congruence. exact (In i Hi).
    + injection E as <- <-.
      assert (Z : count_occ Nat.eq_dec sched j = 1%nat).
      { rewrite C2, count_occ_app. rewrite (proj1 (count_occ_not_In Nat.eq_dec a j) C3).
        cbn [count_occ]. destruct (Nat.eq_dec j j) as [_|N]; [ | contradiction ].
        rewrite (proj1 (count_occ_not_In Nat.eq_dec b j) C4). reflexivity. }
      rewrite Z. cbn [Nat.eqb]. split; [ apply load_store_same | ]. split.
      * intros i u Hi. destruct (Nat.eq_dec j i) as [<-|N].
        -- rewrite (set_nth_same _ _ _ _ C1). eexists. split; [ reflexivity | ].
           assert (u = v) by congruence. subst u.
           apply became_back with (b := (b ++ [j])%list); [ rewrite C2, <- app_assoc; reflexivity | exact C3 | ].
           rewrite in_app_iff. right. left. reflexivity.
        -- rewrite set_nth_other by exact N. destruct (Ic i u Hi) as [d [D1 D2]]. exists d. split; [ exact D1 | ].
           apply became_later; [ exact N | exact D2 ].
      * intros i Hi. rewrite set_nth_other by congruence. exact (In i Hi).
    + injection E as <- <-.
      assert (Z : (count_occ Nat.eq_dec sched j =? 1)%nat = false).
      { apply Nat.eqb_neq. rewrite C2, count_occ_app. cbn [count_occ].
        destruct (Nat.eq_dec j j) as [_|N]; [ | contradiction ].
        apply (count_occ_In Nat.eq_dec) in C4. lia. }
      rewrite Z. split; [ exact Is | ]. split; [ | exact In ].
      intros i u Hi. destruct (Ic i u Hi) as [d [D1 D2]]. exists d. split; [ exact D1 | ].
      destruct (Nat.eq_dec j i) as [<-|N]; [ | apply became_later; [ exact N | exact D2 ] ].
      assert (u = v) by congruence. subst u. assert (d = After k v (Some (left_by vs v0 (rev a)))) by congruence. subst d.
      apply became_back with (b := (b ++ [j])%list); [ rewrite C2, <- app_assoc; reflexivity | exact C3 | ].
      rewrite in_app_iff. left. exact C4.
Qed.

Lemma started : forall k vs i, nth_error (map (Before k) vs) i = option_map (Before k) (nth_error vs i).
Proof. intros k vs. induction vs as [|v vs IH]; intros [|i]; cbn; auto. Qed.

(** C51: whatever the schedule, where there was a value each goroutine gets the
    value that was there at its first turn, and the one left is that of the
    goroutine whose second turn came last. *)
Theorem C51_exactly : forall k vs m v0 sched ts m',
  load k m = Some v0 ->
  turns caller_step sched (map (Before k) vs, m) = (ts, m') ->
  load k m' = Some (left_by (nth_error vs) v0 (rev sched)) /\
  forall i v, nth_error vs i = Some v ->
    exists c, nth_error ts i = Some c /\ became k (nth_error vs) v0 v i sched c.
Proof.
  intros k vs m v0 sched ts m' L E.
  destruct (swaps k (nth_error vs) (map (Before k) vs) m v0 sched ts m') as [A [B _]]; auto.
  - intros i v Hi. rewrite started, Hi. reflexivity.
  - intros i c Hi Hc. rewrite started, Hi in Hc. discriminate Hc.
Qed.
Print Assumptions C51_exactly.

(** Where there was no value the first one to have a turn puts its value there
    and is back with nothing.  From then on the others call Cache as they do
    where there was this value. *)
Theorem C51_exactly_empty : forall k vs m a i0 w b ts m',
  load k m = None ->
  (forall i, In i a -> nth_error vs i = None) -> nth_error vs i0 = Some w ->
  turns caller_step (a ++ i0 :: b) (map (Before k) vs, m) = (ts, m') ->
  let others := fun i => if (i =? i0)%nat then None else nth_error vs i in
  load k m' = Some (left_by others w (rev b)) /\
  nth_error ts i0 = Some (After k w None) /\
  forall i v, nth_error vs i = Some v -> i <> i0 ->
    exists c, nth_error ts i = Some c /\ became k others w v i b c.
Proof.
  intros k vs m a i0 w b ts m' L A W E others. rewrite turns_app in E.
  assert (Ea : turns caller_step a (map (Before k) vs, m) = (map (Before k) vs, m)).
  { clear E. induction a as [|x a IH]; [ reflexivity | ]. cbn [turns]. unfold turn at 1. cbn [fst snd].
    rewrite started, (A x (or_introl eq_refl)). cbn [option_map].
    apply IH. intros i I. apply A. right. exact I. }
  rewrite Ea in E. cbn [turns] in E. unfold turn in E. cbn [fst snd] in E.
  rewrite started, W in E. cbn [option_map caller_step] in E. unfold load_or_store in E. rewrite L in E.
  assert (Q : nth_error (map (Before k) vs) i0 = Some (Before k w)) by (rewrite started, W; reflexivity).
  match type of E with turns _ _ (?t, ?s) = _ =>
    destruct (swaps k others t s w b ts m') as [P1 [P2 P3]] end.
  - intros i v Hi. unfold others in Hi. destruct (Nat.eqb_spec i i0) as [->|N]; [ discriminate | ].
    rewrite set_nth_other by congruence. rewrite started, Hi. reflexivity.
  - intros i c Hi Hc. unfold others in Hi. destruct (Nat.eqb_spec i i0) as [->|N].
    + rewrite (set_nth_same _ _ _ _ Q) in Hc. injection Hc as <-. reflexivity.
    + rewrite set_nth_other in Hc by congruence. rewrite started, Hi in Hc. discriminate Hc.
  - apply load_store_same.
  - exact E.
  - split; [ exact P1 | ]. split.
    + rewrite (P3 i0) by (unfold others; rewrite Nat.eqb_refl; reflexivity). apply (set_nth_same _ _ _ _ Q).
    + intros i v Hi N. apply P2. unfold others. destruct (Nat.eqb_spec i i0) as [->|_]; [ contradiction | exact Hi ].
Qed.
Print Assumptions C51_exactly_empty.

(** Three goroutines: the second one is back before the third one starts, and
    the first one, which started before them, comes last. *)
Example C51_exactly_ex :
  let vs := [VInt 1; VInt 2; VInt 3] in
  let r := turns caller_step [0; 1; 1; 2; 2; 0; 7; 1]%nat (map (Before "k") vs, [("k", VInt 0)]) in
  load "k" [("k", VInt 0)] = Some (VInt 0) /\
  fst r = [After "k" (VInt 1) (Some (VInt 0)); After "k" (VInt 2) (Some (VInt 0)); After "k" (VInt 3) (Some (VInt 2))] /\
  load "k" (snd r) = Some (VInt 1) /\
  left_by (nth_error vs) (VInt 0) (rev [0; 1; 1; 2; 2; 0; 7; 1]%nat) = VInt 1 /\
  left_by (nth_error vs) (VInt 0) (rev [0; 1; 1]%nat) = VInt 2.
Proof. vm_compute. repeat split; reflexivity. Qed.

(** The same with nothing there at first: the first one is back at once. *)
Example C51_exactly_empty_ex :
  let vs := [VInt 1; VInt 2; VInt 3] in
  let r := turns caller_step (app [9] (0 :: [1; 2; 1; 0; 2]))%nat (map (Before "k") vs, []) in
  load "k" (@nil (string * value)) = None /\
  fst r = [After "k" (VInt 1) None; After "k" (VInt 2) (Some (VInt 1)); After "k" (VInt 3) (Some (VInt 1))] /\
  load "k" (snd r) = Some (VInt 3).
Proof. vm_compute. repeat split; reflexivity. Qed.
