(** Goroutines that share something: each takes its atomic steps one after the
    other, and a schedule says whose turn it is.  Nothing here has lines of its
    own in /repo: it stands for the Go scheduler, which may interleave the
    atomic steps of goroutines in any way. *)

From Coq Require Import List Arith Lia.
Import ListNotations.

Section Conc.
  Context {L S : Type}.

  (** One atomic step of a goroutine: [None] when it can do nothing, because it
      has finished, has died or waits. *)
  Variable step : L -> S -> option (L * S).

  (** Replace the goroutine at place [i]. *)
  Fixpoint set_nth (i : nat) (l : L) (ts : list L) : list L :=
    match ts, i with
    | [], _ => []
    | _ :: r, 0 => l :: r
    | t :: r, Datatypes.S i => t :: set_nth i l r
    end.

  (** One turn.  Nothing happens when the goroutine does not exist or can do
      nothing. *)
  Definition turn (i : nat) (c : list L * S) : list L * S :=
    match nth_error (fst c) i with
    | Some l =>
        match step l (snd c) with
        | Some (l', s') => (set_nth i l' (fst c), s')
        | None => c
        end
    | None => c
    end.

  (** The turns of a schedule. *)
  Fixpoint turns (sched : list nat) (c : list L * S) : list L * S :=
    match sched with
    | [] => c
    | i :: r => turns r (turn i c)
    end.

  (** A configuration that some schedule leads to. *)
  Definition reaches (c c' : list L * S) : Prop := exists sched, turns sched c = c'.

  Lemma set_nth_length : forall ts i l, length (set_nth i l ts) = length ts.
  Proof. induction ts as [|t r IH]; intros [|i] l; cbn; auto. Qed.

  Lemma set_nth_same : forall ts i l t, nth_error ts i = Some t -> nth_error (set_nth i l ts) i = Some l.
  Proof. induction ts as [|x r IH]; intros [|i] l t H; cbn in *; try discriminate; eauto. Qed.

  Lemma set_nth_other : forall ts i j l, i <> j -> nth_error (set_nth i l ts) j = nth_error ts j.
  Proof. induction ts as [|x r IH]; intros [|i] [|j] l H; cbn; auto; congruence. Qed.

  (** What holds at the start and is kept by every step holds always. *)
  Lemma turns_invariant (I : list L * S -> Prop) :
    (forall ts s i l l' s', I (ts, s) -> nth_error ts i = Some l -> step l s = Some (l', s') ->
       I (set_nth i l' ts, s')) ->
    forall sched c, I c -> I (turns sched c).
  Proof.
    intros Hs. induction sched as [|i r IH]; intros [ts s] H; cbn [turns]; [ exact H | ].
    apply IH. unfold turn. cbn [fst snd]. destruct (nth_error ts i) as [l|] eqn:E; [ | exact H ].
    destruct (step l s) as [[l' s']|] eqn:F; [ | exact H ]. eapply Hs; eauto.
  Qed.

  Lemma turns_app : forall a b c, turns (a ++ b) c = turns b (turns a c).
  Proof. induction a as [|i r IH]; intros b c; cbn; auto. Qed.

  (** How often a test holds among the goroutines. *)
  Fixpoint count (f : L -> bool) (ts : list L) : nat :=
    match ts with
    | [] => 0
    | t :: r => (if f t then 1 else 0) + count f r
    end.

  Lemma count_set : forall f ts i l t, nth_error ts i = Some t ->
    count f (set_nth i l ts) + (if f t then 1 else 0) = count f ts + (if f l then 1 else 0).
  Proof.
    intros f. induction ts as [|x r IH]; intros [|i] l t H; cbn [nth_error] in H; try discriminate.
    - injection H as ->. cbn. lia.
    - cbn. specialize (IH i l t H). lia.
  Qed.

  Lemma count_zero : forall f ts, count f ts = 0 -> forall i t, nth_error ts i = Some t -> f t = false.
  Proof.
    intros f. induction ts as [|x r IH]; intros H [|i] t E; cbn in *; try discriminate.
    - injection E as ->. destruct (f t); [ lia | reflexivity ].
    - destruct (f x); [ lia | ]. eauto.
  Qed.

  Lemma count_one : forall f ts i j a b, count f ts <= 1 ->
    nth_error ts i = Some a -> f a = true -> nth_error ts j = Some b -> f b = true -> i = j.
  Proof.
    intros f. induction ts as [|x r IH]; intros [|i] [|j] a b H Ha Fa Hb Fb; cbn in *; try discriminate; auto.
    - injection Ha as ->. rewrite Fa in H. rewrite (count_zero f r) with (i := j) (t := b) in Fb; [ discriminate | lia | exact Hb ].
    - injection Hb as ->. rewrite Fb in H. rewrite (count_zero f r) with (i := i) (t := a) in Fa; [ discriminate | lia | exact Ha ].
    - f_equal. eapply IH; eauto. destruct (f x); lia.
  Qed.
End Conc.
