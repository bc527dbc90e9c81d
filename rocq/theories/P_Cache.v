(** The cache shared by provider functions: C34 and C51. *)

From Coq Require Import String List Bool Arith ZArith Permutation Lia.
From Verif Require Import Str Value Outcome Key Config State Engine Worlds Conc Cache.
Import ListNotations.
Open Scope nat_scope.
Open Scope Z_scope.
Open Scope string_scope.
Open Scope list_scope.

(** *** What a cache must do *)

(** The call leaves [v] under the key [k].  Different keys of a map may have the
    same text; the last of them is the one that stays. *)
Inductive puts (w : world) : cache_call -> string -> option value -> Prop :=
| puts_one : forall k v, puts w (CallCache k v) k v
| puts_entry : forall h1 x v h2, Forall (fun e => vstring w (fst e) <> vstring w x) h2 ->
    puts w (CallCacheAll (h1 ++ (x, v) :: h2)) (vstring w x) (Some v).

(** The call does not touch the key [k]. *)
Inductive leaves (w : world) (k : string) : cache_call -> Prop :=
| leaves_one : forall k' v, k' <> k -> leaves w k (CallCache k' v)
| leaves_map : forall h, Forall (fun e => vstring w (fst e) <> k) h -> leaves w k (CallCacheAll h).

(** [v] is what was most recently stored under [k]. *)
Definition latest (w : world) (calls : list cache_call) (k : string) (v : option value) : Prop :=
  exists before c after, calls = before ++ c :: after /\ puts w c k v /\ Forall (leaves w k) after.

(** Nothing was stored under [k]. *)
Definition never (w : world) (calls : list cache_call) (k : string) : Prop := Forall (leaves w k) calls.

(** The cache of a session after these calls. *)
Definition after (w : world) (calls : list cache_call) : smap (option value) := fold_left (do_call w) calls [].

(** *** Proofs *)

Lemma load_store_same {A} : forall k v (m : smap A), load k (store k v m) = Some v.
Proof. intros k v m. unfold load, store, aput. cbn. rewrite String.eqb_refl. reflexivity. Qed.

Lemma load_store_other {A} : forall k k' v (m : smap A), k' <> k -> load k (store k' v m) = load k m.
Proof.
  intros k k' v m H. unfold load, store, aput. cbn. destruct (String.eqb_spec k k') as [E|E]; [ | reflexivity ].
  subst. contradiction.
Qed.

Lemma cache_stores : forall k v m, load k (snd (cache k v m)) = Some v.
Proof.
  intros k v m. unfold cache, load_or_store. destruct (load k m); cbn [snd]; apply load_store_same.
Qed.

Lemma cache_other : forall k k' v m, k' <> k -> load k (snd (cache k' v m)) = load k m.
Proof.
  intros k k' v m H. unfold cache, load_or_store. destruct (load k' m); cbn [snd]; apply load_store_other; exact H.
Qed.

Lemma cache_all_leaves : forall w k h m, Forall (fun e => vstring w (fst e) <> k) h ->
  load k (cache_all w h m) = load k m.
Proof.
  intros w k h. unfold cache_all. induction h as [|e h IH]; intros m H; cbn [fold_left]; [ reflexivity | ].
  apply Forall_cons_iff in H as [H1 H2]. rewrite IH; [ | exact H2 ]. apply load_store_other; exact H1.
Qed.

Lemma cache_all_puts : forall w h1 x v h2 m, Forall (fun e => vstring w (fst e) <> vstring w x) h2 ->
  load (vstring w x) (cache_all w (h1 ++ (x, v) :: h2) m) = Some (Some v).
Proof.
  intros w h1 x v h2 m H. unfold cache_all. rewrite fold_left_app. cbn [fold_left fst snd].
  fold (cache_all w h2 (store (vstring w x) (Some v) (fold_left (fun m0 e => store (vstring w (fst e)) (Some (snd e)) m0) h1 m))).
  rewrite cache_all_leaves; [ | exact H ]. apply load_store_same.
Qed.

Lemma do_call_puts : forall w c k v m, puts w c k v -> load k (do_call w m c) = Some v.
Proof.
  intros w c k v m H. destruct H as [k v|h1 x v h2 H]; cbn [do_call]; [ apply cache_stores | ].
  apply cache_all_puts; exact H.
Qed.

Lemma do_call_leaves : forall w c k m, leaves w k c -> load k (do_call w m c) = load k m.
Proof.
  intros w c k m H. destruct H as [k' v H|h H]; cbn [do_call]; [ apply cache_other; exact H | ].
  apply cache_all_leaves; exact H.
Qed.

Lemma leaves_all : forall w k calls m, Forall (leaves w k) calls -> load k (fold_left (do_call w) calls m) = load k m.
Proof.
  intros w k. induction calls as [|c r IH]; intros m H; cbn [fold_left]; [ reflexivity | ].
  apply Forall_cons_iff in H as [H1 H2]. rewrite IH; [ | exact H2 ]. apply do_call_leaves; exact H1.
Qed.

Lemma latest_load : forall w calls k v, latest w calls k v -> load k (after w calls) = Some v.
Proof.
  intros w calls k v [b [c [a [-> [Hp Hl]]]]]. unfold after. rewrite fold_left_app. cbn [fold_left].
  rewrite leaves_all; [ | exact Hl ]. apply do_call_puts; exact Hp.
Qed.

Lemma never_load : forall w calls k, never w calls k -> load k (after w calls) = None.
Proof. intros w calls k H. unfold after. rewrite leaves_all; [ reflexivity | exact H ]. Qed.

(** A map has a last entry for a key or none. *)
Lemma last_entry : forall w k (h : entries),
  Forall (fun e => vstring w (fst e) <> k) h \/
  exists h1 x v h2, h = h1 ++ (x, v) :: h2 /\ vstring w x = k /\ Forall (fun e => vstring w (fst e) <> k) h2.
Proof.
  intros w k. induction h as [|[x v] h IH]; [ left; constructor | ].
  destruct IH as [IH|[h1 [y [u [h2 [-> [Ey Hh]]]]]]].
  - destruct (string_dec (vstring w x) k) as [E|E].
    + right. exists [], x, v, h. auto.
    + left. constructor; assumption.
  - right. exists ((x, v) :: h1), y, u, h2. auto.
Qed.

Lemma call_cases : forall w c k, leaves w k c \/ exists v, puts w c k v.
Proof.
  intros w [k' v|h] k.
  - destruct (string_dec k' k) as [->|E]; [ right; exists v; constructor | left; constructor; exact E ].
  - destruct (last_entry w k h) as [H|[h1 [x [v [h2 [-> [E H]]]]]]]; [ left; constructor; exact H | ].
    right. subst k. exists (Some v). constructor. exact H.
Qed.

Lemma latest_or_never : forall w calls k, never w calls k \/ exists v, latest w calls k v.
Proof.
  intros w calls k. induction calls as [|c r IH]; [ left; constructor | ].
  destruct IH as [IH|[v [b [d [a [-> [Hp Hl]]]]]]].
  - destruct (call_cases w c k) as [H|[v H]]; [ left; constructor; assumption | ].
    right. exists v, [], c, r. auto.
  - right. exists v, (c :: b), d, a. auto.
Qed.

(** C34: CachedValue gives what was most recently stored, and nothing when
    nothing was. *)
Theorem C34_cached_value : forall w calls k,
  (forall v, cached_value k (after w calls) = Ok (Some v) <-> latest w calls k (Some v)) /\
  (cached_value k (after w calls) = Ok None <-> never w calls k).
Proof.
  intros w calls k.
  destruct (latest_or_never w calls k) as [N|[u L]].
  - pose proof (never_load _ _ _ N) as E. unfold cached_value. rewrite E. split; [ intro v | ]; split; intro H.
    + discriminate.
    + apply latest_load in H. congruence.
    + exact N.
    + reflexivity.
  - pose proof (latest_load _ _ _ _ L) as E. unfold cached_value. rewrite E. split; [ intro v | ]; split; intro H.
    + destruct u as [x|]; cbn in H; [ | discriminate ]. injection H as ->. exact L.
    + apply latest_load in H. rewrite E in H. injection H as ->. reflexivity.
    + destruct u; discriminate.
    + apply never_load in H. congruence.
Qed.
Print Assumptions C34_cached_value.

(** C34: Cache gives back what was stored before, if anything, and stores the
    new value. *)
Theorem C34_cache_returns_previous : forall w calls k v,
  (forall old, fst (cache k v (after w calls)) = Ok (Some old) <-> latest w calls k (Some old)) /\
  (fst (cache k v (after w calls)) = Ok None <-> never w calls k) /\
  snd (cache k v (after w calls)) = after w (calls ++ [CallCache k v]).
Proof.
  intros w calls k v.
  assert (E : fst (cache k v (after w calls)) = cached_value k (after w calls)).
  { unfold cache, cached_value, load_or_store. destruct (load k (after w calls)); reflexivity. }
  rewrite E. destruct (C34_cached_value w calls k) as [A B].
  split; [ exact A | ]. split; [ exact B | ]. unfold after. rewrite fold_left_app. reflexivity.
Qed.
Print Assumptions C34_cache_returns_previous.

Lemma range_keys {A} : forall (m : smap A) seen k v, In (k, v) (srange seen m) ->
  existsb (String.eqb k) seen = false /\ load k m = Some v.
Proof.
  induction m as [|[k' v'] r IH]; intros seen k v H; cbn [srange] in H; [ contradiction | ].
  destruct (existsb (String.eqb k') seen) eqn:E.
  - destruct (IH _ _ _ H) as [H1 H2]. split; [ exact H1 | ]. unfold load in *. cbn [aget].
    destruct (String.eqb_spec k k') as [->|N]; [ congruence | exact H2 ].
  - destruct H as [H|H].
    + injection H as -> ->. split; [ exact E | ]. unfold load. cbn [aget]. rewrite String.eqb_refl. reflexivity.
    + destruct (IH _ _ _ H) as [H1 H2]. cbn [existsb] in H1. apply orb_false_iff in H1 as [H0 H1].
      split; [ exact H1 | ]. unfold load in *. cbn [aget]. rewrite H0. exact H2.
Qed.

Lemma range_all {A} : forall (m : smap A) seen k v, existsb (String.eqb k) seen = false -> load k m = Some v ->
  In (k, v) (srange seen m).
Proof.
  induction m as [|[k' v'] r IH]; intros seen k v Hs H; unfold load in *; cbn [aget] in H; [ discriminate | ].
  cbn [srange]. destruct (String.eqb_spec k k') as [->|N].
  - injection H as ->. rewrite Hs. left. reflexivity.
  - destruct (existsb (String.eqb k') seen) eqn:E.
    + apply IH; assumption.
    + right. apply IH; [ | exact H ]. cbn [existsb]. apply orb_false_iff. split; [ | exact Hs ].
      apply String.eqb_neq; exact N.
Qed.

Lemma range_once {A} : forall (m : smap A) seen, NoDup (map fst (srange seen m)).
Proof.
  induction m as [|[k v] r IH]; intro seen; cbn [srange]; [ constructor | ].
  destruct (existsb (String.eqb k) seen); [ apply IH | ]. cbn [map fst]. constructor; [ | apply IH ].
  intro H. apply in_map_iff in H as [[k' v'] [E H]]. cbn in E. subst k'.
  apply range_keys in H as [H _]. cbn in H. rewrite String.eqb_refl in H. discriminate.
Qed.

Lemma asserted : forall l, (forall k, ~ In (k, None) l) ->
  exists r, assert_entries l = Ok r /\ l = map (fun e => (fst e, Some (snd e))) r.
Proof.
  induction l as [|[k [v|]] l IH]; intro H; cbn [assert_entries].
  - exists []. auto.
  - destruct IH as [r [E ->]]. { intros j Hj. apply (H j). right. exact Hj. }
    exists ((k, v) :: r). rewrite E. auto.
  - exfalso. apply (H k). left. reflexivity.
Qed.

Lemma latest_is_loaded : forall w calls k v, load k (after w calls) = Some v <-> latest w calls k v.
Proof.
  intros w calls k v. split; [ | apply latest_load ]. intro H. destruct (latest_or_never w calls k) as [N|[u L]].
  - apply never_load in N. congruence.
  - pose proof (latest_load _ _ _ _ L). assert (u = v) by congruence. subst. exact L.
Qed.

(** C34: CachedEntries gives each key once, with what was most recently stored
    under it, as long as no nil has been stored. *)
Theorem C34_cached_entries : forall w calls,
  (forall k, ~ latest w calls k None) ->
  exists l, cached_entries (after w calls) = Ok l /\ NoDup (map fst l) /\
    forall k v, In (k, v) l <-> latest w calls k (Some v).
Proof.
  intros w calls Hn.
  pose proof (latest_is_loaded w calls) as Hl.
  destruct (asserted (srange [] (after w calls))) as [l [E El]].
  { intros k H. apply range_keys in H as [_ H]. apply (Hn k). apply Hl. exact H. }
  exists l. split; [ exact E | ]. split.
  - pose proof (range_once (after w calls) []) as N. rewrite El, map_map in N. exact N.
  - intros k v. rewrite <- Hl.
    transitivity (In (k, Some v) (srange [] (after w calls))).
    + rewrite El. rewrite in_map_iff. split; [ intro H; exists (k, v); auto | ].
      intros [[k' v'] [X H]]. cbn in X. injection X as -> ->. exact H.
    + split; [ intro H; apply range_keys in H; tauto | ]. intro H. apply range_all; [ reflexivity | exact H ].
Qed.
Print Assumptions C34_cached_entries.

Lemma not_asserted : forall l k, In (k, None) l -> assert_entries l = Panic bad_assert.
Proof.
  induction l as [|[k' [v|]] l IH]; intros k H; [ destruct H | | reflexivity ].
  destruct H as [H|H]; [ discriminate | ]. cbn [assert_entries assert_value obind]. rewrite (IH k H). reflexivity.
Qed.

(** Exactly a nil stored last under a key makes reading that key, and all
    entries, panic. *)
Theorem C34_nil_exactly : forall w calls,
  (forall k, cached_value k (after w calls) = Panic bad_assert <-> latest w calls k None) /\
  (forall k v, fst (cache k v (after w calls)) = Panic bad_assert <-> latest w calls k None) /\
  (cached_entries (after w calls) = Panic bad_assert <-> exists k, latest w calls k None).
Proof.
  intros w calls.
  assert (V : forall k, cached_value k (after w calls) = Panic bad_assert <-> latest w calls k None).
  { intros k. rewrite <- latest_is_loaded. unfold cached_value. destruct (load k (after w calls)) as [[x|]|]; cbn; split; intro H; try discriminate; reflexivity. }
  split; [ exact V | ]. split.
  - intros k v. rewrite <- V. unfold cache, cached_value, load_or_store. destruct (load k (after w calls)); reflexivity.
  - split.
    + intros H. unfold cached_entries in H.
      assert (D : (exists k, In (k, None) (srange [] (after w calls))) \/ forall k, ~ In (k, None) (srange [] (after w calls))).
      { induction (srange [] (after w calls)) as [|[k [v|]] l IH].
        - right. intros k [].
        - cbn [assert_entries assert_value obind] in H. destruct (assert_entries l); try discriminate; cbn [omap obind] in H.
          destruct (IH H) as [[j Hj]|N]; [ left; exists j; right; exact Hj | ]. right. intros j [C|C]; [ discriminate | exact (N j C) ].
        - left. exists k. left. reflexivity. }
      destruct D as [[k Hk]|N]; [ | destruct (asserted _ N) as [r [E _]]; congruence ].
      exists k. apply latest_is_loaded. apply range_keys in Hk. tauto.
    + intros [k Hk]. apply latest_is_loaded in Hk. unfold cached_entries. apply (not_asserted _ k). apply range_all; [ reflexivity | exact Hk ].
Qed.
Print Assumptions C34_nil_exactly.

(** A nil, then another key. *)
Example C34_nil_exactly_ex : latest (file_world [] []) [CallCache "a" None; CallCache "b" (Some (VInt 1))] "a" None /\
  cached_entries (after (file_world [] []) [CallCache "a" None; CallCache "b" (Some (VInt 1))]) = Panic bad_assert.
Proof.
  split; [ | reflexivity ]. exists [], (CallCache "a" None), [CallCache "b" (Some (VInt 1))].
  split; [ reflexivity | ]. split; [ constructor | ]. constructor; [ constructor; discriminate | constructor ].
Qed.

(** Storing nil makes the next call for that key panic. *)
Theorem C34_nil_refuted : exists k, cached_value k (after (file_world [] []) [CallCache k None]) = Panic bad_assert /\
  fst (cache k (Some (VInt 1)) (after (file_world [] []) [CallCache k None])) = Panic bad_assert.
Proof. exists "a". split; vm_compute; reflexivity. Qed.
Print Assumptions C34_nil_refuted.

(** Stored with Cache, then replaced by CacheAll, then another key stored.  The
    map has a number and a string with the same text; the last one wins. *)
Definition ex_calls : list cache_call :=
  [CallCache "a" (Some (VInt 1)); CallCache "b" (Some (VInt 2));
   CallCacheAll [(VStr "a", VInt 3); (VInt 7, VStr "x"); (VStr "7", VStr "y")]; CallCache "b" (Some (VInt 4))].
Example C34_ex_values : let m := after (file_world [] []) ex_calls in
  cached_value "a" m = Ok (Some (VInt 3)) /\ cached_value "b" m = Ok (Some (VInt 4)) /\
  cached_value "7" m = Ok (Some (VStr "y")) /\ cached_value "c" m = Ok None /\
  fst (cache "a" (Some (VInt 9)) m) = Ok (Some (VInt 3)).
Proof. repeat split. Qed.
Example C34_ex_latest : latest (file_world [] []) ex_calls "a" (Some (VInt 3)).
Proof.
  exists [CallCache "a" (Some (VInt 1)); CallCache "b" (Some (VInt 2))],
    (CallCacheAll [(VStr "a", VInt 3); (VInt 7, VStr "x"); (VStr "7", VStr "y")]), [CallCache "b" (Some (VInt 4))].
  split; [ reflexivity | ]. split.
  - apply (puts_entry _ [] (VStr "a") (VInt 3) [(VInt 7, VStr "x"); (VStr "7", VStr "y")]).
    repeat constructor; discriminate.
  - repeat constructor. discriminate.
Qed.
Example C34_ex_entries : (forall k, ~ latest (file_world [] []) ex_calls k None) /\
  cached_entries (after (file_world [] []) ex_calls) =
    Ok [("b", VInt 4); ("7", VStr "y"); ("a", VInt 3)].
Proof.
  split; [ | reflexivity ].
  intros k [b [c [a [E [Hp _]]]]]. remember None as u eqn:Eu. destruct Hp as [k v|h1 x v h2 H]; [ | discriminate ].
  subst v. assert (I : In (CallCache k None) ex_calls) by (rewrite E; apply in_elt).
  cbn in I. intuition discriminate.
Qed.

(** *** Calls by several goroutines *)

(** The calls made one after the other, as pairs of the value stored and the
    result: each gets what is there and puts its own value in place of it. *)
Inductive one_by_one : option value -> list (value * option value) -> option value -> Prop :=
| obo_none : forall i, one_by_one i [] i
| obo_call : forall i v l f, one_by_one (Some v) l f -> one_by_one i ((v, i) :: l) f.

(** The goroutines that are back, with what they stored and got. *)
Fixpoint answers (ts : list caller) : list (value * option value) :=
  match ts with
  | [] => []
  | After _ v r :: ts => (v, r) :: answers ts
  | _ :: ts => answers ts
  end.

Definition is_back (c : caller) : bool := match c with After _ _ _ => true | _ => false end.
Definition is_between (c : caller) : bool := match c with Between _ _ _ => true | _ => false end.
Definition got_nothing (c : caller) : bool := match c with After _ _ None => true | _ => false end.

(** The full claim: whatever the schedule, when all calls are back their
    results and the value left are those of the calls made in some order. *)
Definition C51_claim : Prop := forall k vs m sched ts m',
  turns caller_step sched (map (Before k) vs, m) = (ts, m') -> forallb is_back ts = true ->
  exists l, Permutation l (answers ts) /\ one_by_one (load k m) l (load k m').

(** C51 is refuted: two goroutines that call Cache at the same time both get the
    value that was there before, and the value of one of them is lost. *)
Theorem C51_refuted : exists k v0 v1 v2 sched,
  let '(ts, m') := turns caller_step sched ([Before k v1; Before k v2], [(k, v0)]) in
  forallb is_back ts = true /\ answers ts = [(v1, Some v0); (v2, Some v0)] /\
  ~ exists l, Permutation l (answers ts) /\ one_by_one (Some v0) l (load k m').
Proof.
  exists "a", (VInt 0), (VInt 1), (VInt 2), [0; 1; 0; 1]%nat. vm_compute.
  split; [ reflexivity | ]. split; [ reflexivity | ].
  intros [l [P S]].
  assert (L : length l = 2%nat) by (rewrite (Permutation_length P); reflexivity).
  destruct l as [|a [|b [|c l]]]; try discriminate L.
  assert (Hb : In b [(VInt 1, Some (VInt 0)); (VInt 2, Some (VInt 0))]).
  { eapply Permutation_in; [ exact P | right; left; reflexivity ]. }
  assert (Ha : In a [(VInt 1, Some (VInt 0)); (VInt 2, Some (VInt 0))]).
  { eapply Permutation_in; [ exact P | left; reflexivity ]. }
  inversion S as [|i v l f S1 E1 E2 E3]. subst. inversion S1 as [|i' v' l' f' S2 E4 E5 E6]. subst.
  cbn in Ha, Hb. intuition congruence.
Qed.
Print Assumptions C51_refuted.

Corollary C51_claim_false : ~ C51_claim.
Proof.
  intro H. destruct C51_refuted as [k [v0 [v1 [v2 [sched R]]]]].
  destruct (turns caller_step sched ([Before k v1; Before k v2], [(k, v0)])) as [ts m'] eqn:E.
  destruct R as [A [_ N]]. apply N.
  destruct (H k [v1; v2] [(k, v0)] sched ts m' E A) as [l [P S]].
  unfold load in S at 1. cbn [aget] in S. rewrite String.eqb_refl in S. exists l. auto.
Qed.

(** Schedules in which no call begins while another is under way. *)
Fixpoint apart (sched : list nat) (c : list caller * smap value) : Prop :=
  match sched with
  | [] => True
  | i :: r =>
      ((exists k v, nth_error (fst c) i = Some (Before k v)) -> forallb (fun t => negb (is_between t)) (fst c) = true) /\
      apart r (turn caller_step i c)
  end.

Lemma one_by_one_snoc : forall i l c v, one_by_one i l c -> one_by_one i (l ++ [(v, c)]) (Some v).
Proof.
  intros i l c v H. induction H as [i|i u l f H IH]; cbn [app].
  - constructor. constructor.
  - constructor. exact IH.
Qed.

Lemma answers_set : forall ts i l t, nth_error ts i = Some t -> is_back t = false ->
  Permutation (answers (set_nth i l ts))
    (match l with After _ v r => (v, r) :: answers ts | _ => answers ts end).
Proof.
  induction ts as [|x ts IH]; intros [|i] l t H B; cbn [nth_error] in H; try discriminate.
  - injection H as ->. destruct t; try discriminate B; destruct l; cbn; reflexivity.
  - specialize (IH i l t H B). cbn [set_nth].
    destruct x; cbn [answers]; try exact IH.
    destruct l; cbn [answers] in *; try (constructor; exact IH).
    etransitivity; [ constructor; exact IH | ]. apply perm_swap.
Qed.

Lemma no_between : forall ts, forallb (fun t => negb (is_between t)) ts = true ->
  forall j k v o, nth_error ts j <> Some (Between k v o).
Proof.
  induction ts as [|x ts IH]; intros H [|j] k v o; cbn in *; try discriminate.
  - apply andb_true_iff in H as [H _]. intro E. injection E as ->. discriminate.
  - apply andb_true_iff in H as [_ H]. apply IH. exact H.
Qed.

Definition serial_so_far (k : string) (init : option value) (c : list caller * smap value) : Prop :=
  (forall j t, nth_error (fst c) j = Some t ->
     exists v, t = Before k v \/ (exists o, t = Between k v o /\ load k (snd c) = Some o) \/ (exists r, t = After k v r)) /\
  (forall j j' v v' o o', nth_error (fst c) j = Some (Between k v o) -> nth_error (fst c) j' = Some (Between k v' o') -> j = j') /\
  exists l, Permutation l (answers (fst c)) /\ one_by_one init l (load k (snd c)).

Lemma apart_serial : forall k init sched c, serial_so_far k init c -> apart sched c ->
  serial_so_far k init (turns caller_step sched c).
Proof.
  intros k init. induction sched as [|i r IH]; intros [ts m] [Hk [H1 [l [P S]]]] Ha; cbn [turns apart] in *.
  { split; [ exact Hk | ]. split; [ exact H1 | ]. exists l. auto. }
  destruct Ha as [Ha Hr]. apply IH; [ | exact Hr ]. clear IH Hr. unfold turn. cbn [fst snd] in *.
  destruct (nth_error ts i) as [t|] eqn:E.
  2: { split; [ exact Hk | ]. split; [ exact H1 | ]. exists l. auto. }
  destruct (Hk i t E) as [v [ -> |[[o [ -> Ho]]|[q -> ]]]]; cbn [caller_step].
  - assert (N : forall j k v o, nth_error ts j <> Some (Between k v o)).
    { apply no_between. apply Ha. eauto. }
    unfold load_or_store. destruct (load k m) as [old|] eqn:El.
    + (* it is there *)
      split; [ | split ].
      * intros j t Hj. cbn [fst snd] in *. destruct (Nat.eq_dec i j) as [<-|Nj].
        -- rewrite (set_nth_same _ _ _ _ E) in Hj. injection Hj as <-. exists v. right. left. exists old. auto.
        -- rewrite set_nth_other in Hj by exact Nj. destruct (Hk j t Hj) as [u Hu]. exists u. rewrite El. exact Hu.
      * intros j j' u u' o o' Hj Hj'. cbn [fst] in *.
        destruct (Nat.eq_dec i j) as [<-|Nj]; [ | rewrite set_nth_other in Hj by exact Nj; exfalso; eapply N; exact Hj ].
        destruct (Nat.eq_dec i j') as [<-|Nj']; [ reflexivity | ].
        rewrite set_nth_other in Hj' by exact Nj'. exfalso. eapply N. exact Hj'.
      * exists l. cbn [fst snd]. split; [ | rewrite El; exact S ].
        etransitivity; [ exact P | ]. symmetry. apply (answers_set _ _ (Between k v old) _ E). reflexivity.
    + (* it is not there *)
      split; [ | split ].
      * intros j t Hj. cbn [fst snd] in *. destruct (Nat.eq_dec i j) as [<-|Nj].
        -- rewrite (set_nth_same _ _ _ _ E) in Hj. injection Hj as <-. exists v. right. right. eauto.
        -- rewrite set_nth_other in Hj by exact Nj. destruct (Hk j t Hj) as [u [ -> |[[o [ -> Ho]]|[q -> ]]]]; eauto.
           exfalso. eapply N. exact Hj.
      * intros j j' u u' o o' Hj Hj'. cbn [fst] in *. exfalso.
        destruct (Nat.eq_dec i j) as [<-|Nj].
        -- rewrite (set_nth_same _ _ _ _ E) in Hj. discriminate.
        -- rewrite set_nth_other in Hj by exact Nj. eapply N. exact Hj.
      * exists (l ++ [(v, None)]). cbn [fst snd]. split.
        -- etransitivity; [ symmetry; apply Permutation_cons_append | ].
           etransitivity; [ constructor; exact P | ]. symmetry. apply (answers_set _ _ (After k v None) _ E). reflexivity.
        -- rewrite load_store_same. apply one_by_one_snoc. exact S.
  - split; [ | split ].
    + intros j t Hj. cbn [fst snd] in *. destruct (Nat.eq_dec i j) as [<-|Nj].
      * rewrite (set_nth_same _ _ _ _ E) in Hj. injection Hj as <-. exists v. right. right. eauto.
      * rewrite set_nth_other in Hj by exact Nj. destruct (Hk j t Hj) as [u [ -> |[[o' [ -> Ho']]|[q -> ]]]]; eauto.
        exfalso. apply Nj. eapply H1; eauto.
    + intros j j' u u' p p' Hj Hj'. cbn [fst] in *. exfalso.
      destruct (Nat.eq_dec i j) as [<-|Nj].
      * rewrite (set_nth_same _ _ _ _ E) in Hj. discriminate.
      * rewrite set_nth_other in Hj by exact Nj. apply Nj. eapply H1; eauto.
    + exists (l ++ [(v, Some o)]). cbn [fst snd]. split.
      * etransitivity; [ symmetry; apply Permutation_cons_append | ].
        etransitivity; [ constructor; exact P | ]. symmetry. apply (answers_set _ _ (After k v (Some o)) _ E). reflexivity.
      * rewrite load_store_same. apply one_by_one_snoc. rewrite <- Ho. exact S.
  - split; [ exact Hk | ]. split; [ exact H1 | ]. exists l. auto.
Qed.

Lemma at_start : forall k vs j t, nth_error (map (Before k) vs) j = Some t -> exists v, t = Before k v /\ In v vs.
Proof.
  intros k vs j t H. apply nth_error_In in H. apply in_map_iff in H as [v [<- H]]. eauto.
Qed.

(** C51, partial: the claim holds for calls that do not overlap, and then for
    any number of goroutines and at any moment.  Missing: calls that overlap,
    where it is false (C51_refuted). *)
Theorem C51_apart_partial : forall k vs m sched ts m',
  turns caller_step sched (map (Before k) vs, m) = (ts, m') ->
  apart sched (map (Before k) vs, m) ->
  exists l, Permutation l (answers ts) /\ one_by_one (load k m) l (load k m').
Proof.
  intros k vs m sched ts m' E Ha.
  assert (S : serial_so_far k (load k m) (map (Before k) vs, m)).
  { split; [ | split ]; cbn [fst snd].
    - intros j t H. destruct (at_start _ _ _ _ H) as [v [-> _]]. eauto.
    - intros j j' v v' o o' H. destruct (at_start _ _ _ _ H) as [u [X _]]. discriminate.
    - exists []. split; [ | constructor ].
      assert (X : answers (map (Before k) vs) = []) by (clear; induction vs; cbn; auto). rewrite X. constructor. }
  apply (apart_serial _ _ _ _ S) in Ha. rewrite E in Ha. destruct Ha as [_ [_ H]]. exact H.
Qed.
Print Assumptions C51_apart_partial.

(** C51, partial: whatever the schedule, when all are back then exactly one of
    them got nothing if there was nothing and none did otherwise; each got a
    value that was there before or that one of them stored; and the value left
    is one that one of them stored. *)
Theorem C51_no_other_values_partial : forall k vs m sched ts m',
  turns caller_step sched (map (Before k) vs, m) = (ts, m') -> forallb is_back ts = true -> vs <> [] ->
  count got_nothing ts = (if load k m then 0 else 1)%nat /\
  (forall v r, In (v, Some r) (answers ts) -> In r vs \/ load k m = Some r) /\
  (exists v, load k m' = Some v /\ In v vs).
Proof.
  intros k vs m sched ts m' E B Hv.
  set (I := fun c : list caller * smap value =>
    (forall j t, nth_error (fst c) j = Some t ->
       exists v, In v vs /\ (t = Before k v \/ (exists o, t = Between k v o /\ (In o vs \/ load k m = Some o)) \/
                 (t = After k v None /\ load k m = None) \/
                 (exists o, t = After k v (Some o) /\ (In o vs \/ load k m = Some o)))) /\
    ((load k (snd c) = load k m /\ count got_nothing (fst c) = 0 /\ forall j t, nth_error (fst c) j = Some t -> is_back t = false /\ (is_between t = true -> load k m <> None)) \/
     ((exists v, load k (snd c) = Some v /\ In v vs) /\ count got_nothing (fst c) = (if load k m then 0 else 1)))%nat).
  assert (H : I (ts, m')).
  { rewrite <- E. apply turns_invariant.
    - intros us s i l l' s' [H1 H2] Hi Hs. cbn [fst snd] in *.
      destruct (H1 i l Hi) as [v [Iv [ -> |[[o [ -> Ho]]|[[ -> Ho]|[o [ -> Ho]]]]]]]; cbn [caller_step] in Hs; try discriminate.
      + unfold load_or_store in Hs. destruct (load k s) as [old|] eqn:El; injection Hs as <- <-.
        * split.
          -- intros j t Hj. cbn [fst] in Hj. destruct (Nat.eq_dec i j) as [<-|Nj].
             ++ rewrite (set_nth_same _ _ _ _ Hi) in Hj. injection Hj as <-. exists v. split; [ exact Iv | ]. right. left.
                exists old. split; [ reflexivity | ]. destruct H2 as [[H2 _]|[[x [X1 X2]] _]].
                ** right. congruence.
                ** left. congruence.
             ++ rewrite set_nth_other in Hj by exact Nj. apply (H1 _ _ Hj).
          -- cbn [fst snd]. pose proof (count_set got_nothing us i (Between k v old) _ Hi) as C. cbn in C.
             destruct H2 as [[H2 [H3 H4]]|[H2 H3]].
             ++ left. split; [ congruence | ]. split; [ lia | ]. intros j t Hj.
                destruct (Nat.eq_dec i j) as [<-|Nj].
                ** rewrite (set_nth_same _ _ _ _ Hi) in Hj. injection Hj as <-. split; [ reflexivity | congruence ].
                ** rewrite set_nth_other in Hj by exact Nj. eauto.
             ++ right. split; [ destruct H2 as [x [X1 X2]]; exists x; split; [ congruence | exact X2 ] | lia ].
        * assert (Em : load k m = None).
          { destruct H2 as [[H2 _]|[[x [X1 X2]] _]]; congruence. }
          split.
          -- intros j t Hj. cbn [fst] in Hj. destruct (Nat.eq_dec i j) as [<-|Nj].
             ++ rewrite (set_nth_same _ _ _ _ Hi) in Hj. injection Hj as <-. exists v. split; [ exact Iv | ]. right. right. left. auto.
             ++ rewrite set_nth_other in Hj by exact Nj. apply (H1 _ _ Hj).
          -- cbn [fst snd]. pose proof (count_set got_nothing us i (After k v None) _ Hi) as C. cbn in C.
             right. rewrite Em. split; [ exists v; rewrite load_store_same; auto | ].
             destruct H2 as [[H2 [H3 H4]]|[[x [X1 X2]] H3]]; [ lia | congruence ].
      + injection Hs as <- <-. split.
        * intros j t Hj. cbn [fst] in Hj. destruct (Nat.eq_dec i j) as [<-|Nj].
          -- rewrite (set_nth_same _ _ _ _ Hi) in Hj. injection Hj as <-. exists v. split; [ exact Iv | ]. right. right. right. eauto.
          -- rewrite set_nth_other in Hj by exact Nj. apply (H1 _ _ Hj).
        * cbn [fst snd]. pose proof (count_set got_nothing us i (After k v (Some o)) _ Hi) as C. cbn in C.
          right. split; [ exists v; rewrite load_store_same; auto | ].
          destruct H2 as [[H2 [H3 H4]]|[H2 H3]]; [ | lia ].
          (* nobody is back yet: the value that was there is still there *)
          assert (X : load k m <> None) by (apply (H4 _ _ Hi); reflexivity).
          destruct (load k m); [ lia | congruence ].
    - split; cbn [fst snd].
      + intros j t Hj. destruct (at_start _ _ _ _ Hj) as [v [-> Iv]]. exists v. auto.
      + left. split; [ reflexivity | ]. split.
        * clear. induction vs; cbn; auto.
        * intros j t Hj. destruct (at_start _ _ _ _ Hj) as [v [-> Iv]]. split; [ reflexivity | discriminate ]. }
  assert (Hts : length ts = length vs).
  { assert (L : length (fst (ts, m')) = length vs); [ | exact L ]. rewrite <- E.
    apply (turns_invariant caller_step (fun c => length (fst c) = length vs)).
    - intros us s i l l' s' L _ _. cbn [fst] in *. rewrite set_nth_length. exact L.
    - cbn [fst]. apply map_length. }
  destruct H as [H1 [[_ [_ H2]]|[H2 H3]]]; cbn [fst snd] in *.
  { exfalso. destruct ts as [|t ts]; [ destruct vs; [ contradiction | discriminate ] | ].
    cbn [forallb] in B. apply andb_true_iff in B as [B _]. destruct (H2 0%nat t eq_refl) as [F _]. congruence. }
  split; [ exact H3 | ]. split; [ | exact H2 ].
  intros v r Hin.
  assert (X : exists j, nth_error ts j = Some (After k v (Some r))).
  { clear - Hin H1. revert H1. induction ts as [|t ts IH]; intro H1; [ contradiction | ].
    assert (Y : forall j t0, nth_error ts j = Some t0 -> exists v0 : value, In v0 vs /\
       (t0 = Before k v0 \/ (exists o, t0 = Between k v0 o /\ (In o vs \/ load k m = Some o)) \/
                 (t0 = After k v0 None /\ load k m = None) \/
                 (exists o, t0 = After k v0 (Some o) /\ (In o vs \/ load k m = Some o)))).
    { intros j t0 Hj. apply (H1 (S j)). exact Hj. }
    destruct t as [k' v'|k' v' o|k' v' q]; cbn [answers] in Hin.
    - destruct (IH Hin Y) as [j Hj]. exists (S j). exact Hj.
    - destruct (IH Hin Y) as [j Hj]. exists (S j). exact Hj.
    - destruct Hin as [Hin|Hin].
      + injection Hin as -> ->. exists 0%nat. cbn. destruct (H1 0%nat _ eq_refl) as [u [_ Hu]].
        destruct Hu as [Hu|[[o [Hu _]]|[[Hu _]|[o [Hu _]]]]]; congruence.
      + destruct (IH Hin Y) as [j Hj]. exists (S j). exact Hj. }
  destruct X as [j Hj]. destruct (H1 _ _ Hj) as [u [_ Hu]].
  destruct Hu as [Hu|[[o [Hu _]]|[[Hu _]|[o [Hu Ho]]]]]; try congruence.
Qed.
Print Assumptions C51_no_other_values_partial.

(** Three goroutines, nothing there at first: the second and the third call come
    after the first. *)
Example C51_ex_apart : apart [1; 0; 0; 2; 2]%nat (map (Before "a") [VInt 1; VInt 2; VInt 3], []) /\
  let '(ts, m) := turns caller_step [1; 0; 0; 2; 2]%nat (map (Before "a") [VInt 1; VInt 2; VInt 3], []) in
  answers ts = [(VInt 1, Some (VInt 2)); (VInt 2, None); (VInt 3, Some (VInt 1))] /\ load "a" m = Some (VInt 3).
Proof. cbn. repeat split; intros [k [v E]]; discriminate E. Qed.
(** Overlapping calls: the last two both get the value of the first. *)
Example C51_ex_overlapping :
  let '(ts, m) := turns caller_step [1; 0; 2; 2; 0]%nat (map (Before "a") [VInt 1; VInt 2; VInt 3], []) in
  forallb is_back ts = true /\
  answers ts = [(VInt 1, Some (VInt 2)); (VInt 2, None); (VInt 3, Some (VInt 2))] /\ load "a" m = Some (VInt 1).
Proof. cbn. repeat split. Qed.
