(** The variables of requests served at the same time: C50. *)

From Coq Require Import String List Bool Arith Lia.
From Verif Require Import Conc Races.
Import ListNotations.
Open Scope string_scope.
Open Scope list_scope.
Open Scope nat_scope.

Lemma put_at_length : forall b i x, length (put_at i x b) = length b.
Proof. induction b as [|y b IH]; intros [|i] x; cbn; auto. Qed.

Lemma put_at_before : forall b i x n, n <= i -> firstn n (put_at i x b) = firstn n b.
Proof.
  induction b as [|y b IH]; intros [|i] x [|n] H; cbn; try reflexivity; try lia.
  f_equal. apply IH. lia.
Qed.

Lemma put_at_nth : forall b i x, i < length b -> nth i (put_at i x b) "" = x.
Proof. induction b as [|y b IH]; intros [|i] x H; cbn in *; try lia; auto. apply IH. lia. Qed.

Lemma firstn_nth : forall b i, i < length b -> firstn (S i) b = firstn i b ++ [nth i b ""].
Proof.
  induction b as [|y b IH]; intros [|i] H; cbn in *; try lia; auto. f_equal. apply IH. lia.
Qed.

Lemma nth_firstn_lt : forall b n i, i < n -> nth i b "" = nth i (firstn n b) "".
Proof.
  induction b as [|y b IH]; intros [|n] [|i] H; cbn; try reflexivity; try lia. apply IH. lia.
Qed.

(** What is so of each request, when the server has the variables [base] and
    the array has [spare] more places. *)
Definition request_ok (base : list string) (spare : nat) (b : backing) (ps : list string) (r : request) : Prop :=
  match r with
  | ReqStart qs => qs = ps
  | ReqPut i qs => exists written, ps = written ++ qs /\ i = length base + length written /\ length ps <= spare
  | ReqReadShared i upto seen =>
      upto = length base + length ps /\ length ps <= spare /\ length seen = i /\ i <= upto /\
      firstn (length base) seen = firstn i base
  | ReqDone vs => firstn (length base) vs = base /\ length vs = length base + length ps /\
      (spare < length ps \/ ps = [] -> vs = base ++ ps)
  end.

Definition requests_ok (base : list string) (spare : nat) (params : list (list string)) (c : list request * backing) : Prop :=
  firstn (length base) (snd c) = base /\ length (snd c) = length base + spare /\
  Forall2 (request_ok base spare (snd c)) params (fst c).

Lemma Forall2_set : forall {A B} (P : A -> B -> Prop) ps ts i p t', Forall2 P ps ts -> nth_error ps i = Some p -> P p t' ->
  Forall2 P ps (set_nth i t' ts).
Proof.
  intros A B P ps ts i p t' H. revert i. induction H as [|x y xs ys Hxy H IH]; intros [|i] E Ht; cbn in *; try discriminate.
  - injection E as ->. constructor; assumption.
  - constructor; auto.
Qed.

Lemma Forall2_at : forall {A B} (P : A -> B -> Prop) ps ts i t, Forall2 P ps ts -> nth_error ts i = Some t ->
  exists p, nth_error ps i = Some p /\ P p t.
Proof.
  intros A B P ps ts i t H. revert i. induction H as [|x y xs ys Hxy H IH]; intros [|i] E; cbn in *; try discriminate.
  - injection E as ->. eauto.
  - auto.
Qed.

Lemma request_ok_step : forall base spare params ts b i r r' b',
  requests_ok base spare params (ts, b) -> nth_error ts i = Some r -> request_step (length base) r b = Some (r', b') ->
  requests_ok base spare params (set_nth i r' ts, b').
Proof.
  intros base spare params ts b i r r' b' [Hb [Hl Hf]] Hi Hs. cbn [fst snd] in *.
  destruct (Forall2_at _ _ _ _ _ Hf Hi) as [ps [Hp Hr]].
  assert (Same : forall bb, Forall2 (request_ok base spare bb) params ts) by exact (fun bb => Hf).
  destruct r as [qs|j qs|j upto seen|vs]; cbn [request_step] in Hs; cbn [request_ok] in Hr.
  - subst qs. destruct (Nat.leb_spec (length base + length ps) (length b)) as [L|L]; injection Hs as <- <-.
    + split; [ exact Hb | split; [ exact Hl | ] ]. cbn [fst snd]. eapply Forall2_set; [ exact Hf | exact Hp | ].
      exists []. cbn. split; [ reflexivity | ]. lia.
    + split; [ exact Hb | split; [ exact Hl | ] ]. cbn [fst snd]. eapply Forall2_set; [ exact Hf | exact Hp | ].
      cbn [request_ok]. rewrite Hb. split; [ | split; [ apply app_length | reflexivity ] ].
      rewrite firstn_app, Nat.sub_diag, firstn_all. cbn. apply app_nil_r.
  - destruct Hr as [written [E [Ej Hle]]]. destruct qs as [|q qs]; injection Hs as <- <-.
    + split; [ exact Hb | split; [ exact Hl | ] ]. cbn [fst snd]. eapply Forall2_set; [ exact Hf | exact Hp | ].
      rewrite app_nil_r in E. subst written. cbn [request_ok firstn length]. repeat split; auto; try lia. destruct base; reflexivity.
    + split; [ | split ]; cbn [fst snd].
      * rewrite put_at_before; [ exact Hb | lia ].
      * rewrite put_at_length. exact Hl.
      * eapply Forall2_set; [ apply (Same (put_at j q b)) | exact Hp | ].
        exists (written ++ [q]). rewrite <- app_assoc, app_length. cbn. split; [ exact E | ]. lia.
  - destruct Hr as [Eu [Hle [Es [Hj Hseen]]]].
    destruct (Nat.ltb_spec j upto) as [L|L]; injection Hs as <- <-; (split; [ exact Hb | split; [ exact Hl | ] ]); cbn [fst snd];
      (eapply Forall2_set; [ exact Hf | exact Hp | ]); cbn [request_ok].
    + split; [ exact Eu | ]. split; [ exact Hle | ]. rewrite app_length. cbn [length]. split; [ lia | ]. split; [ lia | ].
      rewrite firstn_app, Hseen. destruct (Nat.lt_ge_cases j (length base)) as [Lb|Lb].
      * replace (length base - length seen) with (S (length base - S j)) by lia. rewrite firstn_cons, firstn_nil.
        rewrite (firstn_nth base j Lb). f_equal. f_equal. rewrite <- Hb. apply nth_firstn_lt. exact Lb.
      * replace (length base - length seen) with 0 by lia. rewrite firstn_O, app_nil_r.
        rewrite !firstn_all2 by lia. reflexivity.
    + assert (j = upto) by lia. subst j. rewrite (firstn_all2 base) in Hseen by lia.
      split; [ exact Hseen | ]. split; [ lia | ].
      intros [X|X]; [ lia | ]. subst ps. cbn [length] in *. rewrite app_nil_r. rewrite firstn_all2 in Hseen by lia. exact Hseen.
  - discriminate.
Qed.

(** The full claim: every request sees the server's variables followed by its
    own parameters. *)
Definition C50_claim : Prop := forall base spare params sched i ps vs,
  nth_error params i = Some ps ->
  nth_error (fst (turns (request_step (length base)) sched (map ReqStart params, base ++ spare))) i = Some (ReqDone vs) ->
  vs = base ++ ps.

(** C50 is refuted: a server started with three --var, whose slice has room for
    a fourth, and two requests with one var each: the first one sees the
    variable of the second. *)
Theorem C50_refuted : exists base spare params sched,
  length base = 3 /\ length spare = 1 /\
  fst (turns (request_step (length base)) sched (map ReqStart params, base ++ spare)) =
    [ReqDone (base ++ ["user=bob"]); ReqDone (base ++ ["user=bob"])] /\
  params = [["user=alice"]; ["user=bob"]].
Proof.
  exists ["a=1"; "b=2"; "c=3"], [""], [["user=alice"]; ["user=bob"]], ([0; 0; 0; 1; 1; 1] ++ repeat 0 9 ++ repeat 1 9).
  vm_compute. auto.
Qed.
Print Assumptions C50_refuted.

Corollary C50_claim_false : ~ C50_claim.
Proof.
  intro H. destruct C50_refuted as [base [spare [params [sched [_ [_ [E P]]]]]]].
  assert (X : base ++ ["user=bob"] = base ++ ["user=alice"]).
  { apply (H base spare params sched 0); [ rewrite P; reflexivity | ]. rewrite E. reflexivity. }
  apply app_inv_head in X. discriminate.
Qed.

(** C50, partial: for every number of requests and every interleaving a request
    sees the server's variables first and then as many more as it has
    parameters, and these are its own when the array has no room for them (so
    always when its capacity is its length) or when there are none.  Missing:
    parameters that fit into the array, where it is false (C50_refuted). *)
Theorem C50_own_variables_partial : forall base spare params sched i ps vs,
  nth_error params i = Some ps ->
  nth_error (fst (turns (request_step (length base)) sched (map ReqStart params, base ++ spare))) i = Some (ReqDone vs) ->
  firstn (length base) vs = base /\ length vs = length base + length ps /\
  (length spare < length ps \/ ps = [] -> vs = base ++ ps).
Proof.
  intros base spare params sched i ps vs Hp Ht.
  assert (R : requests_ok base (length spare) params (turns (request_step (length base)) sched (map ReqStart params, base ++ spare))).
  { apply turns_invariant; [ intros; eapply request_ok_step; eassumption | ].
    split; [ | split ]; cbn [fst snd].
    - rewrite firstn_app, Nat.sub_diag, firstn_all. cbn. apply app_nil_r.
    - apply app_length.
    - clear. induction params; constructor; [ reflexivity | assumption ]. }
  destruct R as [_ [_ R]]. destruct (Forall2_at _ _ _ _ _ R Ht) as [qs [Hq H]].
  rewrite Hp in Hq. injection Hq as <-. exact H.
Qed.
Print Assumptions C50_own_variables_partial.

Corollary C50_no_room_partial : forall base params sched i ps vs,
  nth_error params i = Some ps ->
  nth_error (fst (turns (request_step (length base)) sched (map ReqStart params, base))) i = Some (ReqDone vs) ->
  vs = base ++ ps.
Proof.
  intros base params sched i ps vs Hp Ht.
  destruct (C50_own_variables_partial base [] params sched i ps vs Hp) as [_ [_ H]]; [ rewrite app_nil_r; exact Ht | ].
  apply H. destruct ps; [ right; reflexivity | left; cbn; lia ].
Qed.

(** A request that is served while no other one is under way sees its own. *)
Lemma alone_put : forall base n qs i (b : backing), length base <= i -> n = length base ->
  i + length qs <= length b -> firstn n b = base ->
  exists b', turns (request_step n) (repeat 0 (length qs)) ([ReqPut i qs], b) = ([ReqPut (i + length qs) []], b') /\
    firstn i b' = firstn i b /\ firstn (i + length qs) b' = firstn i b ++ qs.
Proof.
  intros base n. induction qs as [|q qs IH]; intros i b Hi Hn Hb Hf.
  - exists b. cbn [length repeat turns]. rewrite Nat.add_0_r, app_nil_r. auto.
  - cbn [length] in *. destruct (IH (S i) (put_at i q b)) as [b' [E [F G]]]; try lia.
    + rewrite put_at_length. lia.
    + rewrite put_at_before by lia. exact Hf.
    + exists b'. split; [ replace (i + S (length qs)) with (S i + length qs) by lia; exact E | ].
      assert (X : firstn (S i) (put_at i q b) = firstn i b ++ [q]).
      { rewrite firstn_nth by (rewrite put_at_length; lia). rewrite put_at_nth by lia. rewrite put_at_before by lia. reflexivity. }
      split.
      * assert (Y : firstn i (firstn (S i) b') = firstn i (firstn i b ++ [q])) by congruence.
        rewrite firstn_firstn in Y. replace (Nat.min i (S i)) with i in Y by lia. rewrite Y.
        rewrite firstn_app, firstn_firstn, Nat.min_id. rewrite firstn_length_le by lia. rewrite Nat.sub_diag. cbn. apply app_nil_r.
      * replace (i + S (length qs)) with (S i + length qs) by lia. rewrite G, X, <- app_assoc. reflexivity.
Qed.

Lemma alone_read : forall n k (b : backing) i upto seen, k = upto - i -> i <= upto -> upto <= length b -> seen = firstn i b ->
  turns (request_step n) (repeat 0 k) ([ReqReadShared i upto seen], b) = ([ReqReadShared upto upto (firstn upto b)], b).
Proof.
  intros n. induction k as [|k IH]; intros b i upto seen Hk Hi Hb Hs.
  - assert (i = upto) by lia. subst. reflexivity.
  - cbn [repeat turns]. unfold turn at 1. cbn [fst snd nth_error request_step].
    destruct (Nat.ltb_spec i upto); [ | lia ]. cbn [set_nth]. apply IH; try lia.
    subst seen. symmetry. apply firstn_nth. lia.
Qed.

Theorem C50_alone_partial : forall base (b : backing) ps, firstn (length base) b = base ->
  exists k b', turns (request_step (length base)) (repeat 0 k) ([ReqStart ps], b) = ([ReqDone (base ++ ps)], b').
Proof.
  intros base b ps Hb.
  destruct (Nat.leb_spec (length base + length ps) (length b)) as [L|L].
  - destruct (alone_put base (length base) ps (length base) b (Nat.le_refl _) eq_refl L Hb) as [b' [E [F G]]].
    exists (1 + (length ps + (1 + ((length base + length ps) + 1)))), b'.
    rewrite repeat_app, turns_app. cbn [repeat turns]. unfold turn at 1. cbn [fst snd nth_error request_step set_nth].
    destruct (Nat.leb_spec (length base + length ps) (length b)); [ | lia ].
    rewrite repeat_app, turns_app, E. rewrite repeat_app, turns_app. cbn [repeat turns]. unfold turn at 1. cbn [fst snd nth_error request_step set_nth].
    assert (Lb : length base + length ps <= length b').
    { assert (X : length (firstn (length base + length ps) b') = length base + length ps).
      { rewrite G, Hb. apply app_length. }
      rewrite firstn_length in X. lia. }
    rewrite repeat_app, turns_app. rewrite (alone_read (length base) _ b' 0); [ | lia | lia | exact Lb | reflexivity ].
    cbn [repeat turns]. unfold turn. cbn [fst snd nth_error request_step]. rewrite Nat.ltb_irrefl. cbn [set_nth].
    rewrite G, Hb. reflexivity.
  - exists 1, b. cbn [repeat turns]. unfold turn. cbn [fst snd nth_error request_step].
    destruct (Nat.leb_spec (length base + length ps) (length b)); [ lia | ]. cbn [set_nth]. rewrite Hb. reflexivity.
Qed.
Print Assumptions C50_alone_partial.

(** ** Exactly which requests are safe *)

Lemma put_at_other : forall b i j x, i <> j -> nth j (put_at i x b) "" = nth j b "".
Proof. induction b as [|y b IH]; intros [|i] [|j] x H; cbn; try reflexivity; try congruence. apply IH. congruence. Qed.

Lemma list_ext {A} : forall l l' : list A, (forall j, nth_error l j = nth_error l' j) -> l = l'.
Proof.
  induction l as [|x l IH]; intros [|y l'] H; try reflexivity; try discriminate (H 0).
  injection (H 0) as ->. f_equal. apply IH. intro j. exact (H (S j)).
Qed.

Lemma nth_error_skip {A} : forall n (l : list A) j, nth_error (skipn n l) j = nth_error l (n + j).
Proof. induction n as [|n IH]; intros [|x l] j; cbn; auto. destruct j; reflexivity. Qed.

Section Whose.
  Context (base : list string) (spare : nat) (params : list (list string)).

  (** The [j]-th variable after those of the server is the [j]-th parameter of a request
      whose parameters fit into the array. *)
  Definition fits_one (j : nat) (x : string) : Prop :=
    exists ps, In ps params /\ length ps <= spare /\ nth_error ps j = Some x.
  Definition written_by (b : backing) (j : nat) : Prop := fits_one j (nth (length base + j) b "").

  Definition whose_ok (b : backing) (ps : list string) (r : request) : Prop :=
    match r with
    | ReqStart _ => True
    | ReqPut i _ => forall j, length base + j < i -> written_by b j
    | ReqReadShared i upto seen =>
        (forall j, length base + j < upto -> written_by b j) /\
        (forall j x, nth_error seen (length base + j) = Some x -> fits_one j x)
    | ReqDone vs => length ps <= spare -> forall j x, nth_error vs (length base + j) = Some x -> fits_one j x
    end.

  Lemma written_put b k q ps ws qs j : In ps params -> length ps <= spare -> ps = ws ++ q :: qs -> k = length base + length ws ->
    k < length b -> written_by b j \/ length base + j = k -> written_by (put_at k q b) j.
  Proof.
    intros Hin Hle E Ek Hk H. unfold written_by. destruct (Nat.eq_dec k (length base + j)) as [Y|N].
    - rewrite <- Y, put_at_nth by exact Hk. exists ps. split; [ exact Hin | ]. split; [ exact Hle | ].
      assert (j = length ws) by lia. subst j ps. rewrite nth_error_app2, Nat.sub_diag by lia. reflexivity.
    - rewrite put_at_other by exact N. destruct H as [H|H]; [ exact H | congruence ].
  Qed.

  Lemma whose_step : forall ts b i r r' b',
    requests_ok base spare params (ts, b) /\ Forall2 (whose_ok b) params ts ->
    nth_error ts i = Some r -> request_step (length base) r b = Some (r', b') ->
    requests_ok base spare params (set_nth i r' ts, b') /\ Forall2 (whose_ok b') params (set_nth i r' ts).
  Proof.
    intros ts b i r r' b' [Hok Hf] Hi Hs. split; [ eapply request_ok_step; eassumption | ].
    destruct Hok as [Hb [Hl Hr]]. cbn [fst snd] in *.
    destruct (Forall2_at _ _ _ _ _ Hf Hi) as [ps [Hp Hw]]. destruct (Forall2_at _ _ _ _ _ Hr Hi) as [ps' [Hp' Hq]].
    rewrite Hp in Hp'. injection Hp' as <-. pose proof (nth_error_In _ _ Hp) as Hin.
    destruct r as [qs|k qs|k upto seen|vs]; cbn [request_step] in Hs; cbn [request_ok whose_ok] in *.
    - subst qs. destruct (Nat.leb_spec (length base + length ps) (length b)) as [L|L]; injection Hs as <- <-;
        (eapply Forall2_set; [ exact Hf | exact Hp | ]); cbn [whose_ok].
      + intros j Hj. lia.
      + intros Hle. lia.
    - destruct Hq as [ws [E [Ek Hle]]]. destruct qs as [|q qs]; injection Hs as <- <-.
      + eapply Forall2_set; [ exact Hf | exact Hp | ]. cbn [whose_ok]. split; [ exact Hw | ]. intros j x. destruct (length base + j); discriminate.
      + assert (Hk : k < length b) by (subst ps; rewrite app_length in Hle; cbn in Hle; lia).
        assert (Keep : forall j, written_by b j -> written_by (put_at k q b) j) by (intros j Hj; eapply written_put; eauto).
        assert (Hf' : Forall2 (whose_ok (put_at k q b)) params ts).
        { clear -Hf Keep. induction Hf as [|qs' r0 l l' H0 Hf IH]; constructor; [ | exact IH ]. destruct r0; cbn [whose_ok] in *; auto. destruct H0; split; auto. }
        eapply Forall2_set; [ exact Hf' | exact Hp | ]. cbn [whose_ok]. intros j Hj.
        eapply written_put; eauto. destruct (Nat.eq_dec (length base + j) k) as [Y|N]; [ right; exact Y | left; apply Hw; lia ].
    - destruct Hq as [Eu [Hle [Es [Hk Hseen]]]]. destruct Hw as [W1 W2].
      destruct (Nat.ltb_spec k upto) as [L|L]; injection Hs as <- <-;
        (eapply Forall2_set; [ exact Hf | exact Hp | ]); cbn [whose_ok].
      + split; [ exact W1 | ]. intros j x Hx. destruct (Nat.lt_ge_cases (length base + j) k) as [Lj|Lj].
        * rewrite nth_error_app1 in Hx by lia. apply W2. exact Hx.
        * rewrite nth_error_app2 in Hx by lia. destruct (length base + j - length seen) as [|d] eqn:Ed; [ | destruct d; discriminate ].
          cbn in Hx. injection Hx as <-. assert (k = length base + j) by lia. subst k. rewrite H. apply W1. lia.
      + intros _. exact W2.
    - discriminate.
  Qed.
End Whose.

(** The values of a request whose parameters fit: each is a parameter, at its place, of some
    request whose parameters fit. *)
Lemma whose_values base spare params sched i ps vs :
  nth_error params i = Some ps -> length ps <= length spare ->
  nth_error (fst (turns (request_step (length base)) sched (map ReqStart params, base ++ spare))) i = Some (ReqDone vs) ->
  forall j x, nth_error vs (length base + j) = Some x -> fits_one (length spare) params j x.
Proof.
  intros Hp Hle Ht.
  assert (R : requests_ok base (length spare) params (turns (request_step (length base)) sched (map ReqStart params, base ++ spare)) /\
              Forall2 (whose_ok base (length spare) params (snd (turns (request_step (length base)) sched (map ReqStart params, base ++ spare)))) params
                (fst (turns (request_step (length base)) sched (map ReqStart params, base ++ spare)))).
  { apply (turns_invariant (request_step (length base)) (fun c => requests_ok base (length spare) params c /\ Forall2 (whose_ok base (length spare) params (snd c)) params (fst c))).
    - intros ts s k l l' s' H Hk Hstep. cbn [fst snd] in *. eapply whose_step; eassumption.
    - split; [ split; [ | split ] | ]; cbn [fst snd].
      + rewrite firstn_app, Nat.sub_diag, firstn_all. cbn. apply app_nil_r.
      + apply app_length.
      + clear. induction params; constructor; [ reflexivity | assumption ].
      + assert (X : forall l, Forall2 (whose_ok base (length spare) params (base ++ spare)) l (map ReqStart l)) by (induction l; constructor; [ exact I | assumption ]).
        apply X. }
  destruct R as [_ R]. destruct (Forall2_at _ _ _ _ _ R Ht) as [qs [Hq H]]. rewrite Hp in Hq. injection Hq as <-. exact (H Hle).
Qed.

(** A goroutine that has several turns on its own, among others. *)
Lemma own_turns : forall n k ts b i r r' b', nth_error ts i = Some r ->
  turns (request_step n) (repeat 0 k) ([r], b) = ([r'], b') -> turns (request_step n) (repeat i k) (ts, b) = (set_nth i r' ts, b').
Proof.
  intros n. induction k as [|k IH]; intros ts b i r r' b' Hi H.
  - cbn in *. injection H as <- <-. f_equal. clear -Hi. revert i Hi. induction ts as [|t ts IHt]; intros [|i] Hi; cbn in *; try discriminate.
    + injection Hi as ->. reflexivity.
    + f_equal. apply IHt. exact Hi.
  - cbn [repeat turns] in *. unfold turn at 1 in H. unfold turn at 1. cbn [fst snd nth_error] in *. rewrite Hi.
    destruct (request_step n r b) as [[r1 b1]|]; cbn [set_nth] in H.
    + rewrite (IH (set_nth i r1 ts) b1 i r1 r' b'); [ | eapply set_nth_same; exact Hi | exact H ].
      f_equal. clear. revert i. induction ts as [|t ts IHt]; intros [|i]; cbn; auto. f_equal. apply IHt.
    + apply (IH ts b i r r' b' Hi H).
Qed.

(** A request that has written its parameters. *)
Lemma has_put base ps (b : backing) : firstn (length base) b = base -> length base + length ps <= length b ->
  exists b', turns (request_step (length base)) (repeat 0 (1 + length ps)) ([ReqStart ps], b) = ([ReqPut (length base + length ps) []], b') /\
    firstn (length base + length ps) b' = base ++ ps /\ length b' = length b.
Proof.
  intros Hb L. destruct (alone_put base (length base) ps (length base) b (Nat.le_refl _) eq_refl L Hb) as [b' [E [F G]]].
  exists b'. split; [ | split ].
  - rewrite repeat_app, turns_app. cbn [repeat turns]. unfold turn at 1. cbn [fst snd nth_error request_step set_nth].
    destruct (Nat.leb_spec (length base + length ps) (length b)); [ exact E | lia ].
  - rewrite G, Hb. reflexivity.
  - assert (P : forall sched ts (c : backing), length (snd (turns (request_step (length base)) sched (ts, c))) = length c).
    { clear. intros sched ts c. apply (turns_invariant (request_step (length base)) (fun d => length (snd d) = length c)); [ | reflexivity ].
      intros ts' s i l l' s' H _ Hs. cbn [snd] in *. destruct l as [qs|k [|q qs]|k u seen|vs]; cbn [request_step] in Hs.
      - destruct (_ <=? _); injection Hs as <- <-; exact H.
      - injection Hs as <- <-. exact H.
      - injection Hs as <- <-. rewrite put_at_length. exact H.
      - destruct (_ <? _); injection Hs as <- <-; exact H.
      - discriminate. }
    specialize (P (repeat 0 (length ps)) [ReqPut (length base) ps] b). rewrite E in P. exact P.
Qed.

(** Two requests whose parameters fit: the first writes, then the second, then the first reads. *)
Lemma overtaken base spare params i i' ps ps' : i' <> i ->
  nth_error params i = Some ps -> nth_error params i' = Some ps' -> length ps <= length spare -> length ps' <= length spare ->
  exists sched vs, nth_error (fst (turns (request_step (length base)) sched (map ReqStart params, base ++ spare))) i = Some (ReqDone vs) /\
    forall j y, j < length ps -> nth_error ps' j = Some y -> nth_error vs (length base + j) = Some y.
Proof.
  intros Ne Hp Hp' L1 L2.
  assert (F0 : firstn (length base) (base ++ spare) = base) by (rewrite firstn_app, Nat.sub_diag, firstn_all; cbn; apply app_nil_r).
  assert (G0 : length base + length ps <= length (base ++ spare)) by (rewrite app_length; lia).
  destruct (has_put base ps (base ++ spare) F0 G0) as (b1 & E1 & F1 & N1).
  assert (F1' : firstn (length base) b1 = base).
  { replace (firstn (length base) b1) with (firstn (length base) (firstn (length base + length ps) b1)) by (rewrite firstn_firstn; f_equal; lia).
    rewrite F1. rewrite firstn_app, Nat.sub_diag, firstn_all. cbn. apply app_nil_r. }
  destruct (has_put base ps' b1 F1') as (b2 & E2 & F2 & N2); [ rewrite N1, app_length; lia | ].
  assert (E3 : turns (request_step (length base)) (repeat 0 (1 + ((length base + length ps) + 1))) ([ReqPut (length base + length ps) []], b2)
               = ([ReqDone (firstn (length base + length ps) b2)], b2)).
  { rewrite repeat_app, turns_app. cbn [repeat turns]. unfold turn at 1. cbn [fst snd nth_error request_step set_nth].
    rewrite repeat_app, turns_app. rewrite (alone_read (length base) _ b2 0); [ | lia | lia | rewrite N2, N1, app_length; lia | reflexivity ].
    cbn [repeat turns]. unfold turn. cbn [fst snd nth_error request_step]. rewrite Nat.ltb_irrefl. reflexivity. }
  assert (Hm : forall k qs, nth_error params k = Some qs -> nth_error (map ReqStart params) k = Some (ReqStart qs)) by (intros k qs H; apply map_nth_error; exact H).
  exists (repeat i (1 + length ps) ++ repeat i' (1 + length ps') ++ repeat i (1 + ((length base + length ps) + 1))), (firstn (length base + length ps) b2).
  split.
  - set (ts1 := set_nth i (ReqPut (length base + length ps) []) (map ReqStart params)).
    assert (I1 : nth_error ts1 i = Some (ReqPut (length base + length ps) [])) by (eapply set_nth_same; exact (Hm i ps Hp)).
    assert (I2 : nth_error ts1 i' = Some (ReqStart ps')) by (unfold ts1; rewrite set_nth_other by congruence; exact (Hm i' ps' Hp')).
    assert (T1 : turns (request_step (length base)) (repeat i (1 + length ps)) (map ReqStart params, base ++ spare) = (ts1, b1)).
    { exact (own_turns _ _ _ _ i _ _ _ (Hm i ps Hp) E1). }
    set (ts2 := set_nth i' (ReqPut (length base + length ps') []) ts1).
    assert (I3 : nth_error ts2 i = Some (ReqPut (length base + length ps) [])) by (unfold ts2; rewrite set_nth_other by exact Ne; exact I1).
    assert (T2 : turns (request_step (length base)) (repeat i' (1 + length ps')) (ts1, b1) = (ts2, b2)).
    { exact (own_turns _ _ _ _ i' _ _ _ I2 E2). }
    assert (T3 := own_turns _ _ _ _ i _ _ _ I3 E3).
    rewrite turns_app, T1, turns_app, T2, T3. cbn [fst]. eapply set_nth_same. exact I3.
  - intros j y Hj Hy.
    assert (Hn : forall (l : list string) m k, k < m -> nth_error (firstn m l) k = nth_error l k).
    { clear. induction l as [|x l IH]; intros [|m] [|k] H; cbn; try reflexivity; try lia. apply IH. lia. }
    rewrite Hn by lia. assert (Hj' : j < length ps') by (apply nth_error_Some; congruence).
    rewrite <- (Hn b2 (length base + length ps')) by lia. rewrite F2. rewrite nth_error_app2 by lia.
    replace (length base + j - length base) with j by lia. exact Hy.
Qed.

(** How far the claim holds: a request always sees its own variables, in every interleaving,
    exactly if they do not fit into the array or no other request whose variables fit has
    another variable at a place where this one has one. *)
Theorem C50_exactly : forall base spare params i ps, nth_error params i = Some ps ->
  ((forall sched vs,
      nth_error (fst (turns (request_step (length base)) sched (map ReqStart params, base ++ spare))) i = Some (ReqDone vs) ->
      vs = base ++ ps) <->
   length spare < length ps \/
   (forall i' ps' j x y, i' <> i -> nth_error params i' = Some ps' -> length ps' <= length spare ->
      nth_error ps j = Some x -> nth_error ps' j = Some y -> x = y)).
Proof.
  intros base spare params i ps Hp. split.
  - intros H. destruct (Nat.lt_ge_cases (length spare) (length ps)) as [L|L]; [ left; exact L | right ].
    intros i' ps' j x y Ne Hp' L' Hx Hy. destruct (overtaken base spare params i i' ps ps' Ne Hp Hp' L L') as (sched & vs & E & V).
    specialize (H sched vs E). subst vs. assert (Hj : j < length ps) by (apply nth_error_Some; congruence).
    specialize (V j y Hj Hy). rewrite nth_error_app2 in V by lia. replace (length base + j - length base) with j in V by lia. congruence.
  - intros H sched vs E. destruct (C50_own_variables_partial base spare params sched i ps vs Hp E) as (F & N & S).
    destruct (Nat.lt_ge_cases (length spare) (length ps)) as [L|L]; [ apply S; left; exact L | ].
    destruct H as [H|H]; [ lia | ].
    rewrite <- (firstn_skipn (length base) vs), F. f_equal. apply list_ext. intro j. rewrite nth_error_skip.
    destruct (Nat.lt_ge_cases j (length ps)) as [Lj|Lj].
    + destruct (nth_error vs (length base + j)) as [y|] eqn:Ey; [ | apply nth_error_None in Ey; lia ].
      destruct (whose_values base spare params sched i ps vs Hp L E j y Ey) as (ps' & Hin & L' & Hy).
      apply In_nth_error in Hin as [i' Hi']. destruct (nth_error ps j) as [x|] eqn:Ex; [ | apply nth_error_None in Ex; lia ].
      destruct (Nat.eq_dec i' i) as [->|Ne]; [ congruence | ]. rewrite (H i' ps' j x y Ne Hi' L' Ex Hy). reflexivity.
    + rewrite (proj2 (nth_error_None ps j) Lj). apply nth_error_None. lia.
Qed.
Print Assumptions C50_exactly.

(** Requests that have the same first variable, and another one that does not fit, are safe;
    with one more request that has another first variable they are not. *)
Example C50_exactly_ex :
  (forall i' ps' j x y, i' <> 0 -> nth_error [["e=1"]; ["e=1"]; ["f=2"; "g=3"]] i' = Some ps' -> length ps' <= length [""] ->
      nth_error ["e=1"] j = Some x -> nth_error ps' j = Some y -> x = y) /\
  ~ (forall i' ps' j x y, i' <> 0 -> nth_error [["e=1"]; ["e=1"]; ["f=2"]] i' = Some ps' -> length ps' <= length [""] ->
      nth_error ["e=1"] j = Some x -> nth_error ps' j = Some y -> x = y).
Proof.
  split.
  - intros i' ps' [|j] x y Ne H L Hx Hy; [ | destruct j; discriminate ].
    destruct i' as [|[|[|i']]]; [ congruence | | | destruct i'; discriminate ]; cbn in *; injection H as <-; cbn in *; [ congruence | lia ].
  - intro H. specialize (H 2 ["f=2"] 0 "e=1" "f=2"). cbn in H. assert (X : "e=1" = "f=2") by (apply H; auto). discriminate X.
Qed.

(** A server with two --var (the array is full) and two requests. *)
Example C50_ex_full :
  fst (turns (request_step 2) [0; 1; 1; 0] (map ReqStart [["x=1"]; ["y=2"; "z=3"]], ["a=1"; "b=2"])) =
    [ReqDone ["a=1"; "b=2"; "x=1"]; ReqDone ["a=1"; "b=2"; "y=2"; "z=3"]].
Proof. reflexivity. Qed.
(** Three --var, room for one more: a request with two parameters does not fit. *)
Example C50_ex_no_fit :
  nth_error (fst (turns (request_step 3) [0; 0; 1; 0] (map ReqStart [["x=1"]; ["y=2"; "z=3"]], ["a=1"; "b=2"; "c=3"] ++ [""]))) 1 =
    Some (ReqDone ["a=1"; "b=2"; "c=3"; "y=2"; "z=3"]).
Proof. reflexivity. Qed.
