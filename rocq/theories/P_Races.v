(** Goroutines that load configurations at the same time: C47 and C48. *)

From Coq Require Import String List Bool Arith Lia.
From Verif Require Import State Conc Cache Races.
Import ListNotations.
Open Scope string_scope.
Open Scope list_scope.
Open Scope nat_scope.

Lemma ld_same {A} : forall k v (m : smap A), load k (store k v m) = Some v.
Proof. intros. unfold load, store, aput. cbn. rewrite String.eqb_refl. reflexivity. Qed.
Lemma ld_other {A} : forall k k' v (m : smap A), k' <> k -> load k (store k' v m) = load k m.
Proof.
  intros. unfold load, store, aput. cbn. destruct (String.eqb_spec k k'); congruence.
Qed.

(** The outcomes recorded for one name. *)
Fixpoint for_name {A} (p : string) (l : list (string * A)) : list A :=
  match l with
  | [] => []
  | (q, a) :: r => if String.eqb q p then a :: for_name p r else for_name p r
  end.

Lemma for_name_in {A} : forall p (l : list (string * A)) a, In a (for_name p l) <-> In (p, a) l.
Proof.
  intros p l a. induction l as [|[q b] l IH]; cbn; [ reflexivity | ].
  destruct (String.eqb_spec q p) as [->|N]; cbn; rewrite IH; intuition congruence.
Qed.

Lemma count_ext : forall {L} (f g : L -> bool) ts, (forall t, f t = g t) -> count f ts = count g ts.
Proof. intros L f g ts H. induction ts as [|t ts IH]; cbn; [ reflexivity | ]. rewrite H, IH. reflexivity. Qed.
Lemma count_le : forall {L} (f g : L -> bool) ts, (forall t, f t = true -> g t = true) -> count f ts <= count g ts.
Proof.
  intros L f g ts H. induction ts as [|t ts IH]; cbn; [ lia | ].
  specialize (H t). destruct (f t), (g t); try lia; discriminate (H eq_refl).
Qed.
Lemma count_pos : forall {L} (f : L -> bool) ts i t, nth_error ts i = Some t -> f t = true -> 1 <= count f ts.
Proof.
  intros L f. induction ts as [|x ts IH]; intros [|i] t H F; cbn in *; try discriminate.
  - injection H as ->. rewrite F. lia.
  - specialize (IH _ _ H F). lia.
Qed.
Lemma count_ex : forall {L} (f : L -> bool) ts, 1 <= count f ts -> exists i t, nth_error ts i = Some t /\ f t = true.
Proof.
  intros L f. induction ts as [|x ts IH]; intro H; cbn in H; [ lia | ].
  destruct (f x) eqn:E; [ exists 0, x; auto | ]. destruct IH as [i [t [A B]]]; [ lia | ]. exists (S i), t. auto.
Qed.

Section ConfigRace.
  Context {C : Type}.
  Variable new : nat -> string -> option C.
  Notation looker := (looker C).
  Notation shared_cache := (shared_cache C).
  Let step := looker_step new.

  (** *** What is always so *)

  Definition pc_of (p : string) (l : looker) : option (config_pc C) :=
    match lk_pc l with
    | AtStart => None
    | AtLoad q | AtLoadOrStore q | AtRLock q | AtReload q | AtRUnlock q _
    | AtNew q | AtStore q _ | AtUnlock q _ | AtReturn q _ => if String.eqb q p then Some (lk_pc l) else None
    end.
  (** Loading this configuration, or about to. *)
  Definition owner (p : string) (l : looker) : bool :=
    match pc_of p l with Some (AtNew _) | Some (AtStore _ _) | Some (AtUnlock _ _) => true | _ => false end.
  Definition starting (p : string) (l : looker) : bool :=
    match pc_of p l with Some (AtNew _) => true | _ => false end.

  Definition phase (ts : list looker) (s : shared_cache) (p : string) : Prop :=
    let lock := load p (sc_locks s) in
    let conf := load p (sc_configs s) in
    let news := for_name p (sc_news s) in
    (lock = None /\ count (owner p) ts = 0 /\ news = [] /\ conf = None) \/
    (lock = Some Locked /\ count (owner p) ts = 1 /\ count (starting p) ts = 1 /\ news = [] /\ conf = None) \/
    (exists c, lock = Some Locked /\ count (owner p) ts = 1 /\ count (starting p) ts = 0 /\ news = [Some c] /\ (conf = None \/ conf = Some c)) \/
    (lock = Some Locked /\ count (owner p) ts = 0 /\ news = [None] /\ conf = None) \/
    (exists c n, lock = Some (Readers n) /\ count (owner p) ts = 0 /\ news = [Some c] /\ conf = Some c).

  (** What a goroutine holds comes from a load. *)
  Definition holds (s : shared_cache) (p : string) (r : option C) : Prop := In (p, r) (sc_news s).
  Definition fine (s : shared_cache) (l : looker) : Prop :=
    (forall p r, In (p, r) (lk_results l) -> holds s p r) /\
    (forall p c, load p (lk_known l) = Some c -> holds s p (Some c)) /\
    match lk_pc l with
    | AtRLock p => load p (sc_locks s) <> None
    | AtReload p => load p (sc_configs s) <> None
    | AtRUnlock p c => holds s p (Some c)
    | AtStore p c => holds s p (Some c)
    | AtUnlock p c => holds s p (Some c) /\ load p (sc_configs s) = Some c
    | AtReturn p r => holds s p r
    | _ => True
    end.

  Definition always (c : list looker * shared_cache) : Prop :=
    (forall p, phase (fst c) (snd c) p) /\ Forall (fine (snd c)) (fst c).

  (** Nothing that is shared gets lost. *)
  Definition grows (s s' : shared_cache) : Prop :=
    (forall x, In x (sc_news s) -> In x (sc_news s')) /\
    (forall p, load p (sc_locks s) <> None -> load p (sc_locks s') <> None) /\
    (forall p c, load p (sc_configs s) = Some c -> load p (sc_configs s') = Some c).

  Lemma phase_conf : forall ts s p c, phase ts s p -> load p (sc_configs s) = Some c -> holds s p (Some c).
  Proof.
    intros ts s p c H E. unfold holds. rewrite <- for_name_in. unfold phase in H. rewrite E in H.
    destruct H as [[_ [_ [_ X]]]|[[_ [_ [_ [_ X]]]]|[[d [_ [_ [_ [N [X|X]]]]]]|[[_ [_ [_ X]]]|[d [n [_ [_ [N X]]]]]]]]]; try discriminate;
      injection X as ->; rewrite N; left; reflexivity.
  Qed.

  Lemma phase_same : forall ts s p d d', phase ts s p -> holds s p d -> holds s p d' -> d = d'.
  Proof.
    intros ts s p d d' H A B. unfold holds in *. rewrite <- for_name_in in A, B.
    assert (X : exists e, for_name p (sc_news s) = [] \/ for_name p (sc_news s) = [e]).
    { destruct H as [[_ [_ [X _]]]|[[_ [_ [_ [X _]]]]|[[c [_ [_ [_ [X _]]]]]|[[_ [_ [X _]]]|[c [n [_ [_ [X _]]]]]]]]]; rewrite X.
      all: try (exists None; left; reflexivity). all: eexists; right; reflexivity. }
    destruct X as [e [X|X]]; rewrite X in A, B; cbn in A, B; intuition congruence.
  Qed.

  Lemma count_other : forall (f : looker -> bool) ts i l l', nth_error ts i = Some l -> f l = f l' ->
    count f (set_nth i l' ts) = count f ts.
  Proof. intros f ts i l l' H E. pose proof (count_set f ts i l' l H) as X. rewrite E in X. destruct (f l'); lia. Qed.

  Lemma starting_owner : forall ts p, count (starting p) ts <= count (owner p) ts.
  Proof.
    intros ts p. apply count_le. intros t. unfold starting, owner. destruct (pc_of p t) as [[]|]; congruence.
  Qed.

  Lemma fine_grows : forall s s' l, grows s s' -> fine s l -> fine s' l.
  Proof.
    intros s s' l [G1 [G2 G3]] [F1 [F2 F3]]. unfold fine, holds in *.
    split; [ eauto | ]. split; [ eauto | ].
    destruct (lk_pc l); auto.
    - intro E. destruct (load p (sc_configs s)) eqn:X; [ | contradiction ]. rewrite (G3 _ _ X) in E. discriminate.
    - destruct F3. split; auto.
  Qed.

  Lemma locks_grow : forall p q k (m : smap config_lock), load p m <> None -> load p (store q k m) <> None.
  Proof.
    intros p q k m H. destruct (string_dec q p) as [->|N]; [ rewrite ld_same; discriminate | rewrite ld_other by exact N; exact H ].
  Qed.

  Lemma step_grows : forall ts s i l l' s', always (ts, s) -> nth_error ts i = Some l -> step l s = Some (l', s') -> grows s s'.
  Proof.
    intros ts s i l l' s' [Hp Hf] Hi Hs. cbn [fst snd] in *.
    assert (Fl : fine s l) by (rewrite Forall_forall in Hf; apply Hf; eapply nth_error_In; exact Hi).
    destruct Fl as [F1 [F2 F3]]. unfold step, looker_step in Hs.
    assert (R : grows s s) by (repeat split; auto).
    destruct (lk_pc l) as [|q|q|q|q|q c|q|q c|q c|q r].
    - destruct (lk_calls l) as [|[fr q] r]; [ discriminate | ]. destruct (load q _); injection Hs as <- <-; exact R.
    - injection Hs as <- <-. exact R.
    - unfold load_or_store in Hs. destruct (load q (sc_locks s)) eqn:E; injection Hs as <- <-.
      + repeat split; auto.
      + repeat split; auto. cbn [sc_locks]. intros p. apply locks_grow.
    - destruct (load q (sc_locks s)) as [[|n]|]; try discriminate. injection Hs as <- <-.
      repeat split; auto. cbn [sc_locks]. intros p. apply locks_grow.
    - injection Hs as <- <-. exact R.
    - injection Hs as <- <-. repeat split; auto. cbn [sc_locks]. intros p X.
      destruct (load q (sc_locks s)) as [[|[|n]]|]; try exact X. apply locks_grow. exact X.
    - injection Hs as <- <-. repeat split; auto. cbn [sc_news]. intros x X. right. exact X.
    - injection Hs as <- <-. repeat split; auto. cbn [sc_configs]. intros p d E.
      destruct (string_dec q p) as [->|N]; [ | rewrite ld_other by exact N; exact E ].
      rewrite ld_same. rewrite <- (phase_same _ _ _ _ _ (Hp p) (phase_conf _ _ _ _ (Hp p) E) F3). reflexivity.
    - injection Hs as <- <-. repeat split; auto. cbn [sc_locks]. intros p. apply locks_grow.
    - injection Hs as <- <-. exact R.
  Qed.

  Ltac phases H := destruct H as
    [[P1 [P2 [P3 P4]]]|[[P1 [P2 [P3 [P4 P5]]]]|[[pc [P1 [P2 [P3 [P4 P5]]]]]|[[P1 [P2 [P3 P4]]]|[pc [pn [P1 [P2 [P3 P4]]]]]]]]].

  (** A step leaves the phase of a path alone when it does not touch it. *)
  Lemma phase_untouched : forall ts s i l l' s' p, phase ts s p -> nth_error ts i = Some l ->
    owner p l' = owner p l -> starting p l' = starting p l ->
    load p (sc_locks s') = load p (sc_locks s) -> load p (sc_configs s') = load p (sc_configs s) ->
    for_name p (sc_news s') = for_name p (sc_news s) -> phase (set_nth i l' ts) s' p.
  Proof.
    intros ts s i l l' s' p H Hi O S L K N. unfold phase in *.
    rewrite (count_other (owner p) ts i l l' Hi) by auto. rewrite (count_other (starting p) ts i l l' Hi) by auto.
    rewrite L, K, N. exact H.
  Qed.

  Lemma at_pc_of : forall l pc p, pc_of p (at_pc l pc) = pc_of p (mk_looker [] [] pc []).
  Proof. reflexivity. Qed.

  Lemma always_step : forall ts s i l l' s', always (ts, s) -> nth_error ts i = Some l -> step l s = Some (l', s') ->
    always (set_nth i l' ts, s').
  Proof.
    intros ts s i l l' s' A Hi Hs. pose proof (step_grows _ _ _ _ _ _ A Hi Hs) as G.
    destruct A as [Hp Hf]. cbn [fst snd] in *.
    assert (Fl : fine s l) by (rewrite Forall_forall in Hf; apply Hf; eapply nth_error_In; exact Hi).
    assert (Hf' : Forall (fine s') ts) by (eapply Forall_impl; [ intros x; apply (fine_grows s s' x G) | exact Hf ]).
    pose proof (fine_grows _ _ _ G Fl) as Fl'.
    enough (X : (forall p, phase (set_nth i l' ts) s' p) /\ fine s' l').
    { destruct X as [X1 X2]. split; [ exact X1 | ]. cbn [fst snd]. clear - Hf' X2. revert i.
      induction Hf' as [|x xs Hx Hxs IH]; intros [|i]; cbn; constructor; auto. }
    clear Hf Hf' G. unfold step, looker_step in Hs.
    destruct (lk_pc l) as [|q|q|q|q|q c|q|q c|q c|q r] eqn:Epc.
    - (* AtStart *)
      destruct (lk_calls l) as [|[fr q] r] eqn:Ec; [ discriminate | ].
      set (known := if fr then [] else lk_known l) in *.
      assert (Fk : forall p c, load p known = Some c -> holds s p (Some c)).
      { intros p c. unfold known. destruct fr; [ discriminate | ]. apply (proj1 (proj2 Fl)). }
      destruct (load q known) as [c|] eqn:E; injection Hs as <- <-.
      + split; [ intro p; apply (phase_untouched _ _ _ _ _ _ _ (Hp p) Hi); auto; unfold owner, starting, pc_of; rewrite Epc; reflexivity | ].
        destruct Fl as [F1 [F2 F3]]. split; [ | split ]; cbn [lk_results lk_known lk_pc]; auto.
        intros p r0 [X|X]; [ injection X as <- <-; apply Fk; exact E | auto ].
      + split.
        * intro p. apply (phase_untouched _ _ _ _ _ _ _ (Hp p) Hi); auto; unfold owner, starting, pc_of; cbn [lk_pc]; rewrite Epc;
            destruct (String.eqb q p); reflexivity.
        * destruct Fl as [F1 [F2 F3]]. split; [ | split ]; cbn [lk_results lk_known lk_pc]; auto.
    - (* AtLoad *)
      injection Hs as <- <-. split.
      + intro p. apply (phase_untouched _ _ _ _ _ _ _ (Hp p) Hi); auto; unfold owner, starting, pc_of; cbn [lk_pc at_pc]; rewrite Epc;
          destruct (load q (sc_configs s)); destruct (String.eqb q p); reflexivity.
      + destruct Fl as [F1 [F2 F3]]. split; [ | split ]; cbn [lk_results lk_known lk_pc at_pc]; auto.
        destruct (load q (sc_configs s)) as [c|] eqn:E; [ | exact I ]. eapply phase_conf; [ apply Hp | exact E ].
    - (* AtLoadOrStore *)
      unfold load_or_store in Hs. destruct (load q (sc_locks s)) as [k|] eqn:E; injection Hs as <- <-.
      + split.
        * intro p. apply (phase_untouched _ _ _ _ _ _ _ (Hp p) Hi); auto; unfold owner, starting, pc_of; cbn [lk_pc at_pc]; rewrite Epc;
            destruct (String.eqb q p); reflexivity.
        * destruct Fl as [F1 [F2 F3]]. split; [ | split ]; cbn [lk_results lk_known lk_pc at_pc sc_locks]; auto. congruence.
      + split; [ | destruct Fl as [F1 [F2 F3]]; split; [ | split ]; cbn [lk_results lk_known lk_pc at_pc]; auto ].
        intro p. destruct (string_dec q p) as [->|N].
        * pose proof (Hp p) as H.
          pose proof (count_set (owner p) ts i (at_pc l (AtNew p)) l Hi) as Co.
          pose proof (count_set (starting p) ts i (at_pc l (AtNew p)) l Hi) as Cs.
          pose proof (starting_owner ts p) as So.
          unfold owner at 2 4 in Co. unfold starting at 2 4 in Cs. unfold pc_of in Co, Cs. cbn [at_pc lk_pc] in Co, Cs.
          rewrite Epc, String.eqb_refl in Co, Cs.
          unfold phase in *. cbn [sc_locks sc_configs sc_news]. rewrite ld_same.
          phases H; try congruence. right. left. repeat split; auto; lia.
        * apply (phase_untouched _ _ _ _ _ _ _ (Hp p) Hi); cbn [sc_locks sc_configs sc_news]; auto;
            [ | | apply ld_other; exact N ]; unfold owner, starting, pc_of; cbn [lk_pc at_pc]; rewrite Epc;
            destruct (String.eqb_spec q p); try contradiction; reflexivity.
    - (* AtRLock *)
      destruct (load q (sc_locks s)) as [[|n]|] eqn:E; try discriminate. injection Hs as <- <-. split.
      + intro p. destruct (string_dec q p) as [->|N].
        * pose proof (Hp p) as H.
          unfold phase in *. cbn [sc_locks sc_configs sc_news]. rewrite ld_same.
          rewrite (count_other (owner p) ts i l); [ | exact Hi | unfold owner, pc_of; cbn [at_pc lk_pc]; rewrite Epc, String.eqb_refl; reflexivity ].
          phases H; try congruence. do 4 right. exists pc, (S n). auto.
        * apply (phase_untouched _ _ _ _ _ _ _ (Hp p) Hi); cbn [sc_locks sc_configs sc_news]; auto;
            [ | | apply ld_other; exact N ]; unfold owner, starting, pc_of; cbn [lk_pc at_pc]; rewrite Epc;
            destruct (String.eqb_spec q p); try contradiction; reflexivity.
      + destruct Fl as [F1 [F2 F3]]. split; [ | split ]; cbn [lk_results lk_known lk_pc at_pc sc_configs]; auto.
        pose proof (Hp q) as H. unfold phase in H. phases H; congruence.
    - (* AtReload *)
      injection Hs as <- <-. split.
      + intro p. apply (phase_untouched _ _ _ _ _ _ _ (Hp p) Hi); auto; unfold owner, starting, pc_of; cbn [lk_pc at_pc]; rewrite Epc;
          destruct (load q (sc_configs s)); destruct (String.eqb q p); reflexivity.
      + destruct Fl as [F1 [F2 F3]]. split; [ | split ]; cbn [lk_results lk_known lk_pc at_pc]; auto.
        rewrite Epc in F3. destruct (load q (sc_configs s)) as [c|] eqn:E; [ | contradiction ].
        eapply phase_conf; [ apply Hp | exact E ].
    - (* AtRUnlock *)
      injection Hs as <- <-. split.
      + intro p. destruct (string_dec q p) as [->|N].
        * pose proof (Hp p) as H. unfold phase in *. cbn [sc_locks sc_configs sc_news].
          assert (Co : owner p (at_pc l (AtReturn p (Some c))) = owner p l)
            by (unfold owner, pc_of; cbn [at_pc lk_pc]; rewrite Epc, String.eqb_refl; reflexivity).
          assert (Cs : starting p (at_pc l (AtReturn p (Some c))) = starting p l)
            by (unfold starting, pc_of; cbn [at_pc lk_pc]; rewrite Epc, String.eqb_refl; reflexivity).
          rewrite (count_other (owner p) ts i l) by auto. rewrite (count_other (starting p) ts i l) by auto.
          destruct (load p (sc_locks s)) as [[|[|n]]|] eqn:E; rewrite ?ld_same, ?E; try exact H.
          phases H; try congruence. do 4 right. exists pc, n. auto.
        * apply (phase_untouched _ _ _ _ _ _ _ (Hp p) Hi); cbn [sc_locks sc_configs sc_news]; auto.
          -- unfold owner, pc_of; cbn [lk_pc at_pc]; rewrite Epc; destruct (String.eqb q p); reflexivity.
          -- unfold starting, pc_of; cbn [lk_pc at_pc]; rewrite Epc; destruct (String.eqb q p); reflexivity.
          -- destruct (load q (sc_locks s)) as [[|[|n]]|]; try reflexivity. apply ld_other; exact N.
      + destruct Fl as [F1 [F2 F3]]. rewrite Epc in F3. split; [ | split ]; cbn [lk_results lk_known lk_pc at_pc sc_configs]; auto.
    - (* AtNew *)
      injection Hs as <- <-. set (r := new (length (sc_news s)) q) in *. split.
      + intro p. destruct (string_dec q p) as [->|N].
        * pose proof (Hp p) as H.
          set (l' := at_pc l (match r with Some c => AtStore p c | None => AtReturn p None end)).
          pose proof (count_set (owner p) ts i l' l Hi) as Co.
          pose proof (count_set (starting p) ts i l' l Hi) as Cs.
          pose proof (starting_owner ts p) as So.
          pose proof (count_pos (starting p) ts i l Hi) as Ps.
          assert (O1 : owner p l = true) by (unfold owner, pc_of; rewrite Epc, String.eqb_refl; reflexivity).
          assert (S1 : starting p l = true) by (unfold starting, pc_of; rewrite Epc, String.eqb_refl; reflexivity).
          assert (S2 : starting p l' = false) by (unfold starting, pc_of, l'; cbn [at_pc lk_pc]; destruct r; rewrite String.eqb_refl; reflexivity).
          assert (O2 : owner p l' = if r then true else false) by (unfold owner, pc_of, l'; cbn [at_pc lk_pc]; destruct r; rewrite String.eqb_refl; reflexivity).
          rewrite O1, O2 in Co. rewrite S1, S2 in Cs. specialize (Ps S1).
          unfold phase in *. cbn [sc_locks sc_configs sc_news for_name]. rewrite String.eqb_refl.
          phases H; try lia.
          rewrite P4. destruct r as [c|].
          -- right. right. left. exists c. repeat split; auto; lia.
          -- do 3 right. left. repeat split; auto; lia.
        * apply (phase_untouched _ _ _ _ _ _ _ (Hp p) Hi); cbn [sc_locks sc_configs sc_news for_name]; auto.
          -- unfold owner, pc_of; cbn [lk_pc at_pc]; rewrite Epc; destruct r; destruct (String.eqb_spec q p); try contradiction; reflexivity.
          -- unfold starting, pc_of; cbn [lk_pc at_pc]; rewrite Epc; destruct r; destruct (String.eqb_spec q p); try contradiction; reflexivity.
          -- destruct (String.eqb_spec q p); [ contradiction | reflexivity ].
      + destruct Fl' as [F1 [F2 F3]]. split; [ | split ]; cbn [lk_results lk_known lk_pc at_pc]; auto.
        destruct r; cbn; left; reflexivity.
    - (* AtStore *)
      injection Hs as <- <-. split.
      + intro p. destruct (string_dec q p) as [->|N].
        * pose proof (Hp p) as H.
          assert (O1 : owner p l = true) by (unfold owner, pc_of; rewrite Epc, String.eqb_refl; reflexivity).
          assert (S1 : starting p l = false) by (unfold starting, pc_of; rewrite Epc, String.eqb_refl; reflexivity).
          pose proof (count_pos (owner p) ts i l Hi O1) as Po.
          pose proof (count_set (owner p) ts i (at_pc l (AtUnlock p c)) l Hi) as Co. rewrite O1 in Co.
          assert (O2 : owner p (at_pc l (AtUnlock p c)) = true) by (unfold owner, pc_of; cbn [at_pc lk_pc]; rewrite String.eqb_refl; reflexivity).
          assert (S2 : starting p (at_pc l (AtUnlock p c)) = starting p l) by (rewrite S1; unfold starting, pc_of; cbn [at_pc lk_pc]; rewrite String.eqb_refl; reflexivity).
          rewrite O2 in Co.
          destruct Fl as [F1 [F2 F3]]. rewrite Epc in F3. unfold holds in F3. rewrite <- for_name_in in F3.
          unfold phase in *. cbn [sc_locks sc_configs sc_news]. rewrite ld_same. rewrite (count_other (starting p) ts i l) by auto.
          phases H; try lia.
          -- rewrite P4 in F3. contradiction.
          -- rewrite P4 in F3. destruct F3 as [F3|[]]. injection F3 as ->. right. right. left. exists c.
             split; [ exact P1 | ]. split; [ lia | ]. auto.
        * apply (phase_untouched _ _ _ _ _ _ _ (Hp p) Hi); cbn [sc_locks sc_configs sc_news]; auto;
            [ | | apply ld_other; exact N ]; unfold owner, starting, pc_of; cbn [lk_pc at_pc]; rewrite Epc;
            destruct (String.eqb_spec q p); try contradiction; reflexivity.
      + destruct Fl as [F1 [F2 F3]]. rewrite Epc in F3. split; [ | split ]; cbn [lk_results lk_known lk_pc at_pc sc_configs]; auto.
        split; [ exact F3 | ]. apply ld_same.
    - (* AtUnlock *)
      injection Hs as <- <-. split.
      + intro p. destruct (string_dec q p) as [->|N].
        * pose proof (Hp p) as H.
          assert (O1 : owner p l = true) by (unfold owner, pc_of; rewrite Epc, String.eqb_refl; reflexivity).
          pose proof (count_pos (owner p) ts i l Hi O1) as Po.
          pose proof (count_set (owner p) ts i (at_pc l (AtReturn p (Some c))) l Hi) as Co. rewrite O1 in Co.
          assert (O2 : owner p (at_pc l (AtReturn p (Some c))) = false) by (unfold owner, pc_of; cbn [at_pc lk_pc]; rewrite String.eqb_refl; reflexivity).
          rewrite O2 in Co.
          destruct Fl as [F1 [F2 F3]]. rewrite Epc in F3. destruct F3 as [F3 F4].
          unfold phase in *. cbn [sc_locks sc_configs sc_news]. rewrite ld_same.
          phases H; try lia; try congruence.
          do 4 right. exists pc, 0. split; [ reflexivity | ]. split; [ lia | ]. split; [ exact P4 | ]. destruct P5; congruence.
        * apply (phase_untouched _ _ _ _ _ _ _ (Hp p) Hi); cbn [sc_locks sc_configs sc_news]; auto;
            [ | | apply ld_other; exact N ]; unfold owner, starting, pc_of; cbn [lk_pc at_pc]; rewrite Epc;
            destruct (String.eqb_spec q p); try contradiction; reflexivity.
      + destruct Fl as [F1 [F2 F3]]. rewrite Epc in F3. destruct F3 as [F3 F4].
        split; [ | split ]; cbn [lk_results lk_known lk_pc at_pc]; auto.
    - (* AtReturn *)
      injection Hs as <- <-. split.
      + intro p. apply (phase_untouched _ _ _ _ _ _ _ (Hp p) Hi); auto; unfold owner, starting, pc_of; cbn [lk_pc]; rewrite Epc;
          destruct (String.eqb q p); reflexivity.
      + destruct Fl as [F1 [F2 F3]]. rewrite Epc in F3. split; [ | split ]; cbn [lk_results lk_known lk_pc]; auto.
        * intros p d [X|X]; [ injection X as <- <-; exact F3 | auto ].
        * intros p d. destruct r as [c|]; [ | auto ]. destruct (string_dec q p) as [->|N].
          -- rewrite ld_same. intro X. injection X as <-. exact F3.
          -- rewrite ld_other by exact N. auto.
  Qed.

  Lemma always_start : forall calls, always (map new_looker calls, new_shared).
  Proof.
    intro calls. split; cbn [fst snd].
    - intro p. left. cbn. repeat split; auto. induction calls; cbn; auto.
    - apply Forall_forall. intros l H. apply in_map_iff in H as [c [<- _]]. repeat split; cbn; try contradiction; discriminate.
  Qed.

  Lemma always_so : forall sched calls, always (turns step sched (map new_looker calls, new_shared)).
  Proof.
    intros sched calls. apply turns_invariant; [ | apply always_start ]. intros. eapply always_step; eassumption.
  Qed.
End ConfigRace.

(** *** Each file is loaded once *)

(** C47: for every number of goroutines, every list of calls each makes, every
    interleaving and every moment: config.New has been called at most once for
    each path, and all results for a path are what that call gave. *)
Theorem C47_loaded_once : forall C (new : nat -> string -> option C) calls sched ts s,
  turns (looker_step new) sched (map new_looker calls, new_shared) = (ts, s) ->
  (forall p, length (for_name p (sc_news s)) <= 1) /\
  (forall l p r, In l ts -> In (p, r) (lk_results l) -> for_name p (sc_news s) = [r]).
Proof.
  intros C new calls sched ts s E.
  pose proof (always_so new sched calls) as A. rewrite E in A. destruct A as [Hp Hf]. cbn [fst snd] in *.
  assert (H1 : forall p, exists d, for_name p (sc_news s) = [] \/ for_name p (sc_news s) = [d]).
  { intro p. destruct (Hp p) as [[_ [_ [X _]]]|[[_ [_ [_ [X _]]]]|[[c [_ [_ [_ [X _]]]]]|[[_ [_ [X _]]]|[c [n [_ [_ [X _]]]]]]]]]; rewrite X;
      try (exists None; left; reflexivity); eexists; right; reflexivity. }
  split.
  - intro p. destruct (H1 p) as [d [X|X]]; rewrite X; cbn; lia.
  - intros l p r Hl Hr. rewrite Forall_forall in Hf. destruct (Hf l Hl) as [F _]. specialize (F p r Hr).
    unfold holds in F. rewrite <- for_name_in in F.
    destruct (H1 p) as [d [X|X]]; rewrite X in F |- *; cbn in F; [ contradiction | ]. destruct F as [->|[]]. reflexivity.
Qed.
Print Assumptions C47_loaded_once.

(** *** Who completes *)

Definition finished {C} (l : looker C) : Prop := lk_calls l = [] /\ lk_pc l = AtStart.

Section Progress.
  Context {C : Type}.
  Variable new : nat -> string -> option C.
  Notation looker := (looker C).
  Notation shared_cache := (shared_cache C).
  Let step := looker_step new.

  (** Loading this path never panics. *)
  Definition good (p : string) : Prop := forall n, new n p <> None.

  Definition current (l : looker) : list string :=
    match lk_pc l with
    | AtStart => []
    | AtLoad q | AtLoadOrStore q | AtRLock q | AtReload q | AtRUnlock q _
    | AtNew q | AtStore q _ | AtUnlock q _ | AtReturn q _ => [q]
    end.
  (** All the paths a goroutine was given, in order. *)
  Definition given (l : looker) : list string := rev (map fst (lk_results l)) ++ current l ++ map snd (lk_calls l).

  Lemma given_step : forall l s l' s', step l s = Some (l', s') -> given l' = given l.
  Proof.
    intros l s l' s' H. unfold step, looker_step in H. unfold given, current.
    destruct (lk_pc l) as [|q|q|q|q|q c|q|q c|q c|q r] eqn:Epc.
    - destruct (lk_calls l) as [|[fr q] r]; [ discriminate | ].
      destruct (load q _); injection H as <- <-; cbn [lk_calls lk_pc lk_results map rev fst snd app].
      + rewrite <- app_assoc. reflexivity.
      + reflexivity.
    - injection H as <- <-. cbn [at_pc lk_pc lk_calls lk_results]. destruct (load q _); reflexivity.
    - destruct (load_or_store q Locked (sc_locks s)) as [[x b] y]. injection H as <- <-. cbn [at_pc lk_pc lk_calls lk_results]. destruct b; reflexivity.
    - destruct (load q _) as [[|n]|]; try discriminate. injection H as <- <-. reflexivity.
    - injection H as <- <-. cbn [at_pc lk_pc lk_calls lk_results]. destruct (load q _); reflexivity.
    - injection H as <- <-. reflexivity.
    - injection H as <- <-. cbn [at_pc lk_pc lk_calls lk_results]. destruct (new _ _); reflexivity.
    - injection H as <- <-. reflexivity.
    - injection H as <- <-. reflexivity.
    - injection H as <- <-. cbn [lk_pc lk_calls lk_results map rev fst]. rewrite <- !app_assoc. reflexivity.
  Qed.

  Definition weight (l : looker) : nat :=
    8 * length (lk_calls l) +
    match lk_pc l with
    | AtStart => 0
    | AtReturn _ _ => 1
    | AtUnlock _ _ | AtRUnlock _ _ => 2
    | AtStore _ _ | AtReload _ => 3
    | AtNew _ | AtRLock _ => 4
    | AtLoadOrStore _ => 5
    | AtLoad _ => 6
    end.

  Lemma weight_step : forall l s l' s', step l s = Some (l', s') -> weight l' < weight l.
  Proof.
    intros l s l' s' H. unfold step, looker_step in H. unfold weight.
    destruct (lk_pc l) as [|q|q|q|q|q c|q|q c|q c|q r] eqn:Epc.
    - destruct (lk_calls l) as [|[fr q] r]; [ discriminate | ].
      destruct (load q _); injection H as <- <-; cbn [lk_calls lk_pc length]; lia.
    - injection H as <- <-. cbn [at_pc lk_pc lk_calls lk_results]. destruct (load q _); lia.
    - destruct (load_or_store q Locked (sc_locks s)) as [[x b] y]. injection H as <- <-. cbn [at_pc lk_pc lk_calls lk_results]. destruct b; lia.
    - destruct (load q _) as [[|n]|]; try discriminate. injection H as <- <-. cbn [at_pc lk_pc lk_calls]. lia.
    - injection H as <- <-. cbn [at_pc lk_pc lk_calls lk_results]. destruct (load q _); lia.
    - injection H as <- <-. cbn [at_pc lk_pc lk_calls]. lia.
    - injection H as <- <-. cbn [at_pc lk_pc lk_calls lk_results]. destruct (new _ _); lia.
    - injection H as <- <-. cbn [at_pc lk_pc lk_calls]. lia.
    - injection H as <- <-. cbn [at_pc lk_pc lk_calls]. lia.
    - injection H as <- <-. cbn [lk_pc lk_calls]. lia.
  Qed.

  Definition total (ts : list looker) : nat := fold_right (fun l n => weight l + n) 0 ts.

  Lemma total_set : forall ts i l l', nth_error ts i = Some l -> weight l' < weight l -> total (set_nth i l' ts) < total ts.
  Proof.
    unfold total. induction ts as [|t ts IH]; intros [|i] l l' H W; cbn [nth_error set_nth fold_right] in *; try discriminate.
    - injection H as ->. lia.
    - specialize (IH i l l' H W). lia.
  Qed.

  (** The calls of config.New gave what it gives. *)
  Definition honest (s : shared_cache) : Prop := Forall (fun e => exists n, snd e = new n (fst e)) (sc_news s).

  Lemma honest_step : forall l s l' s', honest s -> step l s = Some (l', s') -> honest s'.
  Proof.
    intros l s l' s' Hh H. unfold step, looker_step in H. unfold honest in *.
    destruct (lk_pc l) as [|q|q|q|q|q c|q|q c|q c|q r] eqn:Epc.
    - destruct (lk_calls l) as [|[fr q] r]; [ discriminate | ]. destruct (load q _); injection H as <- <-; exact Hh.
    - injection H as <- <-. exact Hh.
    - destruct (load_or_store q Locked (sc_locks s)) as [[x b] y]. injection H as <- <-. exact Hh.
    - destruct (load q _) as [[|n]|]; try discriminate. injection H as <- <-. exact Hh.
    - injection H as <- <-. exact Hh.
    - injection H as <- <-. exact Hh.
    - injection H as <- <-. cbn [sc_news]. constructor; [ | exact Hh ]. cbn. eexists. reflexivity.
    - injection H as <- <-. exact Hh.
    - injection H as <- <-. exact Hh.
    - injection H as <- <-. exact Hh.
  Qed.

  Definition sound (cfg : list looker * shared_cache) : Prop := always cfg /\ honest (snd cfg).

  Lemma sound_step : forall ts s i l l' s', sound (ts, s) -> nth_error ts i = Some l -> step l s = Some (l', s') ->
    sound (set_nth i l' ts, s').
  Proof.
    intros ts s i l l' s' [A H] Hi Hs. split; [ eapply always_step; eassumption | ]. eapply honest_step; eassumption.
  Qed.

  (** A goroutine that asks for good paths only can go on, or the one it waits
      for can. *)
  Lemma can_go_on : forall ts s i l, sound (ts, s) -> nth_error ts i = Some l -> Forall good (given l) -> ~ finished l ->
    exists j m m' s', nth_error ts j = Some m /\ step m s = Some (m', s').
  Proof.
    intros ts s i l [[Hp Hf] Hh] Hi Hg Hn. cbn [fst snd] in *.
    destruct (step l s) as [[l' s']|] eqn:Es; [ exists i, l, l', s'; auto | ].
    unfold step, looker_step in Es. destruct (lk_pc l) as [|q|q|q|q|q c|q|q c|q c|q r] eqn:Epc; try discriminate.
    - destruct (lk_calls l) as [|[fr q] r] eqn:Ec; [ | destruct (load q _); discriminate ].
      exfalso. apply Hn. split; assumption.
    - destruct (load_or_store q Locked (sc_locks s)) as [[x b] y]. discriminate.
    - destruct (load q (sc_locks s)) as [[|n]|] eqn:El; try discriminate.
      + assert (G : good q).
        { rewrite Forall_forall in Hg. apply Hg. unfold given, current. rewrite Epc. apply in_or_app. right. left. reflexivity. }
        assert (O : 1 <= count (owner q) ts).
        { pose proof (Hp q) as H. unfold phase in H. rewrite El in H.
          destruct H as [[P1 _]|[[P1 [P2 _]]|[[pc [P1 [P2 _]]]|[[P1 [P2 [P3 P4]]]|[pc [pn [P1 _]]]]]]]; try discriminate; try lia.
          exfalso. assert (X : In (q, None) (sc_news s)) by (rewrite <- for_name_in, P3; left; reflexivity).
          unfold honest in Hh. rewrite Forall_forall in Hh. destruct (Hh _ X) as [n Hx]. cbn in Hx. apply (G n). congruence. }
        apply count_ex in O as [j [m [Hj Om]]].
        assert (X : exists m' s', step m s = Some (m', s')).
        { unfold owner, pc_of in Om. unfold step, looker_step. destruct (lk_pc m); try discriminate Om; try (destruct (String.eqb _ _); discriminate Om).
          all: eexists; eexists; reflexivity. }
        destruct X as [m' [s' X]]. exists j, m, m', s'. auto.
      + exfalso. rewrite Forall_forall in Hf. destruct (Hf l) as [_ [_ F]]; [ eapply nth_error_In; exact Hi | ].
        rewrite Epc in F. contradiction.
  Qed.

  Lemma givens_set : forall ts i l l' s s', nth_error ts i = Some l -> step l s = Some (l', s') ->
    map given (set_nth i l' ts) = map given ts.
  Proof.
    intros ts i l l' s s' Hi Hs. apply given_step in Hs. revert i Hi.
    induction ts as [|t ts IH]; intros [|i] Hi; cbn [nth_error set_nth map] in *; try discriminate.
    - injection Hi as ->. rewrite Hs. reflexivity.
    - rewrite (IH _ Hi). reflexivity.
  Qed.

  Lemma good_finish : forall n ts s, total ts <= n -> sound (ts, s) ->
    exists sched ts' s', turns step sched (ts, s) = (ts', s') /\ sound (ts', s') /\ map given ts' = map given ts /\
      forall i l, nth_error ts' i = Some l -> Forall good (given l) -> finished l.
  Proof.
    induction n as [|n IH]; intros ts s Hn Hs.
    - exists [], ts, s. split; [ reflexivity | ]. split; [ exact Hs | ]. split; [ reflexivity | ].
      intros i l Hi Hg.
      assert (W : weight l = 0).
      { assert (X : weight l <= total ts).
        { clear - Hi. unfold total. revert i Hi. induction ts as [|t ts IH]; intros [|i] Hi; cbn [nth_error fold_right] in *; try discriminate.
          - injection Hi as ->. lia.
          - specialize (IH _ Hi). lia. }
        lia. }
      unfold weight in W. destruct (lk_calls l) as [|x r] eqn:Ec; cbn [length] in W; [ | lia ].
      destruct (lk_pc l) eqn:Epc; try lia. split; assumption.
    - assert (D : (exists j m m' s', nth_error ts j = Some m /\ step m s = Some (m', s')) \/
                  (forall j m, nth_error ts j = Some m -> step m s = None)).
      { clear. induction ts as [|t ts IH].
        - right. intros [|j] m H; discriminate.
        - destruct (step t s) as [[m' s']|] eqn:E; [ left; exists 0, t, m', s'; auto | ].
          destruct IH as [[j [m [m' [s' [A B]]]]]|IH]; [ left; exists (S j), m, m', s'; auto | ].
          right. intros [|j] m H; cbn in H; [ injection H as <-; exact E | eauto ]. }
      destruct D as [[j [m [m' [s' [A B]]]]]|D].
      + destruct (IH (set_nth j m' ts) s') as [sched [ts' [s'' [E [S' [G F]]]]]].
        { pose proof (total_set ts j m m' A (weight_step _ _ _ _ B)). lia. }
        { eapply sound_step; eassumption. }
        exists (j :: sched), ts', s''. split; [ | split; [ exact S' | split; [ | exact F ] ] ].
        * cbn [turns]. unfold turn at 1. cbn [fst snd]. rewrite A, B. exact E.
        * rewrite G. eapply givens_set; eassumption.
      + exists [], ts, s. split; [ reflexivity | ]. split; [ exact Hs | ]. split; [ reflexivity | ].
        intros i l Hi Hg.
        destruct (lk_calls l) as [|x r] eqn:Ec; [ destruct (lk_pc l) eqn:Epc | ].
        { split; assumption. }
        all: exfalso; destruct (can_go_on ts s i l Hs Hi Hg) as [j [m [m' [s' [A B]]]]];
          [ intros [X Y]; congruence | rewrite (D j m A) in B; discriminate ].
  Qed.
  (** Where nobody can go on, a goroutine that has not completed waits for a file
      whose loading has panicked. *)
  Lemma stuck_why : forall ts s i l, sound (ts, s) -> (forall j m, nth_error ts j = Some m -> step m s = None) ->
    nth_error ts i = Some l -> finished l \/ exists q, lk_pc l = AtRLock q /\ In (q, None) (sc_news s).
  Proof.
    intros ts s i l [[Hp Hf] Hh] D Hi. cbn [fst snd] in *.
    pose proof (D i l Hi) as Es. unfold step, looker_step in Es.
    destruct (lk_pc l) as [|q|q|q|q|q c|q|q c|q c|q r] eqn:Epc; try discriminate.
    - destruct (lk_calls l) as [|[fr q] r] eqn:Ec; [ | destruct (load q _); discriminate ]. left. split; assumption.
    - destruct (load_or_store q Locked (sc_locks s)) as [[x b] y]. discriminate.
    - destruct (load q (sc_locks s)) as [[|n]|] eqn:El; try discriminate.
      + right. exists q. split; [ reflexivity | ].
        assert (O : 1 <= count (owner q) ts \/ In (q, None) (sc_news s)).
        { pose proof (Hp q) as H. unfold phase in H. rewrite El in H.
          destruct H as [[P1 _]|[[P1 [P2 _]]|[[pc [P1 [P2 _]]]|[[P1 [P2 [P3 P4]]]|[pc [pn [P1 _]]]]]]]; try discriminate; try (left; lia).
          right. rewrite <- for_name_in, P3. left. reflexivity. }
        destruct O as [O|O]; [ | exact O ]. exfalso.
        apply count_ex in O as [j [m [Hj Om]]]. specialize (D j m Hj).
        unfold owner, pc_of in Om. unfold step, looker_step in D.
        destruct (lk_pc m); try discriminate Om; try (destruct (String.eqb _ _); discriminate Om); discriminate D.
      + exfalso. rewrite Forall_forall in Hf. destruct (Hf l) as [_ [_ F]]; [ eapply nth_error_In; exact Hi | ].
        rewrite Epc in F. contradiction.
  Qed.

  (** Whatever has happened, the goroutines can go on until nobody can. *)
  Lemma all_stop : forall n ts s, total ts <= n -> sound (ts, s) ->
    exists sched ts' s', turns step sched (ts, s) = (ts', s') /\ sound (ts', s') /\ map given ts' = map given ts /\
      forall j m, nth_error ts' j = Some m -> step m s' = None.
  Proof.
    induction n as [|n IH]; intros ts s Hn Hs;
      (assert (D : (exists j m m' s', nth_error ts j = Some m /\ step m s = Some (m', s')) \/
                  (forall j m, nth_error ts j = Some m -> step m s = None));
       [ clear; induction ts as [|t ts IH];
         [ right; intros [|j] m H; discriminate
         | destruct (step t s) as [[m' s']|] eqn:E; [ left; exists 0, t, m', s'; auto | ];
           destruct IH as [[j [m [m' [s' [A B]]]]]|IH]; [ left; exists (S j), m, m', s'; auto | ];
           right; intros [|j] m H; cbn in H; [ injection H as <-; exact E | eauto ] ]
       | destruct D as [[j [m [m' [s' [A B]]]]]|D]; [ | exists [], ts, s; auto ] ]).
    - exfalso. pose proof (total_set ts j m m' A (weight_step _ _ _ _ B)). lia.
    - destruct (IH (set_nth j m' ts) s') as [sched [ts' [s'' [E [S' [G F]]]]]].
      { pose proof (total_set ts j m m' A (weight_step _ _ _ _ B)). lia. }
      { eapply sound_step; eassumption. }
      exists (j :: sched), ts', s''. split; [ | split; [ exact S' | split; [ | exact F ] ] ].
      + cbn [turns]. unfold turn at 1. cbn [fst snd]. rewrite A, B. exact E.
      + rewrite G. eapply givens_set; eassumption.
  Qed.
End Progress.

(** C48, partial: whatever has happened, also when loads have panicked, every
    goroutine that asks only for files whose loading never panics can still
    complete, with one configuration for each of its calls.  Missing: those
    that ask for a file whose loading has panicked, where it is false
    (C48_refuted). *)
Theorem C48_others_complete_partial : forall C (new : nat -> string -> option C) calls sched,
  exists sched', forall i cs, nth_error calls i = Some cs ->
    Forall (fun q => forall n, new n (snd q) <> None) cs ->
    exists l, nth_error (fst (turns (looker_step new) (sched ++ sched') (map new_looker calls, new_shared))) i = Some l /\
      finished l /\ rev (map fst (lk_results l)) = map snd cs /\ forall p r, In (p, r) (lk_results l) -> r <> None.
Proof.
  intros C new calls sched.
  destruct (turns (looker_step new) sched (map new_looker calls, new_shared)) as [ts s] eqn:E.
  assert (S0 : sound new (ts, s) /\ map given ts = map (map snd) calls).
  { assert (X : sound new (turns (looker_step new) sched (map new_looker calls, new_shared)) /\
                map given (fst (turns (looker_step new) sched (map new_looker calls, new_shared))) = map (map snd) calls).
    { apply (turns_invariant (looker_step new) (fun c => sound new c /\ map given (fst c) = map (map snd) calls)).
      - intros us u i l l' u' [A B] Hi Hs. split; [ eapply sound_step; eassumption | ]. cbn [fst] in *.
        rewrite <- B. eapply givens_set; eassumption.
      - split; [ split; [ apply always_start | constructor ] | ]. cbn [fst].
        rewrite map_map. apply map_ext. reflexivity. }
    rewrite E in X. exact X. }
  destruct S0 as [S0 G0].
  destruct (good_finish new (total ts) ts s (Nat.le_refl _) S0) as [sched' [ts' [s' [E' [S' [G' F]]]]]].
  exists sched'. rewrite turns_app, E, E'. cbn [fst]. intros i cs Hi Hg.
  assert (X : nth_error (map given ts') i = Some (map snd cs)).
  { rewrite G', G0. apply map_nth_error. exact Hi. }
  destruct (nth_error ts' i) as [l|] eqn:El.
  2: { apply nth_error_None in El. assert (Y : nth_error (map given ts') i = None) by (apply nth_error_None; rewrite map_length; exact El). congruence. }
  rewrite (map_nth_error given i ts' El) in X. injection X as X.
  assert (Hgood : Forall (good new) (given l)) by (rewrite X; apply Forall_map; exact Hg).
  pose proof (F i l El Hgood) as Fi.
  exists l. split; [ reflexivity | ]. split; [ exact Fi | ]. destruct Fi as [F1 F2]. split.
  - rewrite <- X. unfold given, current. rewrite F1, F2. cbn. rewrite app_nil_r. reflexivity.
  - intros p r Hr ->. destruct S' as [[_ Hf] Hh]. cbn [fst snd] in *. rewrite Forall_forall in Hf.
    destruct (Hf l) as [R _]; [ eapply nth_error_In; exact El | ]. specialize (R p None Hr). unfold holds in R.
    unfold honest in Hh. rewrite Forall_forall in Hh. destruct (Hh _ R) as [n Hx]. cbn in Hx.
    rewrite Forall_forall in Hgood. apply (Hgood p) with (n := n); [ | congruence ].
    unfold given. apply in_or_app. left. apply -> in_rev. apply in_map_iff. exists (p, None). auto.
Qed.
Print Assumptions C48_others_complete_partial.

(** C47: when no load panics, every goroutine can complete at any moment: nobody
    waits for ever. *)
Theorem C47_all_complete : forall C (new : nat -> string -> option C) calls sched,
  (forall n p, new n p <> None) ->
  exists sched', forall i cs, nth_error calls i = Some cs ->
    exists l, nth_error (fst (turns (looker_step new) (sched ++ sched') (map new_looker calls, new_shared))) i = Some l /\
      finished l /\ rev (map fst (lk_results l)) = map snd cs /\ forall p r, In (p, r) (lk_results l) -> r <> None.
Proof.
  intros C new calls sched H. destruct (C48_others_complete_partial C new calls sched) as [sched' F].
  exists sched'. intros i cs Hi. apply F; [ exact Hi | ]. apply Forall_forall. intros q _ n. apply H.
Qed.
Print Assumptions C47_all_complete.

(** *** A load that panics *)

(** After a load has panicked, a goroutine that has yet to ask for that file
    waits for ever: whatever the schedule, it makes no further result. *)
Theorem C48_waits_for_ever : forall C (new : nat -> string -> option C) calls sched ts s i l p rest,
  turns (looker_step new) sched (map new_looker calls, new_shared) = (ts, s) ->
  In (p, None) (sc_news s) ->
  nth_error ts i = Some l -> lk_pc l = AtStart -> lk_calls l = (true, p) :: rest ->
  forall sched', exists l', nth_error (fst (turns (looker_step new) sched' (ts, s))) i = Some l' /\
    lk_results l' = lk_results l /\ ~ finished l'.
Proof.
  intros C new calls sched ts s i l p rest E Hp Hi Hpc Hc sched'.
  pose proof (always_so new sched calls) as A. rewrite E in A.
  set (waiting := fun m : looker C => lk_results m = lk_results l /\
    ((lk_pc m = AtStart /\ lk_calls m = (true, p) :: rest) \/ lk_pc m = AtLoad p \/ lk_pc m = AtLoadOrStore p \/ lk_pc m = AtRLock p)).
  enough (X : let c := turns (looker_step new) sched' (ts, s) in
              always c /\ In (p, None) (sc_news (snd c)) /\ exists m, nth_error (fst c) i = Some m /\ waiting m).
  { destruct X as [_ [_ [m [Hm [W1 W2]]]]]. exists m. split; [ exact Hm | ]. split; [ exact W1 | ].
    intros [F1 F2]. destruct W2 as [[_ W]|[W|[W|W]]]; congruence. }
  apply (turns_invariant (looker_step new) (fun c => always c /\ In (p, None) (sc_news (snd c)) /\
           exists m, nth_error (fst c) i = Some m /\ waiting m)).
  - clear. intros ts s j t t' s' [A [N [m [Hm [W1 W2]]]]] Hj Hs. cbn [fst snd] in *.
    split; [ eapply always_step; eassumption | ].
    split; [ destruct (step_grows new _ _ _ _ _ _ A Hj Hs) as [G _]; apply G; exact N | ].
    destruct (Nat.eq_dec j i) as [->|Nj]; [ | exists m; rewrite set_nth_other by exact Nj; split; [ exact Hm | split; assumption ] ].
    rewrite Hj in Hm. injection Hm as <-. exists t'. split; [ apply (set_nth_same _ _ _ _ Hj) | ].
    destruct A as [Hp _]. specialize (Hp p). cbn [fst snd] in Hp.
    assert (L : load p (sc_locks s) = Some Locked /\ load p (sc_configs s) = None).
    { rewrite <- for_name_in in N. unfold phase in Hp.
      destruct Hp as [[_ [_ [X _]]]|[[_ [_ [_ [X _]]]]|[[c [_ [_ [_ [X _]]]]]|[[X1 [_ [X X4]]]|[c [n [_ [_ [X _]]]]]]]]]; rewrite X in N; cbn in N;
        try contradiction; destruct N as [N|[]]; try discriminate. auto. }
    destruct L as [L1 L2]. unfold looker_step in Hs.
    destruct W2 as [[W Wc]|[W|[W|W]]]; rewrite W in Hs.
    + rewrite Wc in Hs. cbn [load aget] in Hs. injection Hs as <- <-. split; [ exact W1 | ]. right. left. reflexivity.
    + rewrite L2 in Hs. injection Hs as <- <-. split; [ exact W1 | ]. right. right. left. reflexivity.
    + unfold load_or_store in Hs. rewrite L1 in Hs. injection Hs as <- <-. split; [ exact W1 | ]. right. right. right. reflexivity.
    + rewrite L1 in Hs. discriminate.
  - split; [ exact A | ]. split; [ exact Hp | ]. exists l. split; [ exact Hi | ]. split; [ reflexivity | ]. left. auto.
Qed.
Print Assumptions C48_waits_for_ever.

(** C48, exactly: whatever has happened, the goroutines can go on until every one of
    them has completed all of its calls or waits, with the calls before completed,
    for a file whose loading has panicked; and then nothing that can happen changes
    that any more. *)
Theorem C48_exactly : forall C (new : nat -> string -> option C) calls sched,
  exists sched', forall sched'', let c := turns (looker_step new) (sched ++ sched' ++ sched'') (map new_looker calls, new_shared) in
    forall i cs, nth_error calls i = Some cs ->
    exists l, nth_error (fst c) i = Some l /\
      (finished l /\ rev (map fst (lk_results l)) = map snd cs \/
       ~ finished l /\ exists before p after, map snd cs = before ++ p :: after /\ rev (map fst (lk_results l)) = before /\
         In (p, None) (sc_news (snd c))).
Proof.
  intros C new calls sched.
  destruct (turns (looker_step new) sched (map new_looker calls, new_shared)) as [ts s] eqn:E.
  assert (S0 : sound new (ts, s) /\ map given ts = map (map snd) calls).
  { assert (X : sound new (turns (looker_step new) sched (map new_looker calls, new_shared)) /\
                map given (fst (turns (looker_step new) sched (map new_looker calls, new_shared))) = map (map snd) calls).
    { apply (turns_invariant (looker_step new) (fun c => sound new c /\ map given (fst c) = map (map snd) calls)).
      - intros us u i l l' u' [A B] Hi Hs. split; [ eapply sound_step; eassumption | ]. cbn [fst] in *.
        rewrite <- B. eapply givens_set; eassumption.
      - split; [ split; [ apply always_start | constructor ] | ]. cbn [fst].
        rewrite map_map. apply map_ext. reflexivity. }
    rewrite E in X. exact X. }
  destruct S0 as [S0 G0].
  destruct (all_stop new (total ts) ts s (Nat.le_refl _) S0) as [sched' [ts' [s' [E' [S' [G' D]]]]]].
  exists sched'. intro sched''. cbv zeta. rewrite turns_app, E, turns_app, E'.
  assert (Q : turns (looker_step new) sched'' (ts', s') = (ts', s')).
  { clear - D. induction sched'' as [|j r IH]; [ reflexivity | ]. cbn [turns]. unfold turn at 1. cbn [fst snd].
    destruct (nth_error ts' j) as [m|] eqn:Ej; [ rewrite (D j m Ej) | ]; exact IH. }
  rewrite Q. cbn [fst snd]. intros i cs Hi.
  assert (X : nth_error (map given ts') i = Some (map snd cs)).
  { rewrite G', G0. apply map_nth_error. exact Hi. }
  destruct (nth_error ts' i) as [l|] eqn:El.
  2: { apply nth_error_None in El. assert (Y : nth_error (map given ts') i = None) by (apply nth_error_None; rewrite map_length; exact El). congruence. }
  rewrite (map_nth_error given i ts' El) in X. injection X as X.
  exists l. split; [ reflexivity | ].
  destruct (stuck_why new ts' s' i l S' D El) as [F|(q & Pq & Nq)].
  - left. split; [ exact F | ]. destruct F as [F1 F2]. rewrite <- X. unfold given, current. rewrite F1, F2. cbn. rewrite app_nil_r. reflexivity.
  - right. split; [ intros [_ F2]; congruence | ].
    exists (rev (map fst (lk_results l))), q, (map snd (lk_calls l)). split; [ | split; [ reflexivity | exact Nq ] ].
    rewrite <- X. unfold given, current. rewrite Pq. reflexivity.
Qed.
Print Assumptions C48_exactly.

(** Of three goroutines the first finds the file broken and goes on to another one,
    the second waits for the broken one for ever, the third completes. *)
Example C48_exactly_ex : exists sched,
  let c := turns (looker_step (fun n p => if String.eqb p "bad.yaml" then None else Some n)) sched
             (map new_looker [[(true, "bad.yaml"); (true, "hiera.yaml")]; [(true, "hiera.yaml"); (true, "bad.yaml"); (true, "hiera.yaml")]; [(true, "hiera.yaml")]],
              new_shared) in
  map (fun l => rev (map fst (lk_results l))) (fst c) = [["bad.yaml"; "hiera.yaml"]; ["hiera.yaml"]; ["hiera.yaml"]] /\
  In ("bad.yaml", None) (sc_news (snd c)) /\
  (forall j m, nth_error (fst c) j = Some m -> looker_step (fun n p => if String.eqb p "bad.yaml" then None else Some n) m (snd c) = None).
Proof.
  exists (repeat 0 20 ++ repeat 1 20 ++ repeat 2 20). vm_compute. split; [ reflexivity | ]. split; [ tauto | ].
  intros [|[|[|[|j]]]] m H; try discriminate H; injection H as <-; reflexivity.
Qed.

(** The full claim: every goroutine can complete whatever has happened. *)
Definition C48_claim : Prop := forall C (new : nat -> string -> option C) calls sched,
  exists sched', Forall finished (fst (turns (looker_step new) (sched ++ sched') (map new_looker calls, new_shared))).

(** C48 is refuted: the first load of the file panics, the panic is recovered,
    and the next lookup, by the same goroutine or another, never completes,
    although the file could be loaded by now. *)
Theorem C48_refuted : exists (new : nat -> string -> option nat) calls sched,
  new 0 "hiera.yaml" = None /\ (forall n, new (S n) "hiera.yaml" <> None) /\
  forall sched', ~ Forall finished (fst (turns (looker_step new) (sched ++ sched') (map new_looker calls, new_shared))).
Proof.
  exists (fun n _ => match n with 0 => None | S n => Some n end),
    [[(true, "hiera.yaml")]; [(true, "hiera.yaml")]], [0; 0; 0; 0; 0].
  split; [ reflexivity | ]. split; [ discriminate | ].
  intros sched' H. rewrite turns_app in H.
  destruct (turns (looker_step (fun n _ => match n with 0 => None | S n0 => Some n0 end)) [0; 0; 0; 0; 0]
             (map new_looker [[(true, "hiera.yaml")]; [(true, "hiera.yaml")]], new_shared)) as [ts s] eqn:E.
  pose proof E as E'. vm_compute in E'.
  destruct (C48_waits_for_ever _ _ _ _ ts s 1 (new_looker [(true, "hiera.yaml")]) "hiera.yaml" [] E) with (sched' := sched') as [l [Hl [_ N]]].
  - injection E' as _ <-. left. reflexivity.
  - injection E' as <- _. reflexivity.
  - reflexivity.
  - reflexivity.
  - apply N. rewrite Forall_forall in H. apply H. eapply nth_error_In. exact Hl.
Qed.
Print Assumptions C48_refuted.

(** Three goroutines, two files: the second one waits for the load of the first.
    The file would give something else at every load. *)
Definition ex_new (n : nat) (p : string) : option (string * nat) := Some (p, n).
Definition ex_calls : list (list (bool * string)) :=
  [[(true, "a"); (false, "a")]; [(true, "a"); (true, "b")]; [(true, "b"); (false, "a")]].
Example C47_ex_waits :
  let '(ts, s) := turns (looker_step ex_new) [0; 1; 0; 1; 0; 1; 1; 1] (map new_looker ex_calls, new_shared) in
  option_map lk_pc (nth_error ts 1) = Some (AtRLock "a") /\ sc_news s = [].
Proof. split; reflexivity. Qed.
Example C47_ex_complete :
  let '(ts, s) := turns (looker_step ex_new)
    ([0; 1; 0; 1; 0; 1; 1; 1] ++ [0; 0; 0; 0; 0] ++ repeat 1 20 ++ repeat 2 20) (map new_looker ex_calls, new_shared) in
  map lk_results ts = [[("a", Some ("a", 0)); ("a", Some ("a", 0))]; [("b", Some ("b", 1)); ("a", Some ("a", 0))];
                       [("a", Some ("a", 0)); ("b", Some ("b", 1))]] /\
  sc_news s = [("b", Some ("b", 1)); ("a", Some ("a", 0))].
Proof. vm_compute. split; reflexivity. Qed.
(** The file [bad] panics; the one who asks for [a] gets it all the same. *)
Definition ex_bad (n : nat) (p : string) : option nat := if String.eqb p "bad" then None else Some n.
Example C48_ex_others :
  let '(ts, s) := turns (looker_step ex_bad) (repeat 0 9 ++ repeat 1 20 ++ repeat 2 20)
    (map new_looker [[(true, "bad")]; [(true, "bad"); (true, "a")]; [(true, "a")]], new_shared) in
  map lk_results ts = [[("bad", None)]; []; [("a", Some 1)]] /\ map lk_pc ts = [AtStart; AtRLock "bad"; AtStart].
Proof. vm_compute. split; reflexivity. Qed.
