(** Goroutines that use the same provider: C49. *)

From Coq Require Import String List Bool Arith Lia.
From Verif Require Import State Conc Cache Races P_Races.
Import ListNotations.
Open Scope string_scope.
Open Scope list_scope.
Open Scope nat_scope.

(** The data that calls for one location have returned. *)
Fixpoint returned {D} (k : string) (l : list (string * option D)) : list D :=
  match l with
  | [] => []
  | (q, Some d) :: r => if String.eqb q k then d :: returned k r else returned k r
  | (_, None) :: r => returned k r
  end.

Lemma returned_in {D} : forall k (l : list (string * option D)) d, In d (returned k l) <-> In (k, Some d) l.
Proof.
  intros k l d. induction l as [|[q [b|]] l IH]; cbn [returned In]; [ reflexivity | | rewrite IH; intuition congruence ].
  destruct (String.eqb_spec q k) as [->|N]; cbn [In]; rewrite IH; intuition congruence.
Qed.

(** Holding the lock for reading; holding it for writing (so in the update); and
    reading or changing the data. *)
Definition reads {D} (a : asker D) : bool := match ak_pc a with HGet _ | HRUnlock _ _ => true | _ => false end.
Definition in_update {D} (a : asker D) : bool :=
  match ak_pc a with HGet2 _ | HCall _ | HPut _ _ | HUnlock _ _ => true | _ => false end.

Section HashRace.
  Context {D : Type}.
  Variable call : nat -> string -> option D.
  Notation asker := (asker D).
  Notation provider_state := (provider_state D).
  Let step := asker_step call.

  Definition calling (k : string) (a : asker) : bool := match ak_pc a with HCall q => String.eqb q k | _ => false end.
  Definition putting (k : string) (a : asker) : bool := match ak_pc a with HPut q _ => String.eqb q k | _ => false end.

  Definition lock_right (ts : list asker) (s : provider_state) : Prop :=
    match pv_lock s with
    | Writing => count in_update ts = 1 /\ count reads ts = 0
    | Reading n => count in_update ts = 0 /\ count reads ts = n
    end.

  Definition stage (ts : list asker) (s : provider_state) (k : string) : Prop :=
    (load k (pv_hashes s) = None /\ returned k (pv_calls s) = [] /\ count (putting k) ts = 0) \/
    (exists d, load k (pv_hashes s) = Some d /\ returned k (pv_calls s) = [d] /\ count (putting k) ts = 0 /\ count (calling k) ts = 0) \/
    (exists d, load k (pv_hashes s) = None /\ returned k (pv_calls s) = [d] /\ count (putting k) ts = 1 /\ count (calling k) ts = 0).

  Definition has (s : provider_state) (k : string) (d : D) : Prop := In (k, Some d) (pv_calls s).
  Definition right (s : provider_state) (a : asker) : Prop :=
    (forall k d, In (k, Some d) (ak_results a) -> has s k d) /\
    match ak_pc a with
    | HRUnlock k (Some d) | HUnlock k (Some d) | HPut k d => has s k d
    | _ => True
    end.

  Definition steady (c : list asker * provider_state) : Prop :=
    lock_right (fst c) (snd c) /\ (forall k, stage (fst c) (snd c) k) /\ Forall (right (snd c)) (fst c).

  Lemma stage_has : forall ts s k d, stage ts s k -> load k (pv_hashes s) = Some d -> has s k d.
  Proof.
    intros ts s k d H E. unfold has. rewrite <- returned_in.
    destruct H as [[X _]|[[e [X [Y _]]]|[e [X _]]]]; try congruence. rewrite Y. rewrite E in X. injection X as <-. left. reflexivity.
  Qed.

  Lemma right_more : forall s s' a, incl (pv_calls s) (pv_calls s') -> right s a -> right s' a.
  Proof.
    intros s s' a H [R1 R2]. unfold right, has in *. split; [ eauto | ]. destruct (ak_pc a) as [| | |k [d|]| | | | |k [d|]]; auto.
  Qed.

  Lemma cset : forall (f : asker -> bool) ts i l l' x y, nth_error ts i = Some l -> f l = x -> f l' = y ->
    count f (set_nth i l' ts) + (if x then 1 else 0) = count f ts + (if y then 1 else 0).
  Proof. intros f ts i l l' x y H <- <-. apply count_set. exact H. Qed.

  Lemma csame : forall (f : asker -> bool) ts i l l', nth_error ts i = Some l -> f l' = f l ->
    count f (set_nth i l' ts) = count f ts.
  Proof. intros f ts i l l' H E. pose proof (count_set f ts i l' l H) as X. rewrite E in X. destruct (f l); lia. Qed.

  Lemma put_update : forall ts k, count (putting k) ts <= count in_update ts.
  Proof. intros. apply count_le. intros t. unfold putting, in_update. destruct (ak_pc t); congruence. Qed.

  (** A step that leaves the data and the calls alone, and is not one of those
      that call or put. *)
  Lemma stage_kept : forall ts s i l l' s' k, stage ts s k -> nth_error ts i = Some l ->
    putting k l' = putting k l -> calling k l' = calling k l -> pv_hashes s' = pv_hashes s -> pv_calls s' = pv_calls s ->
    stage (set_nth i l' ts) s' k.
  Proof.
    intros ts s i l l' s' k H Hi P Q A B. unfold stage in *.
    rewrite (csame (putting k) ts i l l' Hi P), (csame (calling k) ts i l l' Hi Q), A, B. exact H.
  Qed.

  Lemma steady_step : forall ts s i l l' s', steady (ts, s) -> nth_error ts i = Some l -> step l s = Some (l', s') ->
    steady (set_nth i l' ts, s').
  Proof.
    intros ts s i l l' s' [Hl [Hg Hr]] Hi Hs. cbn [fst snd] in *.
    assert (Rl : right s l) by (rewrite Forall_forall in Hr; apply Hr; eapply nth_error_In; exact Hi).
    enough (X : lock_right (set_nth i l' ts) s' /\ (forall k, stage (set_nth i l' ts) s' k) /\ right s' l' /\ incl (pv_calls s) (pv_calls s')).
    { destruct X as [X1 [X2 [X3 X4]]]. split; [ exact X1 | ]. split; [ exact X2 | ]. cbn [fst snd].
      assert (Hr' : Forall (right s') ts) by (eapply Forall_impl; [ intros a; apply right_more; exact X4 | exact Hr ]).
      clear - Hr' X3. revert i. induction Hr' as [|x xs Hx Hxs IH]; intros [|i]; cbn; constructor; auto. }
    destruct Rl as [R1 R2]. unfold step, asker_step in Hs. unfold lock_right in *.
    destruct (ak_pc l) as [|q|q|q d|q|q|q|q d|q d] eqn:Epc.
    - (* HStart *)
      destruct (ak_keys l) as [|q r]; [ discriminate | ]. injection Hs as <- <-.
      split; [ | split; [ | split; [ | apply incl_refl ] ] ].
      + rewrite (csame in_update ts i l); [ | exact Hi | unfold in_update; rewrite Epc; reflexivity ].
        rewrite (csame reads ts i l); [ exact Hl | exact Hi | unfold reads; rewrite Epc; reflexivity ].
      + intro k. apply (stage_kept _ _ _ _ _ _ _ (Hg k) Hi); try reflexivity; unfold putting, calling; rewrite Epc; reflexivity.
      + split; [ exact R1 | exact I ].
    - (* HRLock *)
      destruct (pv_lock s) as [|n] eqn:El; [ discriminate | ]. injection Hs as <- <-.
      split; [ | split; [ | split; [ | apply incl_refl ] ] ]; cbn [pv_lock pv_calls].
      + rewrite (csame in_update ts i l); [ | exact Hi | unfold in_update; rewrite Epc; reflexivity ].
        pose proof (cset reads ts i l (ask_pc l (HGet q)) false true Hi) as X.
        specialize (X ltac:(unfold reads; rewrite Epc; reflexivity) eq_refl). cbn iota in X. lia.
      + intro k. apply (stage_kept _ _ _ _ _ _ _ (Hg k) Hi); try reflexivity; unfold putting, calling; rewrite Epc; reflexivity.
      + split; [ exact R1 | exact I ].
    - (* HGet *)
      injection Hs as <- <-. split; [ | split; [ | split; [ | apply incl_refl ] ] ].
      + rewrite (csame in_update ts i l); [ | exact Hi | unfold in_update; rewrite Epc; reflexivity ].
        rewrite (csame reads ts i l); [ exact Hl | exact Hi | unfold reads; rewrite Epc; reflexivity ].
      + intro k. apply (stage_kept _ _ _ _ _ _ _ (Hg k) Hi); try reflexivity; unfold putting, calling; rewrite Epc; reflexivity.
      + split; [ exact R1 | ]. cbn [ask_pc ak_pc]. destruct (load q (pv_hashes s)) as [d|] eqn:E; [ | exact I ].
        eapply stage_has; [ apply Hg | exact E ].
    - (* HRUnlock *)
      assert (P1 : 1 <= count reads ts) by (eapply count_pos; [ exact Hi | unfold reads; rewrite Epc; reflexivity ]).
      destruct (pv_lock s) as [|n] eqn:El; [ lia | ]. destruct Hl as [L1 L2]. destruct n as [|n]; [ lia | ].
      assert (C1 : forall m, ak_pc m = HStart \/ ak_pc m = HLock q -> count in_update (set_nth i m ts) = 0 /\ count reads (set_nth i m ts) = n).
      { intros m Hm.
        assert (M : in_update m = false /\ reads m = false) by (unfold in_update, reads; destruct Hm as [-> | ->]; auto).
        pose proof (cset reads ts i l m true false Hi ltac:(unfold reads; rewrite Epc; reflexivity) (proj2 M)) as X. cbn iota in X.
        rewrite (csame in_update ts i l); [ lia | exact Hi | rewrite (proj1 M); unfold in_update; rewrite Epc; reflexivity ]. }
      destruct d as [d|]; injection Hs as <- <-; (split; [ cbn [pv_lock]; apply C1; auto | split; [ | split; [ | apply incl_refl ] ] ]).
      + intro k. apply (stage_kept _ _ _ _ _ _ _ (Hg k) Hi); try reflexivity; unfold putting, calling; rewrite Epc; reflexivity.
      + split; [ | exact I ]. cbn [ak_results]. intros k e [X|X]; [ injection X as <- <-; exact R2 | apply R1; exact X ].
      + intro k. apply (stage_kept _ _ _ _ _ _ _ (Hg k) Hi); try reflexivity; unfold putting, calling; rewrite Epc; reflexivity.
      + split; [ exact R1 | exact I ].
    - (* HLock *)
      destruct (pv_lock s) as [|[|n]] eqn:El; try discriminate. injection Hs as <- <-.
      split; [ | split; [ | split; [ | apply incl_refl ] ] ]; cbn [pv_lock pv_calls].
      + pose proof (cset in_update ts i l (ask_pc l (HGet2 q)) false true Hi ltac:(unfold in_update; rewrite Epc; reflexivity) eq_refl) as X. cbn iota in X.
        rewrite (csame reads ts i l); [ lia | exact Hi | unfold reads; rewrite Epc; reflexivity ].
      + intro k. apply (stage_kept _ _ _ _ _ _ _ (Hg k) Hi); try reflexivity; unfold putting, calling; rewrite Epc; reflexivity.
      + split; [ exact R1 | exact I ].
    - (* HGet2 *)
      assert (U1 : in_update l = true) by (unfold in_update; rewrite Epc; reflexivity).
      pose proof (count_pos in_update ts i l Hi U1) as P1.
      destruct (pv_lock s) as [|n] eqn:El; [ | lia ].
      injection Hs as <- <-. rewrite El. split; [ | split; [ | split; [ | apply incl_refl ] ] ].
      + rewrite (csame in_update ts i l); [ | exact Hi | rewrite U1; unfold in_update; cbn [ask_pc ak_pc]; destruct (load _ _); reflexivity ].
        rewrite (csame reads ts i l); [ exact Hl | exact Hi | unfold reads; cbn [ask_pc ak_pc]; rewrite Epc; destruct (load _ _); reflexivity ].
      + intro k. set (l' := ask_pc l _).
        assert (Qp : putting k l' = putting k l) by (unfold putting, l'; cbn [ask_pc ak_pc]; rewrite Epc; destruct (load _ _); reflexivity).
        pose proof (count_le (putting k) in_update ts) as Lp.
        destruct (string_dec q k) as [->|N].
        * pose proof (Hg k) as H. unfold stage in *. rewrite (csame (putting k) ts i l l' Hi Qp).
          destruct H as [[A [B1 B2]]|[[d [A [B1 [B2 B3]]]]|[d [A [B1 [B2 B3]]]]]].
          -- left. auto.
          -- right. left. exists d. rewrite (csame (calling k) ts i l l' Hi); [ auto | ].
             unfold calling, l'. cbn [ask_pc ak_pc]. rewrite Epc, A. reflexivity.
          -- (* two in the update *)
             exfalso. assert (X : 1 <= count (putting k) ts) by lia. apply count_ex in X as [j [m [Hj Pm]]].
             assert (Um : in_update m = true) by (unfold putting, in_update in *; destruct (ak_pc m); congruence).
             assert (i = j). { eapply (count_one in_update ts); eauto. lia. } subst j.
             rewrite Hi in Hj. injection Hj as <-. unfold putting in Pm. rewrite Epc in Pm. discriminate.
        * apply (stage_kept _ _ _ _ _ _ _ (Hg k) Hi); auto.
          unfold calling, l'. cbn [ask_pc ak_pc]. rewrite Epc. destruct (load q (pv_hashes s)); [ reflexivity | ]. apply String.eqb_neq. exact N.
      + split; [ exact R1 | ]. cbn [ask_pc ak_pc]. destruct (load q (pv_hashes s)) as [d|] eqn:E; [ | exact I ].
        eapply stage_has; [ apply Hg | exact E ].
    - (* HCall *)
      assert (U1 : in_update l = true) by (unfold in_update; rewrite Epc; reflexivity).
      pose proof (count_pos in_update ts i l Hi U1) as P1.
      destruct (pv_lock s) as [|n] eqn:El; [ | lia ].
      set (r := call (length (pv_calls s)) q) in *. injection Hs as <- <-. cbn [pv_lock pv_calls].
      split; [ | split; [ | split ] ].
      + rewrite (csame in_update ts i l); [ | exact Hi | rewrite U1; unfold in_update; cbn [ask_pc ak_pc]; destruct r; reflexivity ].
        rewrite (csame reads ts i l); [ exact Hl | exact Hi | unfold reads; cbn [ask_pc ak_pc]; rewrite Epc; destruct r; reflexivity ].
      + intro k. set (l' := ask_pc l _). destruct (string_dec q k) as [->|N].
        * pose proof (Hg k) as H.
          assert (C1 : calling k l = true) by (unfold calling; rewrite Epc; apply String.eqb_refl).
          pose proof (count_pos (calling k) ts i l Hi C1) as P2.
          assert (X2 : count (calling k) ts <= 1).
          { transitivity (count in_update ts); [ apply count_le; intros t; unfold calling, in_update; destruct (ak_pc t); congruence | lia ]. }
          assert (Cz : calling k l' = false) by (unfold calling, l'; cbn [ask_pc ak_pc]; destruct r; reflexivity).
          pose proof (cset (calling k) ts i l l' true false Hi C1 Cz) as X3. cbn iota in X3.
          assert (Pz : putting k l' = if r then true else false) by (unfold putting, l'; cbn [ask_pc ak_pc]; destruct r; [ apply String.eqb_refl | reflexivity ]).
          pose proof (cset (putting k) ts i l l' false (if r then true else false) Hi ltac:(unfold putting; rewrite Epc; reflexivity) Pz) as X4. cbn iota in X4.
          unfold stage in *. cbn [pv_hashes pv_calls returned].
          destruct H as [[A [B1 B2]]|[[d [A [B1 [B2 B3]]]]|[d [A [B1 [B2 B3]]]]]]; try lia.
          destruct r as [d|].
          -- right. right. exists d. rewrite String.eqb_refl, B1. repeat split; auto; lia.
          -- left. rewrite B1. repeat split; auto; lia.
        * assert (Qc : calling k l' = calling k l).
          { unfold calling, l'. cbn [ask_pc ak_pc]. rewrite Epc. destruct (String.eqb_spec q k); [ contradiction | ]. destruct r; reflexivity. }
          assert (Qp : putting k l' = putting k l).
          { unfold putting, l'. cbn [ask_pc ak_pc]. rewrite Epc. destruct r; [ apply String.eqb_neq; exact N | reflexivity ]. }
          pose proof (Hg k) as H. unfold stage in *. cbn [pv_hashes pv_calls returned].
          rewrite (csame (putting k) ts i l l' Hi Qp), (csame (calling k) ts i l l' Hi Qc).
          destruct r as [d|]; [ | exact H ]. destruct (String.eqb_spec q k); [ contradiction | exact H ].
      + split; cbn [ask_pc ak_results ak_pc].
        * intros k d X. right. apply R1. exact X.
        * destruct r as [d|]; [ | exact I ]. left. reflexivity.
      + intros x X. right. exact X.
    - (* HPut *)
      assert (U1 : in_update l = true) by (unfold in_update; rewrite Epc; reflexivity).
      pose proof (count_pos in_update ts i l Hi U1) as P1.
      destruct (pv_lock s) as [|n] eqn:El; [ | lia ].
      injection Hs as <- <-. cbn [pv_lock pv_calls].
      split; [ | split; [ | split; [ | apply incl_refl ] ] ].
      + rewrite (csame in_update ts i l); [ | exact Hi | rewrite U1; reflexivity ].
        rewrite (csame reads ts i l); [ exact Hl | exact Hi | unfold reads; rewrite Epc; reflexivity ].
      + intro k. set (l' := ask_pc l _). destruct (string_dec q k) as [->|N].
        * pose proof (Hg k) as H.
          assert (C1 : putting k l = true) by (unfold putting; rewrite Epc; apply String.eqb_refl).
          pose proof (count_pos (putting k) ts i l Hi C1) as P2.
          pose proof (put_update ts k) as X2.
          pose proof (cset (putting k) ts i l l' true false Hi C1 eq_refl) as X3. cbn iota in X3.
          unfold has in R2. rewrite <- returned_in in R2.
          unfold stage in *. cbn [pv_hashes pv_calls]. rewrite ld_same.
          rewrite (csame (calling k) ts i l l' Hi) by (unfold calling; rewrite Epc; reflexivity).
          destruct H as [[A [B1 B2]]|[[e [A [B1 [B2 B3]]]]|[e [A [B1 [B2 B3]]]]]]; try lia.
          right. left. rewrite B1 in R2 |- *. destruct R2 as [->|[]]. exists d. repeat split; auto; lia.
        * pose proof (Hg k) as H. unfold stage in *. cbn [pv_hashes pv_calls]. rewrite ld_other by exact N.
          rewrite (csame (calling k) ts i l l' Hi) by (unfold calling; rewrite Epc; reflexivity).
          rewrite (csame (putting k) ts i l l' Hi) by (unfold putting; rewrite Epc; destruct (String.eqb_spec q k); [ contradiction | reflexivity ]).
          exact H.
      + split; [ exact R1 | ]. exact R2.
    - (* HUnlock *)
      assert (U1 : in_update l = true) by (unfold in_update; rewrite Epc; reflexivity).
      pose proof (count_pos in_update ts i l Hi U1) as P1.
      destruct (pv_lock s) as [|n] eqn:El; [ | lia ].
      injection Hs as <- <-. cbn [pv_lock pv_calls].
      split; [ | split; [ | split; [ | apply incl_refl ] ] ].
      + pose proof (cset in_update ts i l (mk_asker (ak_keys l) HStart ((q, d) :: ak_results l)) true false Hi U1 eq_refl) as X. cbn iota in X.
        rewrite (csame reads ts i l); [ lia | exact Hi | unfold reads; rewrite Epc; reflexivity ].
      + intro k. apply (stage_kept _ _ _ _ _ _ _ (Hg k) Hi); try reflexivity; unfold putting, calling; rewrite Epc; reflexivity.
      + split; [ | exact I ]. cbn [ak_results]. intros k e [X|X]; [ injection X as -> ->; exact R2 | apply R1; exact X ].
  Qed.

  Lemma steady_always : forall sched keys, steady (turns step sched (map new_asker keys, new_provider)).
  Proof.
    intros sched keys. apply turns_invariant; [ intros; eapply steady_step; eassumption | ].
    split; [ | split ]; cbn [fst snd].
    - unfold lock_right. cbn. split; induction keys; cbn; auto.
    - intro k. left. cbn. repeat split. induction keys; cbn; auto.
    - apply Forall_forall. intros a H. apply in_map_iff in H as [ks [<- _]]. split; cbn; [ contradiction | exact I ].
  Qed.

  (** *** Everybody can complete *)

  Definition done (a : asker) : Prop := ak_keys a = [] /\ ak_pc a = HStart.
  Definition load_of (a : asker) : nat :=
    9 * length (ak_keys a) +
    match ak_pc a with
    | HStart => 0 | HUnlock _ _ => 1 | HPut _ _ => 2 | HCall _ => 3 | HGet2 _ => 4 | HLock _ => 5
    | HRUnlock _ _ => 6 | HGet _ => 7 | HRLock _ => 8
    end.
  Lemma load_of_step : forall a s a' s', step a s = Some (a', s') -> load_of a' < load_of a.
  Proof.
    intros a s a' s' H. unfold step, asker_step in H. unfold load_of.
    destruct (ak_pc a) as [|q|q|q d|q|q|q|q d|q d].
    - destruct (ak_keys a); [ discriminate | ]. injection H as <- <-. cbn [ak_keys ak_pc length]. lia.
    - destruct (pv_lock s); [ discriminate | ]. injection H as <- <-. cbn [ask_pc ak_keys ak_pc]. lia.
    - injection H as <- <-. cbn [ask_pc ak_keys ak_pc]. lia.
    - destruct d; injection H as <- <-; cbn [ask_pc ak_keys ak_pc]; lia.
    - destruct (pv_lock s) as [|[|n]]; try discriminate. injection H as <- <-. cbn [ask_pc ak_keys ak_pc]. lia.
    - injection H as <- <-. cbn [ask_pc ak_keys ak_pc]. destruct (load _ _); lia.
    - injection H as <- <-. cbn [ask_pc ak_keys ak_pc]. destruct (call _ _); lia.
    - injection H as <- <-. cbn [ask_pc ak_keys ak_pc]. lia.
    - injection H as <- <-. cbn [ak_keys ak_pc]. lia.
  Qed.

  Definition sum (ts : list asker) : nat := fold_right (fun l n => load_of l + n) 0 ts.
  Lemma sum_set : forall ts i l l', nth_error ts i = Some l -> load_of l' < load_of l -> sum (set_nth i l' ts) < sum ts.
  Proof.
    unfold sum. induction ts as [|t ts IH]; intros [|i] l l' H W; cbn [nth_error set_nth fold_right] in *; try discriminate.
    - injection H as ->. lia.
    - specialize (IH i l l' H W). lia.
  Qed.

  Lemma some_step : forall ts s i a, steady (ts, s) -> nth_error ts i = Some a -> ~ done a ->
    exists j b b' s', nth_error ts j = Some b /\ step b s = Some (b', s').
  Proof.
    intros ts s i a [Hl _] Hi Hd. cbn [fst snd] in *.
    assert (W : forall j b, nth_error ts j = Some b -> in_update b = true \/ reads b = true -> exists b' s', step b s = Some (b', s')).
    { intros j b Hj Hb. unfold step, asker_step. unfold in_update, reads in Hb.
      destruct (ak_pc b) as [|q|q|q d|q|q|q|q d|q d]; try (destruct Hb; discriminate); try (eexists; eexists; reflexivity).
      destruct d; eexists; eexists; reflexivity. }
    destruct (step a s) as [[a' s']|] eqn:E; [ exists i, a, a', s'; auto | ].
    unfold step, asker_step in E. destruct (ak_pc a) as [|q|q|q d|q|q|q|q d|q d] eqn:Epc; try discriminate.
    - destruct (ak_keys a) eqn:K; [ | discriminate ]. exfalso. apply Hd. split; assumption.
    - unfold lock_right in Hl. destruct (pv_lock s); [ | discriminate ].
      destruct (count_ex in_update ts) as [j [b [Hj Hb]]]; [ lia | ].
      destruct (W j b Hj) as [b' [s' X]]; [ auto | ]. exists j, b, b', s'. auto.
    - destruct d; discriminate.
    - unfold lock_right in Hl. destruct (pv_lock s) as [|[|n]]; try discriminate.
      + destruct (count_ex in_update ts) as [j [b [Hj Hb]]]; [ lia | ].
        destruct (W j b Hj) as [b' [s' X]]; [ auto | ]. exists j, b, b', s'. auto.
      + destruct (count_ex reads ts) as [j [b [Hj Hb]]]; [ lia | ].
        destruct (W j b Hj) as [b' [s' X]]; [ auto | ]. exists j, b, b', s'. auto.
  Qed.

  Lemma all_done : forall n ts s, sum ts <= n -> steady (ts, s) -> exists sched, Forall done (fst (turns step sched (ts, s))).
  Proof.
    induction n as [|n IH]; intros ts s Hn Hs.
    - exists []. cbn [turns fst]. unfold sum in Hn. clear Hs. induction ts as [|t ts IH]; constructor.
      + cbn [fold_right] in Hn. unfold load_of in Hn. destruct (ak_keys t) eqn:K; cbn [length] in Hn; [ | lia ].
        destruct (ak_pc t) eqn:Epc; try lia. split; assumption.
      + apply IH. cbn [fold_right] in Hn. lia.
    - assert (X : Forall done ts \/ exists i a, nth_error ts i = Some a /\ ~ done a).
      { clear. induction ts as [|t ts [IH|[i [a [A B]]]]]; [ left; constructor | | right; exists (S i), a; auto ].
        assert (Dd : done t \/ ~ done t).
        { unfold done. destruct (ak_keys t); [ | right; intros [X _]; discriminate ].
          destruct (ak_pc t); try (right; intros [_ X]; discriminate). left. auto. }
        destruct Dd; [ left; constructor; assumption | right; exists 0, t; auto ]. }
      destruct X as [X|[i [a [Ha Hd]]]]; [ exists []; exact X | ].
      destruct (some_step ts s i a Hs Ha Hd) as [j [b [b' [s' [Hj Hb]]]]].
      destruct (IH (set_nth j b' ts) s') as [sched F].
      + pose proof (sum_set ts j b b' Hj (load_of_step _ _ _ _ Hb)). lia.
      + eapply steady_step; eassumption.
      + exists (j :: sched). cbn [turns]. unfold turn at 1. cbn [fst snd]. rewrite Hj, Hb. exact F.
  Qed.
End HashRace.

(** C49: for every number of goroutines, whatever locations each asks for, at
    every moment of every interleaving: at most one is in the update, and then
    nobody reads; at most one call for a location has returned, and everybody
    who got data for it got what that call returned.  A call that panicked may
    be followed by another one. *)
Theorem C49_called_once : forall D (call : nat -> string -> option D) keys sched ts s,
  turns (asker_step call) sched (map new_asker keys, new_provider) = (ts, s) ->
  count in_update ts <= 1 /\
  (count in_update ts = 1 -> count reads ts = 0) /\
  (forall k, length (returned k (pv_calls s)) <= 1) /\
  (forall a k d, In a ts -> In (k, Some d) (ak_results a) -> returned k (pv_calls s) = [d]).
Proof.
  intros D call keys sched ts s E.
  pose proof (steady_always call sched keys) as H. rewrite E in H. destruct H as [Hl [Hg Hr]]. cbn [fst snd] in *.
  assert (H1 : forall k, returned k (pv_calls s) = [] \/ exists d, returned k (pv_calls s) = [d]).
  { intro k. destruct (Hg k) as [[_ [X _]]|[[d [_ [X _]]]|[d [_ [X _]]]]]; rewrite X; eauto. }
  unfold lock_right in Hl. split; [ destruct (pv_lock s); lia | ]. split; [ destruct (pv_lock s); lia | ]. split.
  - intro k. destruct (H1 k) as [X|[d X]]; rewrite X; cbn; lia.
  - intros a k d Ha Hd. rewrite Forall_forall in Hr. destruct (Hr a Ha) as [F _]. specialize (F k d Hd).
    unfold has in F. rewrite <- returned_in in F. destruct (H1 k) as [X|[e X]]; rewrite X in F |- *; [ contradiction | ].
    destruct F as [->|[]]. reflexivity.
Qed.
Print Assumptions C49_called_once.

(** When no call panics there is at most one call for a location. *)
Theorem C49_called_once_without_panics : forall D (call : nat -> string -> option D) keys sched ts s,
  turns (asker_step call) sched (map new_asker keys, new_provider) = (ts, s) ->
  (forall n k, call n k <> None) ->
  forall k, length (filter (fun e => String.eqb (fst e) k) (pv_calls s)) <= 1.
Proof.
  intros D call keys sched ts s E Hc k.
  destruct (C49_called_once D call keys sched ts s E) as [_ [_ [H _]]].
  assert (X : Forall (fun e => snd e <> None) (pv_calls s)).
  { assert (Y : Forall (fun e => snd e <> None) (pv_calls (snd (turns (asker_step call) sched (map new_asker keys, new_provider))))).
    { apply (turns_invariant (asker_step call) (fun c => Forall (fun e => snd e <> None) (pv_calls (snd c)))); [ | constructor ].
      intros us u i a a' u' F _ Hs. cbn [snd] in *. unfold asker_step in Hs.
      destruct (ak_pc a) as [|q|q|q d|q|q|q|q d|q d].
      - destruct (ak_keys a); [ discriminate | ]. injection Hs as <- <-. exact F.
      - destruct (pv_lock u); [ discriminate | ]. injection Hs as <- <-. exact F.
      - injection Hs as <- <-. exact F.
      - destruct d; injection Hs as <- <-; exact F.
      - destruct (pv_lock u) as [|[|n]]; try discriminate. injection Hs as <- <-. exact F.
      - injection Hs as <- <-. exact F.
      - injection Hs as <- <-. cbn [pv_calls]. constructor; [ apply Hc | exact F ].
      - injection Hs as <- <-. exact F.
      - injection Hs as <- <-. exact F. }
    rewrite E in Y. exact Y. }
  specialize (H k). enough (Z : length (filter (fun e => String.eqb (fst e) k) (pv_calls s)) = length (returned k (pv_calls s))) by lia.
  clear - X. induction X as [|[q [d|]] l Hx Hl IH]; cbn [filter returned fst]; [ reflexivity | | contradiction Hx; reflexivity ].
  destruct (String.eqb q k); cbn [length]; rewrite IH; reflexivity.
Qed.
Print Assumptions C49_called_once_without_panics.

(** C49: nobody waits for ever: at any moment all can still complete, also when
    calls have panicked. *)
Theorem C49_all_complete : forall D (call : nat -> string -> option D) keys sched,
  exists sched', Forall (fun a => ak_keys a = [] /\ ak_pc a = HStart)
    (fst (turns (asker_step call) (sched ++ sched') (map new_asker keys, new_provider))).
Proof.
  intros D call keys sched. pose proof (steady_always call sched keys) as H.
  destruct (turns (asker_step call) sched (map new_asker keys, new_provider)) as [ts s] eqn:E.
  destruct (all_done call (sum ts) ts s (Nat.le_refl _) H) as [sched' F].
  exists sched'. rewrite turns_app, E. exact F.
Qed.
Print Assumptions C49_all_complete.

(** Three goroutines and two locations; the data is different at every call.
    The second goroutine finds nothing at first and then, having waited for the
    first, finds what that got. *)
Example C49_ex_waits :
  let '(ts, s) := turns (asker_step (fun n k => Some (k, n)))
    [0; 1; 0; 1; 0; 1; 0; 1; 0; 1; 0; 1; 1] (map new_asker [["a"]; ["a"; "b"]; ["b"]], new_provider) in
  map ak_pc ts = [HCall "a"; HLock "a"; HStart] /\ count in_update ts = 1.
Proof. vm_compute. auto. Qed.
Example C49_ex_once :
  let '(ts, s) := turns (asker_step (fun n k => Some (k, n)))
    ([0; 1; 0; 1; 0; 1; 0; 1; 0; 1; 0; 1; 1] ++ repeat 0 9 ++ repeat 2 9 ++ repeat 1 20)
    (map new_asker [["a"]; ["a"; "b"]; ["b"]], new_provider) in
  map ak_results ts = [[("a", Some ("a", 0))]; [("b", Some ("b", 1)); ("a", Some ("a", 0))]; [("b", Some ("b", 1))]] /\
  pv_calls s = [("b", Some ("b", 1)); ("a", Some ("a", 0))].
Proof. vm_compute. auto. Qed.
(** The first call panics, the second one does not. *)
Example C49_ex_panic :
  let '(ts, s) := turns (asker_step (fun n k => match n with 0 => None | _ => Some n end))
    (repeat 0 20 ++ repeat 1 20) (map new_asker [["a"]; ["a"; "a"]], new_provider) in
  map ak_results ts = [[("a", None)]; [("a", Some 1); ("a", Some 1)]].
Proof. vm_compute. auto. Qed.
