(** C76: equality of keys and locations. *)

From Coq Require Import String List ZArith Bool.
From Verif Require Import Str Outcome Key Config Equal SpecKey.
Import ListNotations.
Open Scope string_scope.

(** Two locations are equal exactly when they are of the same kind and have the
    same fields. *)
Theorem C76_locations : forall a b, loc_equals a b = true <-> a = b.
Proof.
  intros a b. split; [ | intros <- ].
  - destruct a, b; cbn [loc_equals]; try discriminate; rewrite ?andb_true_iff, ?String.eqb_eq, ?Bool.eqb_true_iff; intuition congruence.
  - destruct a; cbn [loc_equals]; rewrite ?String.eqb_refl, ?Bool.eqb_reflx; reflexivity.
Qed.
Print Assumptions C76_locations.

(** Equal locations have the same hash code, so that they are one key of a map. *)
Theorem C76_location_hash : forall h wrap a b, loc_equals a b = true -> loc_hash h wrap a = loc_hash h wrap b.
Proof. intros h wrap a b E. apply C76_locations in E. rewrite E. reflexivity. Qed.
Print Assumptions C76_location_hash.

(** Which locations have the same hash code whatever the hash codes of texts
    are: paths, uris and globs written the same, and mapped locations with the
    same template and the same two texts for variable and key, in any order. *)
Definition written (l : location) : option string :=
  match l with LPath o _ _ => Some o | LUri o _ => Some o | LGlob p => Some p | LMapped _ _ _ => None end.
Inductive alike : location -> location -> Prop :=
| alike_written : forall a b o, written a = Some o -> written b = Some o -> alike a b
| alike_mapped : forall v k t, alike (LMapped v k t) (LMapped v k t)
| alike_swapped : forall v k t, alike (LMapped v k t) (LMapped k v t).

Theorem C76_location_hash_exactly : forall wrap, (forall z, (0 <= z < 64)%Z -> wrap z = z) -> forall a b,
  (forall h, loc_hash h wrap a = loc_hash h wrap b) <-> alike a b.
Proof.
  intros wrap W a b. split.
  - intro H.
    assert (K : forall x, exists h, (forall y, h y = if String.eqb y x then 1 else 0)%Z /\ loc_hash h wrap a = loc_hash h wrap b)
      by (intro x; exists (fun y => if String.eqb y x then 1 else 0)%Z; split; [ reflexivity | apply H ]).
    pose proof (H (fun _ => 1%Z)) as H1.
    destruct (written a) as [o|] eqn:Ea; destruct (written b) as [p|] eqn:Eb.
    + assert (o = p) as ->; [ | eapply alike_written; eassumption ].
      destruct (K o) as (h & Hh & E).
      assert (X : h o = h p) by (destruct a, b; cbn in *; try discriminate; congruence).
      rewrite !Hh, String.eqb_refl in X. destruct (String.eqb_spec p o) as [->|_]; [ reflexivity | discriminate X ].
    + destruct b as [| | |v k t]; try discriminate Eb.
      destruct a; try discriminate Ea; cbn in H1; rewrite W in H1 by (split; [ discriminate | reflexivity ]); discriminate H1.
    + destruct a as [| | |v k t]; try discriminate Ea.
      destruct b; try discriminate Eb; cbn in H1; rewrite W in H1 by (split; [ discriminate | reflexivity ]); discriminate H1.
    + destruct a as [| | |v k t]; try discriminate Ea. destruct b as [| | |v' k' t']; try discriminate Eb.
      clear H1 Ea Eb H.
      assert (Q : forall x, (String.eqb t x = String.eqb t' x) /\
        ((if String.eqb v x then 1 else 0) + (if String.eqb k x then 1 else 0) =
         (if String.eqb v' x then 1 else 0) + (if String.eqb k' x then 1 else 0))%Z).
      { intro x. destruct (K x) as (h & Hh & E). cbn [loc_hash] in E. rewrite !Hh in E.
        rewrite !W in E.
        - destruct (String.eqb t x), (String.eqb t' x), (String.eqb v x), (String.eqb k x), (String.eqb v' x), (String.eqb k' x);
            cbn in E; try discriminate E; split; reflexivity.
        - destruct (String.eqb t' x), (String.eqb v' x), (String.eqb k' x); cbn; split; discriminate || reflexivity.
        - destruct (String.eqb t x), (String.eqb v x), (String.eqb k x); cbn; split; discriminate || reflexivity. }
      assert (t = t') as <-.
      { destruct (Q t') as [X _]. rewrite String.eqb_refl in X. apply String.eqb_eq. exact X. }
      destruct (Q v) as [_ Xv]. destruct (Q k) as [_ Xk]. rewrite !String.eqb_refl in Xv, Xk.
      assert (C : (v' = v /\ k' = k) \/ (v' = k /\ k' = v)).
      { destruct (String.eqb_spec v' v); destruct (String.eqb_spec k' k); auto;
        destruct (String.eqb_spec v' k); destruct (String.eqb_spec k' v); auto; try congruence;
        destruct (String.eqb_spec v k); destruct (String.eqb_spec k v); try congruence; try discriminate. }
      destruct C as [[Ev Ek]|[Ev Ek]]; rewrite Ev, Ek; [ apply alike_mapped | apply alike_swapped ].
  - intros A h. destruct A as [a b o Ea Eb|v k t|v k t].
    + destruct a, b; cbn in *; try discriminate; congruence.
    + reflexivity.
    + cbn [loc_hash]. f_equal. ring.
Qed.
Print Assumptions C76_location_hash_exactly.

Example C76_location_hash_exactly_ex :
  alike (LMapped "v" "k" "t") (LMapped "k" "v" "t") /\ alike (LPath "a" "/h/a" true) (LUri "a" "u") /\
  loc_hash (fun s => Z.of_nat (String.length s)) (fun z => z) (LMapped "v" "k" "t1") = 64%Z /\
  loc_hash (fun s => Z.of_nat (String.length s)) (fun z => z) (LMapped "v" "k" "t") = 63%Z.
Proof. split; [ apply alike_swapped | ]. split; [ eapply alike_written; reflexivity | ]. split; reflexivity. Qed.

Example C76_locations_example :
  loc_equals (LPath "a" "/h/a" true) (LPath "a" "/h/a" true) = true /\
  loc_equals (LPath "a" "/h/a" true) (LPath "a" "/h/a" false) = false /\
  loc_equals (LPath "a" "" false) (LUri "a" "") = false /\
  loc_equals (LMapped "v" "k" "t") (LMapped "k" "v" "t") = false.
Proof. repeat split. Qed.

(** Keys that are equal have the same segments: what one digs, the other
    digs. *)
Theorem C76_keys_partial : forall s t a b, new_key s = Ok a -> new_key t = Ok b ->
  (key_equals a b = true <-> s = t) /\ (key_equals a b = true -> k_parts a = k_parts b).
Proof.
  intros s t a b Ea Eb.
  assert (Sa : k_source a = s) by (unfold new_key, omap in Ea; destruct (parse_unquoted s "" [] s); [ injection Ea as <- | | | ]; try discriminate; reflexivity).
  assert (Sb : k_source b = t) by (unfold new_key, omap in Eb; destruct (parse_unquoted t "" [] t); [ injection Eb as <- | | | ]; try discriminate; reflexivity).
  unfold key_equals. rewrite Sa, Sb, String.eqb_eq. split; [ reflexivity | ]. intros ->. rewrite Ea in Eb. injection Eb as ->. reflexivity.
Qed.
Print Assumptions C76_keys_partial.

Example C76_keys_example : exists a b c, new_key "a.b.0" = Ok a /\ new_key "a.b.0" = Ok b /\ new_key "a.b.1" = Ok c /\
  key_equals a b = true /\ key_equals a c = false.
Proof. do 3 eexists. repeat split. Qed.

(** Full statement: keys with the same segments are equal, and equal keys have
    the same hash code.  Both are false.  The keys a.b and 'a'.b have the
    same segments and are not equal, and no key has a hash code. *)
Definition C76_keys_full : Prop :=
  forall s t a b, new_key s = Ok a -> new_key t = Ok b -> k_parts a = k_parts b -> key_equals a b = true.
Definition C76_key_hash_full : Prop :=
  forall s t a b, new_key s = Ok a -> new_key t = Ok b -> key_equals a b = true ->
  exists h, key_hash a = Ok h /\ key_hash b = Ok h.

Theorem C76_key_text_refuted : exists s t a b, new_key s = Ok a /\ new_key t = Ok b /\
  k_parts a = k_parts b /\ key_equals a b = false.
Proof. exists "a.b", "'a'.b". do 2 eexists. repeat split. Qed.
Print Assumptions C76_key_text_refuted.

Theorem C76_key_hash_refuted : exists s a, new_key s = Ok a /\ key_equals a a = true /\ forall h, key_hash a <> Ok h.
Proof. exists "a.b". eexists. split; [ reflexivity | ]. split; [ reflexivity | discriminate ]. Qed.
Print Assumptions C76_key_hash_refuted.
