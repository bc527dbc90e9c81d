(** Facts about the string functions of Str.v. *)

From Coq Require Import String Ascii List ZArith Bool Arith Lia.
From Verif Require Import Str Value SpecKey SpecIpl KeyFacts.
Import ListNotations.
Open Scope string_scope.

Lemma app_inj_l (a b c : string) : a ++ b = a ++ c -> b = c.
Proof. induction a as [|x a IH]; simpl; intro H; [ exact H | ]. injection H as H. auto. Qed.

Lemma app_eq_len (a b c d : string) : String.length a = String.length c -> a ++ b = c ++ d -> a = c /\ b = d.
Proof.
  revert c. induction a as [|x a IH]; intros [|y c] H E; simpl in *; try discriminate; [ auto | ].
  injection E as -> E. injection H as H. destruct (IH c H E) as [-> ->]. auto.
Qed.

Lemma app_inj_r (a b c : string) : a ++ c = b ++ c -> a = b.
Proof.
  intro H. assert (L : String.length a = String.length b).
  { apply (f_equal String.length) in H. rewrite !length_app_s in H. lia. }
  destruct (app_eq_len _ _ _ _ L H). assumption.
Qed.

(** Of two decompositions one is longer. *)
Lemma app_eq_split (a b c d : string) :
  a ++ b = c ++ d -> String.length a <= String.length c -> exists e, c = a ++ e /\ b = e ++ d.
Proof.
  revert c. induction a as [|x a IH]; intros c E L; simpl in *.
  - exists c. auto.
  - destruct c as [|y c]; simpl in *; [ lia | ]. injection E as -> E.
    destruct (IH c E) as (e & -> & ->); [ lia | ]. exists e. auto.
Qed.

Lemma has_app_l sub a b : has sub a -> has sub (a ++ b).
Proof. intros (x & y & ->). exists x, (y ++ b). rewrite !app_assoc_s. reflexivity. Qed.
Lemma has_app_r sub a b : has sub b -> has sub (a ++ b).
Proof. intros (x & y & ->). exists (a ++ x), y. rewrite !app_assoc_s. reflexivity. Qed.
Lemma has_self sub a b : has sub (a ++ sub ++ b).
Proof. exists a, b. reflexivity. Qed.

Lemma has_char c s : has (str1 c) s <-> occurs c s.
Proof.
  split.
  - intros (a & b & ->). induction a; simpl; auto.
  - induction s as [|d s IH]; simpl; [ contradiction | ]. intros [->|H].
    + exists "", s. reflexivity.
    + destruct (IH H) as (a & b & ->). exists (String d a), b. reflexivity.
Qed.

Lemma occurs_app c a b : occurs c (a ++ b) <-> occurs c a \/ occurs c b.
Proof. induction a as [|d a IH]; simpl; [ tauto | ]. rewrite IH. tauto. Qed.

Lemma strip_prefix_some p s r : strip_prefix p s = Some r <-> s = p ++ r.
Proof.
  revert s. induction p as [|a p IH]; intros s; simpl.
  - split; [ intro H; injection H as ->; reflexivity | intros ->; reflexivity ].
  - destruct s as [|b s]; [ split; discriminate | ].
    destruct (ceq a b) eqn:E.
    + apply ceq_true in E. subst b. rewrite IH. split; [ intros -> | intro H; injection H as -> ]; reflexivity.
    + apply ceq_false in E. split; [ discriminate | intro H; injection H as H _; congruence ].
Qed.

Lemma strip_prefix_app p r : strip_prefix p (p ++ r) = Some r.
Proof. apply strip_prefix_some. reflexivity. Qed.

Lemma has_prefix_app p s : has_prefix p s = true <-> exists r, s = p ++ r.
Proof.
  unfold has_prefix. revert s. induction p as [|a p IH]; intros s.
  - split; [ exists s; reflexivity | destruct s; reflexivity ].
  - destruct s as [|b s]; [ split; [ discriminate | intros (r & H); discriminate ] | ].
    cbn [prefix]. destruct (ascii_dec a b) as [E|N].
    + subst b. rewrite IH. split; intros (r & H); exists r; [ rewrite H; reflexivity | injection H as ->; reflexivity ].
    + split; [ discriminate | intros (r & H); injection H as -> _; congruence ].
Qed.

Lemma split_at_some sub s a b : split_at sub s = Some (a, b) ->
  s = a ++ sub ++ b /\ forall a' b', s = a' ++ sub ++ b' -> String.length a <= String.length a'.
Proof.
  revert a b. induction s as [|c s IH]; intros a b H; simpl in H.
  - destruct (strip_prefix sub "") as [r|] eqn:E; [ | discriminate ]. injection H as <- <-.
    apply strip_prefix_some in E. split; [ exact E | intros; simpl; lia ].
  - destruct (strip_prefix sub (String c s)) as [r|] eqn:E.
    + injection H as <- <-. apply strip_prefix_some in E. split; [ exact E | intros; simpl; lia ].
    + destruct (split_at sub s) as [[a0 b0]|] eqn:E2; [ | discriminate ]. injection H as <- <-.
      destruct (IH _ _ eq_refl) as [Es Hm]. split; [ rewrite Es at 1; reflexivity | ].
      intros a' b' H. destruct a' as [|c' a']; simpl in H.
      * apply strip_prefix_some in H. rewrite H in E. discriminate.
      * injection H as _ H. simpl. apply le_n_S. exact (Hm _ _ H).
Qed.

Lemma split_at_none sub s : split_at sub s = None <-> ~ has sub s.
Proof.
  induction s as [|c s IH]; simpl.
  - destruct (strip_prefix sub "") as [r|] eqn:E.
    + apply strip_prefix_some in E. split; [ discriminate | intro H; exfalso; apply H; exists "", r; exact E ].
    + split; [ | reflexivity ]. intros _ (a & b & H). destruct a; [ | discriminate ].
      apply (strip_prefix_some sub "" b) in H. congruence.
  - destruct (strip_prefix sub (String c s)) as [r|] eqn:E.
    + apply strip_prefix_some in E. split; [ discriminate | intro H; exfalso; apply H; exists "", r; exact E ].
    + destruct (split_at sub s) as [[a b]|] eqn:E2.
      * split; [ discriminate | ]. intro H. exfalso. apply H. apply split_at_some in E2 as [-> _].
        exists (String c a), b. reflexivity.
      * split; [ | reflexivity ]. intros _ (a & b & H). destruct a as [|c' a]; simpl in H.
        -- apply (strip_prefix_some sub (String c s) b) in H. congruence.
        -- injection H as _ H. apply (proj1 IH eq_refl). exists a, b. exact H.
Qed.

(** The first occurrence. *)
Lemma split_at_first sub s a b : sub <> "" -> split_at sub s = Some (a, b) -> s = a ++ sub ++ b /\ ~ has sub a.
Proof.
  intros Hs H. apply split_at_some in H as [-> Hm]. split; [ reflexivity | ].
  intros (x & y & ->). specialize (Hm x (y ++ sub ++ b)).
  rewrite !app_assoc_s in Hm. specialize (Hm eq_refl). rewrite !length_app_s in Hm.
  destruct sub; [ contradiction | simpl in Hm; lia ].
Qed.

(** Splitting at a separator of one character that is not in the first part. *)
Lemma split_at_char c a b : ~ occurs c a -> split_at (str1 c) (a ++ String c b) = Some (a, b).
Proof.
  intro H. induction a as [|d a IH]; simpl.
  - rewrite ceq_refl. reflexivity.
  - destruct (ceq c d) eqn:E.
    + apply ceq_true in E. exfalso. apply H. simpl. auto.
    + rewrite IH; [ reflexivity | ]. intro. apply H. simpl. auto.
Qed.

Lemma contains_has sub s : contains sub s = true <-> has sub s.
Proof.
  unfold contains. destruct (split_at sub s) as [[a b]|] eqn:E.
  - split; [ | reflexivity ]. intros _. apply split_at_some in E as [-> _]. apply has_self.
  - split; [ discriminate | ]. intro H. apply split_at_none in E. contradiction.
Qed.

Lemma contains_not sub s : contains sub s = false <-> ~ has sub s.
Proof. rewrite <- contains_has. destruct (contains sub s); split; intros; congruence. Qed.

Lemma has_dec sub s : {has sub s} + {~ has sub s}.
Proof.
  destruct (contains sub s) eqn:E; [ left; apply contains_has | right; apply contains_not ]; exact E.
Qed.
