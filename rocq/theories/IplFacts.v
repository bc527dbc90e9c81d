(** Facts about the lexical part of interpolation. *)

From Coq Require Import String Ascii List ZArith Bool Arith Lia.
From Verif Require Import Str Value Outcome Ipl SpecKey SpecIpl KeyFacts StrFacts.
Import ListNotations.
Open Scope string_scope.

(** ** The pieces of a string *)

Fixpoint toks (cut : list (string * string)) (last : string) : list token :=
  match cut with
  | [] => [TLit last]
  | (t, e) :: r => TLit t :: TExpr e :: toks r last
  end.

Lemma not_has_cons sub c s : ~ has sub (String c s) -> ~ has sub s.
Proof. intros H (a & b & ->). apply H. exists (String c a), b. reflexivity. Qed.

Lemma scan_text : forall l lit rest, ~ has "%{" l -> scan lit (l ++ "%{" ++ rest) = scan_expr (lit ++ l) "" rest.
Proof.
  induction l as [|c l IH]; intros lit rest H.
  - simpl. rewrite app_nil_s. reflexivity.
  - change (String c l ++ "%{" ++ rest) with (String c (l ++ "%{" ++ rest)).
    assert (E : exists d r, l ++ "%{" ++ rest = String d r /\ ceq c c_pct && ceq d c_lbrace = false).
    { destruct l as [|d l].
      - exists "%"%char, ("{" ++ rest). split; [ reflexivity | ]. simpl. apply andb_false_r.
      - exists d, (l ++ "%{" ++ rest). split; [ reflexivity | ].
        destruct (ceq c c_pct && ceq d c_lbrace) eqn:E; [ | reflexivity ].
        apply andb_true_iff in E as [E1 E2]. apply ceq_true in E1, E2. subst c d.
        exfalso. apply H. exists "", l. reflexivity. }
    destruct E as (d & r & E1 & E2). cbn [scan]. rewrite E1, E2. rewrite <- E1.
    rewrite IH; [ | exact (not_has_cons _ _ _ H) ]. rewrite app_assoc_s. reflexivity.
Qed.

Lemma scan_expr_text : forall e lit ex rest, ~ has "}" e ->
  scan_expr lit ex (e ++ "}" ++ rest) = TLit lit :: TExpr (ex ++ e) :: scan "" rest.
Proof.
  induction e as [|c e IH]; intros lit ex rest H.
  - simpl. rewrite app_nil_s. reflexivity.
  - change (String c e ++ "}" ++ rest) with (String c (e ++ "}" ++ rest)). cbn [scan_expr].
    destruct (ceq c c_rbrace) eqn:E.
    + apply ceq_true in E. subst c. exfalso. apply H. exists "", e. reflexivity.
    + rewrite IH; [ | exact (not_has_cons _ _ _ H) ]. rewrite app_assoc_s. reflexivity.
Qed.

Lemma scan_expr_open : forall e lit ex, ~ has "}" e -> scan_expr lit ex e = [TLit (lit ++ "%{" ++ ex ++ e)].
Proof.
  induction e as [|c e IH]; intros lit ex H.
  - simpl. rewrite app_nil_s. reflexivity.
  - cbn [scan_expr]. destruct (ceq c c_rbrace) eqn:E.
    + apply ceq_true in E. subst c. exfalso. apply H. exists "", e. reflexivity.
    + rewrite IH; [ | exact (not_has_cons _ _ _ H) ]. rewrite !app_assoc_s. reflexivity.
Qed.

Lemma scan_plain : forall l lit, ~ has "%{" l -> scan lit l = [TLit (lit ++ l)].
Proof.
  induction l as [|c l IH]; intros lit H.
  - simpl. rewrite app_nil_s. reflexivity.
  - cbn [scan]. destruct l as [|d l]; [ reflexivity | ].
    destruct (ceq c c_pct && ceq d c_lbrace) eqn:E.
    + apply andb_true_iff in E as [E1 E2]. apply ceq_true in E1, E2. subst c d.
      exfalso. apply H. exists "", l. reflexivity.
    + rewrite IH; [ | exact (not_has_cons _ _ _ H) ]. rewrite app_assoc_s. reflexivity.
Qed.

Lemma scan_last : forall l lit, ~ (exists a b c, l = a ++ "%{" ++ b ++ "}" ++ c) -> scan lit l = [TLit (lit ++ l)].
Proof.
  intros l lit H. destruct (split_at "%{" l) as [[a r]|] eqn:E.
  - apply split_at_first in E as [-> Ha]; [ | discriminate ].
    rewrite scan_text by exact Ha. rewrite scan_expr_open.
    + rewrite !app_assoc_s. reflexivity.
    + intros (b & c & ->). apply H. exists a, b, c. reflexivity.
  - apply scan_plain. apply split_at_none. exact E.
Qed.

Lemma tokens_cut : forall cut last, well_cut cut last -> tokens (assembled cut last) = toks cut last.
Proof.
  intros cut last [H Hl]. unfold tokens. induction cut as [|[t e] cut IH].
  - simpl. rewrite scan_last by exact Hl. reflexivity.
  - inversion H as [|x l [H1 H2] H3]; subst. cbn [assembled toks fst snd] in *.
    rewrite scan_text by exact H1. rewrite scan_expr_text by exact H2. rewrite IH by exact H3. reflexivity.
Qed.

Lemma cut_exists : forall s, exists cut last, well_cut cut last /\ assembled cut last = s.
Proof.
  intro s. remember (String.length s) as n eqn:En. assert (L : String.length s <= n) by lia. clear En.
  revert s L. induction n as [|n IH]; intros s L.
  - destruct s; [ | simpl in L; lia ]. exists [], "". split; [ | reflexivity ].
    split; [ constructor | ]. intros (a & b & c & H). destruct a; discriminate.
  - destruct (split_at "%{" s) as [[a r]|] eqn:E1.
    + apply split_at_first in E1 as [-> Ha]; [ | discriminate ].
      destruct (split_at "}" r) as [[e r']|] eqn:E2.
      * apply split_at_first in E2 as [-> He]; [ | discriminate ].
        destruct (IH r') as (cut & last & [H1 H2] & <-).
        { rewrite !length_app_s in L. simpl in L. lia. }
        exists ((a, e) :: cut), last. split; [ | reflexivity ].
        split; [ constructor; auto | exact H2 ].
      * exists [], (a ++ "%{" ++ r). split; [ | reflexivity ]. split; [ constructor | ].
        intros (x & b & c & H). apply split_at_none in E2. apply E2.
        assert (La : String.length a <= String.length x).
        { destruct (le_lt_dec (String.length a) (String.length x)) as [Q|Q]; [ exact Q | exfalso ].
          symmetry in H. apply app_eq_split in H as (y & Hy & H); [ | lia ].
          subst a. rewrite length_app_s in Q. destruct y as [|y0 y]; [ simpl in Q; lia | ].
          simpl in H. injection H as <- H.
          destruct y as [|y1 y]; simpl in H; [ discriminate | ]. injection H as <- H.
          apply Ha. exists x, y. reflexivity. }
        apply app_eq_split in H as (y & -> & H); [ | exact La ].
        destruct y as [|y0 y]; simpl in H.
        -- injection H as ->. exists b, c. reflexivity.
        -- injection H as <- H. destruct y as [|y1 y]; simpl in H; [ discriminate | ]. injection H as <- H.
           rewrite H. exists (y ++ "%{" ++ b), c. rewrite !app_assoc_s. reflexivity.
    + exists [], s. split; [ | reflexivity ]. split; [ constructor | ].
      intros (a & b & c & H). apply split_at_none in E1. apply E1. exists a, (b ++ "}" ++ c). exact H.
Qed.

Lemma cut_unique : forall cut last cut' last',
  well_cut cut last -> well_cut cut' last' -> assembled cut last = assembled cut' last' ->
  cut = cut' /\ last = last'.
Proof.
  intros cut last cut' last' H H' E. apply tokens_cut in H, H'. rewrite <- E, H in H'. clear E H.
  revert cut' H'. induction cut as [|[t e] cut IH]; intros [|[t' e'] cut'] H; simpl in H; try discriminate.
  - injection H as ->. auto.
  - injection H as -> -> H. destruct (IH _ H) as [-> ->]. auto.
Qed.

(** ** Method calls *)

Lemma is_word_char c : is_word c = true <-> word_char c.
Proof.
  unfold is_word, is_digit, word_char.
  rewrite !orb_true_iff, !andb_true_iff, !Nat.leb_le, Nat.eqb_eq. lia.
Qed.

Lemma take_word_spec s : forall a b, take_word s = (a, b) ->
  s = a ++ b /\ (forall c, occurs c a -> word_char c) /\ (forall c r, b = String c r -> ~ word_char c).
Proof.
  induction s as [|c s IH]; intros a b H; simpl in H.
  - injection H as <- <-. repeat split; simpl; [ tauto | discriminate ].
  - destruct (is_word c) eqn:E.
    + destruct (take_word s) as [x y]. injection H as <- <-. destruct (IH x y eq_refl) as (-> & H1 & H2).
      repeat split; [ | exact H2 ]. simpl. intros d [<-|Hd]; [ apply is_word_char; exact E | auto ].
    + injection H as <- <-. repeat split; simpl; [ tauto | ]. intros d r Hd. injection Hd as <- _.
      rewrite <- is_word_char. congruence.
Qed.

Lemma take_word_app name c r : (forall d, occurs d name -> word_char d) -> ~ word_char c ->
  take_word (name ++ String c r) = (name, String c r).
Proof.
  intros H Hc. induction name as [|d name IH]; simpl.
  - destruct (is_word c) eqn:E; [ apply is_word_char in E; contradiction | reflexivity ].
  - assert (Hd : is_word d = true) by (apply is_word_char, H; simpl; auto).
    rewrite Hd, IH; [ reflexivity | ]. intros x Hx. apply H. simpl. auto.
Qed.

Lemma take_arg_spec q s a : take_arg q s = Some a <-> a <> "" /\ ~ occurs q a /\ s = a ++ String q ")".
Proof.
  unfold take_arg. split.
  - destruct (split_at (str1 q) s) as [[x r]|] eqn:E; [ | discriminate ].
    apply split_at_first in E as [-> Hx]; [ | discriminate ]. rewrite has_char in Hx.
    destruct x as [|c x]; [ discriminate | ]. destruct (String.eqb r ")") eqn:Er; [ | discriminate ].
    apply String.eqb_eq in Er. subst r. intro H. injection H as <-. repeat split; [ discriminate | exact Hx ].
  - intros (H1 & H2 & ->). rewrite split_at_char by exact H2. destruct a; [ contradiction | ]. reflexivity.
Qed.

Lemma method_match_spec e name arg : method_match e = Some (name, arg) <-> calls e name arg.
Proof.
  unfold method_match, calls. split.
  - destruct (take_word e) as [n r] eqn:E. apply take_word_spec in E as (-> & Hn & _).
    destruct n as [|n0 n]; [ discriminate | ]. destruct r as [|p [|q r]]; try discriminate.
    destruct (ceq p c_lparen) eqn:Ep; [ | discriminate ]. apply ceq_true in Ep. subst p.
    destruct (ceq q c_dquote || ceq q c_squote) eqn:Eq; [ | discriminate ]. simpl.
    destruct (take_arg q r) as [a|] eqn:Ea; [ | discriminate ]. intro H. injection H as <- <-.
    apply take_arg_spec in Ea as (A1 & A2 & ->).
    exists q. split.
    { rewrite orb_comm in Eq. apply is_quote_dec. exact Eq. }
    repeat split; try assumption; discriminate.
  - intros (q & Hq & -> & Hn & Hw & Ha & Hqa).
    assert (Hp : ~ word_char "("%char) by (unfold word_char; vm_compute; lia).
    change (name ++ "(" ++ String q arg ++ String q ")") with (name ++ String "(" (String q arg ++ String q ")")).
    rewrite take_word_app by assumption.
    destruct name as [|n0 name]; [ contradiction | ]. cbn [append].
    change (ceq "(" c_lparen) with true. rewrite orb_comm.
    apply is_quote_dec in Hq. rewrite Hq. cbn [andb].
    assert (T : take_arg q (arg ++ String q ")") = Some arg) by (apply take_arg_spec; auto).
    rewrite T. reflexivity.
Qed.

Lemma method_match_none e : method_match e = None <-> forall name arg, ~ calls e name arg.
Proof.
  split.
  - intros H name arg C. apply method_match_spec in C. congruence.
  - intro H. destruct (method_match e) as [[n a]|] eqn:E; [ | reflexivity ].
    apply method_match_spec in E. exfalso. exact (H _ _ E).
Qed.

Lemma calls_inj e n a n' a' : calls e n a -> calls e n' a' -> n = n' /\ a = a'.
Proof.
  intros H H'. apply method_match_spec in H, H'. rewrite H in H'. injection H' as -> ->. auto.
Qed.

(** By computation: no expression in a text, and a cut read off the tokens. *)
Lemma no_expression t : tokens t = [TLit t] -> ~ (exists a b c, t = a ++ "%{" ++ b ++ "}" ++ c).
Proof.
  intro H. destruct (cut_exists t) as (cut & last & Hw & E). pose proof (tokens_cut _ _ Hw) as Ht.
  rewrite E, H in Ht. destruct cut as [|[a b] cut]; [ | discriminate Ht ].
  injection Ht as ->. exact (proj2 Hw).
Qed.

Lemma cut_by_tokens cut last : tokens (assembled cut last) = toks cut last -> well_cut cut last.
Proof.
  intro H. destruct (cut_exists (assembled cut last)) as (cut' & last' & Hw & E).
  pose proof (tokens_cut _ _ Hw) as Ht. rewrite E, H in Ht. clear H E.
  assert (Q : cut = cut' /\ last = last'); [ | destruct Q as [-> ->]; exact Hw ].
  clear Hw. revert cut' Ht. induction cut as [|[t e] cut IH]; intros [|[t' e'] cut'] Ht; try discriminate.
  - injection Ht as ->. auto.
  - injection Ht as -> -> Ht. apply IH in Ht as [-> ->]. auto.
Qed.
