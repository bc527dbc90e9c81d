(** The lookup command, /repo/hiera/hiera.go: C45, C46, C54 and C55. *)

From Coq Require Import String Ascii List ZArith Bool Arith Lia.
From Verif Require Import Str Value Outcome Key Merge SpecMerge Config Explain State Engine Session Worlds Api SpecApi ValueFacts StrFacts
  MergeLookup InterpFacts KeyFacts LookupExact SpecIpl SpecKey SpecConfig SpecLookup SettledLookup SpecInterp ExLevels P_Lookup P_Nested P_Options P_Api.
Import ListNotations.
Open Scope string_scope.
Open Scope list_scope.

(** ** C46 *)

Lemma is_sep_spec c : is_sep c = true <-> c = ":"%char \/ c = "="%char.
Proof.
  unfold is_sep, ceq. rewrite orb_true_iff, !Ascii.eqb_eq. tauto.
Qed.
Lemma is_sep_not c : is_sep c = false <-> c <> ":"%char /\ c <> "="%char.
Proof.
  unfold is_sep, ceq. rewrite orb_false_iff, !Ascii.eqb_neq. tauto.
Qed.
Lemma one_line_spec s : one_line s = true <-> no_newline s.
Proof.
  induction s as [|c r IH]; cbn [one_line no_newline]; [ tauto | ]. unfold ceq. rewrite andb_true_iff, negb_true_iff, Ascii.eqb_neq, IH. tauto.
Qed.
Lemma no_newline_app a b : no_newline (a ++ b) <-> no_newline a /\ no_newline b.
Proof. induction a as [|c a IH]; cbn [no_newline append]; [ tauto | ]. rewrite IH. tauto. Qed.

Lemma split_cons c s k v : split_of (String c s) k v <->
  (exists d f t, s = String d (String f t) /\ is_sep c = false /\ is_sep d = true /\ is_sep f = false /\ k = str1 c /\ v = String f t) \/
  (exists k', k = String c k' /\ split_of s k' v).
Proof.
  split.
  - intro H. inversion H as [k0 a c0 b v0 Ha Ha' Hc Hb Hb' E E1 E2]; subst. destruct k0 as [|x k0].
    + left. cbn [append] in E. injection E as Ea Eb. subst a s. exists c0, b, v0. rewrite is_sep_spec, !is_sep_not. repeat split; auto.
    + right. cbn [append] in E. injection E as Ea Eb. subst x s. exists (k0 ++ String a "")%string. split; [ reflexivity | ]. constructor; auto.
  - intros [(d & f & t & -> & A & B & C & -> & ->)|(k' & -> & H)].
    + apply is_sep_not in A, C. apply is_sep_spec in B. apply (so_here "" c d f t); tauto.
    + inversion H as [k0 a c0 b v0 Ha Ha' Hc Hb Hb' E E1 E2]; subst. apply (so_here (String c k0) a c0 b v0); auto.
Qed.
Lemma split_nil k v : ~ split_of "" k v.
Proof. intro H. inversion H as [k0 a c0 b v0 Ha Ha' Hc Hb Hb' E E1 E2]. destruct k0; discriminate E. Qed.
Lemma split_length s k v : split_of s k v -> 1 <= String.length k.
Proof.
  intro H. inversion H as [k0 a c0 b v0]; subst. clear. induction k0 as [|c k0 IH]; cbn [append String.length]; lia.
Qed.

Lemma app_assoc_str (a b c : string) : ((a ++ b) ++ c = a ++ (b ++ c))%string.
Proof. induction a as [|x a IH]; cbn [append]; [ reflexivity | rewrite IH; reflexivity ]. Qed.

Lemma var_split_from_spec s : no_newline s -> forall pre,
  match var_split_from pre s with
  | Some (k, v) => exists k', k = (pre ++ k')%string /\ first_split s k' v
  | None => forall k v, ~ split_of s k v
  end.
Proof.
  intros N. induction s as [|c r IH]; intro pre.
  - cbn [var_split_from]. exact split_nil.
  - destruct N as [Nc N]. specialize (IH N). cbn [var_split_from].
    replace (ceq c c_nl) with false by (symmetry; apply Ascii.eqb_neq; exact Nc). cbv iota.
    assert (Next : (forall d f t, r = String d (String f t) -> is_sep c = false -> is_sep d && negb (is_sep f) = false) ->
                   match var_split_from (pre ++ str1 c) r with
                   | Some (k, v) => exists k', k = (pre ++ k')%string /\ first_split (String c r) k' v
                   | None => forall k v, ~ split_of (String c r) k v
                   end).
    { intro Not. specialize (IH (pre ++ str1 c)%string).
      assert (Only : forall k v, split_of (String c r) k v -> exists k', k = String c k' /\ split_of r k' v).
      { intros k v H. apply split_cons in H. destruct H as [(d & f & t & E & A & B & C & _)|H]; [ | exact H ].
        specialize (Not d f t E A). rewrite B, C in Not. discriminate Not. }
      destruct (var_split_from (pre ++ str1 c) r) as [[k v]|].
      - destruct IH as (k' & -> & H1 & H2). exists (String c k'). split; [ rewrite app_assoc_str; reflexivity | ]. split.
        + apply split_cons. right. eauto.
        + intros k2 v2 H. destruct (Only k2 v2 H) as (k3 & -> & H3). cbn [String.length]. specialize (H2 k3 v2 H3). lia.
      - intros k v H. destruct (Only k v H) as (k' & _ & H'). exact (IH k' v H'). }
    destruct (is_sep c) eqn:Ec; [ apply Next; discriminate | ].
    destruct r as [|d [|f t]]; [ apply Next; discriminate | apply Next; discriminate | ].
    destruct (is_sep d && negb (is_sep f)) eqn:E.
    + assert (O : one_line t = true) by (apply one_line_spec; cbn [no_newline] in N; tauto).
      rewrite O. cbn [andb]. apply andb_true_iff in E. destruct E as [Ed Ef]. apply negb_true_iff in Ef.
      exists (str1 c). split; [ reflexivity | ]. split.
      * apply split_cons. left. exists d, f, t. repeat split; auto.
      * intros k' v' H. apply split_length in H. exact H.
    + cbn [andb]. apply Next. intros d' f' t' E' _. injection E' as <- <- <-. exact E.
Qed.

(** A --var argument without a newline is split at the first colon or equals sign
    that has another character on both sides; it is refused when there is none.
    Missing: arguments with newlines, see below. *)
Theorem C46_split_partial : forall s k v, no_newline s -> (var_split s = Some (k, v) <-> first_split s k v).
Proof.
  intros s k v N. unfold var_split. pose proof (var_split_from_spec s N "") as H.
  destruct (var_split_from "" s) as [[k1 v1]|].
  - destruct H as (k' & -> & H1). cbn [append]. split.
    + intro E. injection E as <- <-. exact H1.
    + intro F. destruct F as [F1 F2], H1 as [H1 H2].
      assert (L : String.length k = String.length k') by (pose proof (H2 k v F1); pose proof (F2 k' v1 H1); lia).
      assert (U : forall s k v k' v', split_of s k v -> split_of s k' v' -> String.length k = String.length k' -> k = k' /\ v = v').
      { clear. intro s. induction s as [|c r IH]; intros k v k' v' A B L; [ elim (split_nil _ _ A) | ].
        apply split_cons in A, B. destruct A as [(d & f & t & E & _ & _ & _ & -> & ->)|(k1 & -> & A)];
          destruct B as [(d' & f' & t' & E' & _ & _ & _ & -> & ->)|(k2 & -> & B)].
        - rewrite E in E'. injection E' as <- <- <-. auto.
        - apply split_length in B. cbn [String.length str1] in L. lia.
        - apply split_length in A. cbn [String.length str1] in L. lia.
        - cbn [String.length] in L. destruct (IH k1 v k2 v' A B) as [-> ->]; [ lia | auto ]. }
      destruct (U s k v k' v1 F1 H1 L) as [-> ->]. reflexivity.
  - split; [ discriminate | ]. intros [F _]. elim (H k v F).
Qed.
Print Assumptions C46_split_partial.

Theorem C46_refused_partial : forall s, no_newline s -> (var_split s = None <-> forall k v, ~ split_of s k v).
Proof.
  intros s N. split.
  - intros E k v H. unfold var_split in E. pose proof (var_split_from_spec s N "") as X. rewrite E in X. exact (X k v H).
  - intro H. destruct (var_split s) as [[k v]|] eqn:E; [ | reflexivity ]. apply (C46_split_partial s k v N) in E. destruct E as [E _]. elim (H k v E).
Qed.
Print Assumptions C46_refused_partial.

Example C46_split_ex : first_split "ns::a=b:=c" "ns::a" "b:=c" /\ (forall k v, ~ split_of "a==b" k v) /\ (forall k v, ~ split_of "a=" k v).
Proof.
  split; [ | split ].
  - apply C46_split_partial; [ | reflexivity ]. cbn [no_newline]. repeat (split; [ discriminate | ]). exact I.
  - apply C46_refused_partial; [ | reflexivity ]. cbn [no_newline]. repeat (split; [ discriminate | ]). exact I.
  - apply C46_refused_partial; [ | reflexivity ]. cbn [no_newline]. repeat (split; [ discriminate | ]). exact I.
Qed.

(** With newlines: an argument with such a separator is refused, and one is split
    at the second. *)
Theorem C46_refuted :
  (exists s k v, first_split s k v /\ var_split s = None) /\
  (exists s k v k' v', first_split s k v /\ var_split s = Some (k', v') /\ k' <> k).
Proof.
  assert (F : forall c b v, is_sep c = true -> is_sep b = false -> first_split (String "a" (String c (String b v))) "a" (String b v)).
  { intros c b v Hc Hb. apply is_sep_spec in Hc. apply is_sep_not in Hb. split; [ apply (so_here "" "a" c b v); try discriminate; tauto | ].
    intros k' v' H. apply split_length in H. exact H. }
  split.
  - exists ("a=b" ++ String c_nl "c")%string, "a", ("b" ++ String c_nl "c")%string. split; [ apply F; reflexivity | vm_compute; reflexivity ].
  - exists ("a=b=" ++ String c_nl "c")%string, "a", ("b=" ++ String c_nl "c")%string, "a=b", (String c_nl "c").
    split; [ apply F; reflexivity | ]. split; [ vm_compute; reflexivity | discriminate ].
Qed.
Print Assumptions C46_refuted.

(** Every argument, with newlines or without: it is split at the first separator
    of this kind that has no newline around it, the one character on either side
    of the separator left out; it is refused when there is none. *)
Lemma ol_cons c s k v : one_line_split (String c s) k v <->
  (exists d f t, s = String d (String f t) /\ is_sep c = false /\ is_sep d = true /\ is_sep f = false /\ no_newline t /\ k = str1 c /\ v = String f t) \/
  (exists k', k = String c k' /\ c <> c_nl /\ one_line_split s k' v).
Proof.
  split.
  - intro H. inversion H as [k0 a c0 b v0 Ha Ha' Hc Hb Hb' Nk Nv E E1 E2]; subst. destruct k0 as [|x k0].
    + left. cbn [append] in E. injection E as Ea Eb. subst a s. exists c0, b, v0. rewrite is_sep_spec, !is_sep_not. repeat split; auto.
    + right. cbn [append] in E. injection E as Ea Eb. subst x s. destruct Nk as [Nx Nk]. exists (k0 ++ String a "")%string. split; [ reflexivity | ].
      split; [ exact Nx | ]. constructor; auto.
  - intros [(d & f & t & -> & A & B & C & N & -> & ->)|(k' & -> & Nc & H)].
    + apply is_sep_not in A, C. apply is_sep_spec in B. apply (ol_here "" c d f t); try tauto. exact I.
    + inversion H as [k0 a c0 b v0 Ha Ha' Hc Hb Hb' Nk Nv E E1 E2]; subst. apply (ol_here (String c k0) a c0 b v0); auto. split; assumption.
Qed.
Lemma ol_split s k v : one_line_split s k v -> split_of s k v.
Proof. intro H. destruct H. constructor; auto. Qed.

Lemma var_split_every s : forall pre,
  match var_split_from pre s with
  | Some (k, v) => exists k', k = (pre ++ k')%string /\ one_line_split s k' v /\
                     forall k2 v2, one_line_split s k2 v2 -> String.length k' <= String.length k2
  | None => forall k v, ~ one_line_split s k v
  end.
Proof.
  induction s as [|c r IH]; intro pre.
  - cbn [var_split_from]. intros k v H. exact (split_nil k v (ol_split _ _ _ H)).
  - cbn [var_split_from].
    assert (Next : (forall d f t, r = String d (String f t) -> is_sep c = false -> is_sep d && negb (is_sep f) && one_line t = false) ->
                   match (if ceq c c_nl then None else var_split_from (pre ++ str1 c) r) with
                   | Some (k, v) => exists k', k = (pre ++ k')%string /\ one_line_split (String c r) k' v /\
                                      forall k2 v2, one_line_split (String c r) k2 v2 -> String.length k' <= String.length k2
                   | None => forall k v, ~ one_line_split (String c r) k v
                   end).
    { intro Not. specialize (IH (pre ++ str1 c)%string).
      assert (Only : forall k v, one_line_split (String c r) k v -> exists k', k = String c k' /\ c <> c_nl /\ one_line_split r k' v).
      { intros k v H. apply ol_cons in H. destruct H as [(d & f & t & E & A & B & C & N & _)|H]; [ | exact H ].
        specialize (Not d f t E A). apply one_line_spec in N. rewrite B, C, N in Not. discriminate Not. }
      destruct (ceq c c_nl) eqn:Enl.
      { apply Ascii.eqb_eq in Enl. intros k v H. destruct (Only k v H) as (k' & _ & Nc & _). exact (Nc Enl). }
      apply Ascii.eqb_neq in Enl.
      destruct (var_split_from (pre ++ str1 c) r) as [[k v]|].
      - destruct IH as (k' & -> & H1 & H2). exists (String c k'). split; [ rewrite app_assoc_str; reflexivity | ]. split.
        + apply ol_cons. right. eauto.
        + intros k2 v2 H. destruct (Only k2 v2 H) as (k3 & -> & _ & H3). cbn [String.length]. specialize (H2 k3 v2 H3). lia.
      - intros k v H. destruct (Only k v H) as (k' & _ & _ & H'). exact (IH k' v H'). }
    destruct (is_sep c) eqn:Ec; [ apply Next; discriminate | ].
    destruct r as [|d [|f t]]; [ apply Next; discriminate | apply Next; discriminate | ].
    destruct (is_sep d && negb (is_sep f) && one_line t) eqn:E.
    + apply andb_true_iff in E. destruct E as [E O]. apply andb_true_iff in E. destruct E as [Ed Ef]. apply negb_true_iff in Ef.
      apply one_line_spec in O.
      exists (str1 c). split; [ reflexivity | ]. split.
      * apply ol_cons. left. exists d, f, t. repeat split; auto.
      * intros k' v' H. apply ol_split, split_length in H. exact H.
    + apply Next. intros d' f' t' E' _. injection E' as <- <- <-. exact E.
Qed.

Lemma split_same s : forall k v k' v', split_of s k v -> split_of s k' v' -> String.length k = String.length k' -> k = k' /\ v = v'.
Proof.
  induction s as [|c r IH]; intros k v k' v' A B L; [ elim (split_nil _ _ A) | ].
  apply split_cons in A, B. destruct A as [(d & f & t & E & _ & _ & _ & -> & ->)|(k1 & -> & A)];
    destruct B as [(d' & f' & t' & E' & _ & _ & _ & -> & ->)|(k2 & -> & B)].
  - rewrite E in E'. injection E' as <- <- <-. auto.
  - apply split_length in B. cbn [String.length str1] in L. lia.
  - apply split_length in A. cbn [String.length str1] in L. lia.
  - cbn [String.length] in L. destruct (IH k1 v k2 v' A B) as [-> ->]; [ lia | auto ].
Qed.

Theorem C46_every_argument : forall s,
  (forall k v, var_split s = Some (k, v) <->
     one_line_split s k v /\ forall k' v', one_line_split s k' v' -> String.length k <= String.length k') /\
  (var_split s = None <-> forall k v, ~ one_line_split s k v).
Proof.
  intro s. unfold var_split. pose proof (var_split_every s "") as H. destruct (var_split_from "" s) as [[k1 v1]|].
  - destruct H as (k' & -> & H1 & H2). cbn [append]. split.
    + intros k v. split.
      * intro E. injection E as <- <-. split; [ exact H1 | exact H2 ].
      * intros [F1 F2].
        assert (L : String.length k = String.length k') by (pose proof (H2 k v F1); pose proof (F2 k' v1 H1); lia).
        destruct (split_same s k v k' v1 (ol_split _ _ _ F1) (ol_split _ _ _ H1) L) as [-> ->]. reflexivity.
    + split; [ discriminate | ]. intro F. elim (F k' v1 H1).
  - split.
    + intros k v. split; [ discriminate | ]. intros [F _]. elim (H k v F).
    + split; [ intros _; exact H | reflexivity ].
Qed.
Print Assumptions C46_every_argument.

(** A name that ends with a newline, a value that starts with one, and one where
    the newline is further away. *)
Example C46_every_argument_ex :
  one_line_split ("a" ++ String c_nl ("=" ++ String c_nl "b:c")) ("a" ++ String c_nl "") (String c_nl "b:c") /\
  var_split ("a" ++ String c_nl ("=" ++ String c_nl "b:c")) = Some ("a" ++ String c_nl "", String c_nl "b:c")%string /\
  (forall k v, ~ one_line_split ("a" ++ String c_nl "b=c") k v).
Proof.
  split; [ | split; [ vm_compute; reflexivity | ] ].
  - apply (ol_here "a" c_nl "=" c_nl "b:c"); try discriminate; [ now right | cbn; repeat split; discriminate | cbn; repeat split; discriminate ].
  - apply (proj1 (proj2 (C46_every_argument _))). vm_compute. reflexivity.
Qed.

(** ** C45 *)

Section Scope.
  Variable parse : string -> outcome value.
  Variable file : string -> var_file.

  Lemma has_prefix_char c s : has_prefix (str1 c) s = true <-> exists r, s = String c r.
  Proof.
    rewrite has_prefix_app. split; intros [r ->]; exists r; reflexivity.
  Qed.

  Lemma command_value_ok t v : parse_command_line_value parse t = Ok v <-> command_value parse t v.
  Proof.
    unfold parse_command_line_value.
    destruct (has_prefix "{" (trim_space t) || has_prefix "[" (trim_space t) || has_prefix """" (trim_space t) || has_prefix "'" (trim_space t)) eqn:P.
    - rewrite !orb_true_iff in P. split.
      + intro E. assert (C : exists c r, trim_space t = String c r /\ (c = "{"%char \/ c = "["%char \/ c = """"%char \/ c = "'"%char)).
        { destruct P as [[[P|P]|P]|P].
          - apply (has_prefix_char "{") in P. destruct P as [r P]. eauto 6.
          - apply (has_prefix_char "[") in P. destruct P as [r P]. eauto 6.
          - apply (has_prefix_char """") in P. destruct P as [r P]. eauto 8.
          - apply (has_prefix_char "'") in P. destruct P as [r P]. eauto 8. }
        destruct C as (c & r & C1 & C2). exact (cv_parsed parse t c r v C1 C2 E).
      + intro K; inversion K as [t' H|t' c r v' H H0 H1]; subst; [ exfalso | exact H1 ].
        destruct P as [[[P|P]|P]|P]; [ apply (has_prefix_char "{") in P | apply (has_prefix_char "[") in P | apply (has_prefix_char """") in P | apply (has_prefix_char "'") in P ];
          destruct P as [r P]; destruct (H _ _ P) as (A & B & C & D); congruence.
    - rewrite !orb_false_iff in P. destruct P as [[[P1 P2] P3] P4].
      assert (N : forall c r, trim_space t = String c r -> c <> "{"%char /\ c <> "["%char /\ c <> """"%char /\ c <> "'"%char).
      { intros c r E. repeat split; intros ->.
        - assert (X : has_prefix "{" (trim_space t) = true) by (apply (has_prefix_char "{"); eauto). congruence.
        - assert (X : has_prefix "[" (trim_space t) = true) by (apply (has_prefix_char "["); eauto). congruence.
        - assert (X : has_prefix """" (trim_space t) = true) by (apply (has_prefix_char """"); eauto). congruence.
        - assert (X : has_prefix "'" (trim_space t) = true) by (apply (has_prefix_char "'"); eauto). congruence. }
      split.
      + intro E. injection E as <-. constructor. exact N.
      + intro K; inversion K as [t' H|t' c r v' H H0 H1]; subst; [ reflexivity | ]. destruct (N c r H) as (A & B & C & D). tauto.
  Qed.

  Lemma command_value_fun t v v' : command_value parse t v -> command_value parse t v' -> v = v'.
  Proof. rewrite <- !command_value_ok. congruence. Qed.

  Lemma add_variables_spec vars : forall m m', add_variables parse vars m = Ok m' <->
    exists defs, Forall2 (defines parse) vars defs /\ m' = fold_left (fun acc d => mput (VStr (fst d)) (snd d) acc) defs m.
  Proof.
    induction vars as [|e r IH]; intros m m'; cbn [add_variables].
    - split.
      + intro E. injection E as <-. exists []. split; [ constructor | reflexivity ].
      + intros (defs & F & ->). inversion F. reflexivity.
    - destruct (var_split e) as [[k t]|] eqn:E.
      + split.
        * intro X. destruct (parse_command_line_value parse t) as [x|err| |] eqn:P; try discriminate X. cbn [obind] in X.
          apply IH in X. destruct X as (defs & F & ->). exists ((trim_space k, x) :: defs). split; [ | reflexivity ].
          constructor; [ | exact F ]. exists k, t, x. split; [ exact E | ]. split; [ apply command_value_ok, P | reflexivity ].
        * intros (defs & F & ->). inversion F as [|? d ? ds (k' & t' & x & E' & C & ->) F']; subst. rewrite E in E'. injection E' as <- <-.
          apply command_value_ok in C. rewrite C. cbn [obind]. apply IH. exists ds. split; [ exact F' | reflexivity ].
      + split; [ discriminate | ]. intros (defs & F & ->). inversion F as [|? d ? ds (k' & t' & x & E' & C & ->) F']; subst. congruence.
  Qed.

  Lemma add_var_paths_spec paths : forall stdin m m' s', add_var_paths file paths stdin m = Ok (m', s') <->
    exists l, reads file stdin paths l s' /\ m' = fold_left mputall l m.
  Proof.
    induction paths as [|p r IH]; intros stdin m m' s'; cbn [add_var_paths].
    - split.
      + intro E. injection E as <- <-. exists []. split; [ constructor | reflexivity ].
      + intros (l & F & ->). inversion F; subst. reflexivity.
    - destruct (String.eqb p "-") eqn:Ep.
      + apply String.eqb_eq in Ep. subst p. destruct stdin as [e| |d|].
        * split; [ discriminate | ]. intros (l & F & ->). inversion F; subst; congruence.
        * rewrite IH. split.
          -- intros (l & F & ->). exists l. split; [ apply rd_stdin_empty, F | reflexivity ].
          -- intros (l & F & ->). inversion F; subst; try congruence. exists l. split; [ assumption | reflexivity ].
        * rewrite IH. split.
          -- intros (l & F & ->). exists (d :: l). split; [ apply rd_stdin, F | reflexivity ].
          -- intros (l & F & ->). inversion F; subst; try congruence. eexists. split; [ eassumption | reflexivity ].
        * split; [ discriminate | ]. intros (l & F & ->). inversion F; subst; congruence.
      + apply String.eqb_neq in Ep. destruct (file p) as [e| |d|] eqn:Ef.
        * split; [ discriminate | ]. intros (l & F & ->). inversion F; subst; congruence.
        * rewrite IH. split.
          -- intros (l & F & ->). exists l. split; [ apply rd_file_empty; assumption | reflexivity ].
          -- intros (l & F & ->). inversion F; subst; try congruence. exists l. split; [ assumption | reflexivity ].
        * rewrite IH. split.
          -- intros (l & F & ->). exists (d :: l). split; [ apply rd_file; assumption | reflexivity ].
          -- intros (l & F & ->). inversion F as [| | |? ? m2 ? l2 ? N2 F2 R2|]; subst; try congruence.
             rewrite Ef in F2. injection F2 as <-. eexists. split; [ eassumption | reflexivity ].
        * split; [ discriminate | ]. intros (l & F & ->). inversion F; subst; congruence.
  Qed.

  Lemma fold_mputall_wf l : forall m, wfm m -> Forall wfm l -> wfm (fold_left mputall l m).
  Proof.
    induction l as [|a l IH]; intros m W F; [ exact W | ]. inversion F; subst. cbn [fold_left]. apply IH; [ | assumption ]. apply mputall_wf; assumption.
  Qed.

  Lemma mget_fold l m k : wfm m -> Forall wfm l -> wf k = true ->
    (exists v, last_map l k v /\ mget k (fold_left mputall l m) = Some v) \/
    (in_no_map l k /\ mget k (fold_left mputall l m) = mget k m).
  Proof.
    intros W F K. induction l as [|a l IH] using rev_ind.
    - right. split; [ constructor | reflexivity ].
    - apply Forall_app in F. destruct F as [F Fa]. inversion Fa as [|? ? Wa _]; subst. specialize (IH F).
      rewrite fold_left_app. cbn [fold_left]. rewrite mget_mputall; [ | apply fold_mputall_wf; assumption | exact Wa | exact K ].
      destruct (mget k a) as [v|] eqn:E.
      + left. exists v. split; [ | reflexivity ]. exists l, a, []. split; [ reflexivity | ]. split; [ exact E | constructor ].
      + destruct IH as [(v & (x & y & z & -> & H1 & H2) & H3)|[H1 H2]].
        * left. exists v. split; [ | exact H3 ]. exists x, y, (z ++ [a]). rewrite <- app_assoc. split; [ reflexivity | ]. split; [ exact H1 | ].
          apply Forall_app. split; [ exact H2 | repeat constructor; exact E ].
        * right. split; [ | exact H2 ]. apply Forall_app. split; [ exact H1 | repeat constructor; exact E ].
  Qed.

  Lemma last_map_fun l k v v' : last_map l k v -> last_map l k v' -> v = v'.
  Proof.
    intros (a & m & b & -> & H1 & H2). revert a. refine (rev_ind (fun b => Forall (fun m' => mget k m' = None) b -> forall a, last_map (a ++ m :: b) k v' -> v = v') _ _ b H2).
    - intros _ a (a' & m' & b' & E & G1 & G2). destruct b' as [|z b'] using rev_ind.
      + apply app_inj_tail in E. destruct E as [_ <-]. congruence.
      + clear IHb'. change (m' :: b' ++ [z]) with ((m' :: b') ++ [z]) in E. rewrite app_assoc in E. apply app_inj_tail in E. destruct E as [_ <-].
        apply Forall_app in G2. destruct G2 as [_ G2]. inversion G2; subst. congruence.
    - intros x l IH F a (a' & m' & b' & E & G1 & G2). apply Forall_app in F. destruct F as [F Fx]. inversion Fx as [|? ? Ex _]; subst.
      destruct b' as [|z b'] using rev_ind.
      + change (a ++ m :: l ++ [x]) with (a ++ (m :: l) ++ [x]) in E. rewrite app_assoc in E. apply app_inj_tail in E. destruct E as [_ <-]. congruence.
      + clear IHb'. change (a ++ m :: l ++ [x]) with (a ++ (m :: l) ++ [x]) in E. change (m' :: b' ++ [z]) with ((m' :: b') ++ [z]) in E.
        rewrite !app_assoc in E. apply app_inj_tail in E. destruct E as [E <-]. apply (IH F a). exists a', m', b'.
        split; [ exact E | ]. split; [ exact G1 | ]. apply Forall_app in G2. apply G2.
  Qed.

  Lemma mgets_defs defs m x :
    (exists v, last_def defs x v /\ mgets x (fold_left (fun acc d => mput (VStr (fst d)) (snd d) acc) defs m) = Some v) \/
    (not_defined defs x /\ mgets x (fold_left (fun acc d => mput (VStr (fst d)) (snd d) acc) defs m) = mgets x m).
  Proof.
    induction defs as [|[k w] l IH] using rev_ind.
    - right. split; [ intros v [] | reflexivity ].
    - rewrite fold_left_app. cbn [fold_left fst snd]. rewrite P_Api.mgets_mput. destruct (String.eqb x k) eqn:E.
      + apply String.eqb_eq in E. subst k. left. exists w. split; [ | reflexivity ]. exists l, []. split; [ reflexivity | intros v' [] ].
      + apply String.eqb_neq in E. destruct IH as [(v & (a & b & -> & H1) & H3)|[H1 H2]].
        * left. exists v. split; [ | exact H3 ]. exists a, (b ++ [(k, w)]). rewrite <- app_assoc. split; [ reflexivity | ].
          intros v' I. apply in_app_or in I. destruct I as [I|[I|[]]]; [ exact (H1 v' I) | congruence ].
        * right. split; [ | exact H2 ]. intros v I. apply in_app_or in I. destruct I as [I|[I|[]]]; [ exact (H1 v I) | congruence ].
  Qed.

  Lemma defs_wf defs : forall m, wfm m -> Forall (fun d => wf (snd d) = true) defs -> wfm (fold_left (fun acc d => mput (VStr (fst d)) (snd d) acc) defs m).
  Proof.
    induction defs as [|d l IH]; intros m W F; [ exact W | ]. inversion F; subst. cbn [fold_left]. apply IH; [ | assumption ].
    apply mput_wf; [ exact W | reflexivity | assumption ].
  Qed.

  (** Values that are parsed, and maps that are read, are well-formed: no map has
      a key twice. *)
  Hypothesis parse_wf : forall t v, parse t = Ok v -> wf v = true.
  Hypothesis file_wf : forall p m, file p = VfMap m -> wfm m.

  Lemma reads_wf stdin paths l s' : (forall m, stdin = VfMap m -> wfm m) -> reads file stdin paths l s' ->
    Forall wfm l /\ (forall m, s' = VfMap m -> wfm m).
  Proof.
    intros W R. induction R as [s|m r l s' R IH|r l s' R IH|s p m r l s' N E R IH|s p r l s' N E R IH].
    - auto.
    - destruct IH as [A B]; [ discriminate | ]. auto.
    - destruct IH as [A B]; [ discriminate | ]. auto.
    - destruct (IH W) as [A B]. split; [ constructor; eauto | exact B ].
    - exact (IH W).
  Qed.

  (** When the arguments and files can be used there is a scope, in which, with
      the scope of the session below it, each variable has the value of the last
      facts file that has it, else of the last vars file, else of the last --var,
      else of the session; and facts has all facts when there is a facts file.
      Otherwise there is none. *)
  Theorem C45_variables : forall vars var_paths fact_paths stdin,
    (forall m, stdin = VfMap m -> wfm m) ->
    forall m, create_scope parse file vars var_paths fact_paths stdin = Ok m ->
    exists defs vs fs s1 s2,
      Forall2 (defines parse) vars defs /\ reads file stdin var_paths vs s1 /\ reads file s1 fact_paths fs s2 /\
      forall session x, variable_is (match fact_paths with [] => None | _ => Some fs end) vs defs session x (scope_get (ScNest session m) x).
  Proof.
    intros vars vp fp stdin Ws m E. unfold create_scope in E.
    destruct (add_variables parse vars []) as [m1|e| |] eqn:E1; try discriminate E. cbn [obind] in E.
    destruct (add_var_paths file vp stdin m1) as [[m2 s1]|e| |] eqn:E2; try discriminate E. cbn [obind fst snd] in E.
    apply add_variables_spec in E1. destruct E1 as (defs & D & E1). apply add_var_paths_spec in E2. destruct E2 as (vs & R & E2).
    destruct (reads_wf stdin vp vs s1 Ws R) as [Wv Ws1].
    assert (Wd : Forall (fun d => wf (snd d) = true) defs).
    { clear - D parse_wf. induction D as [|e d vars defs (k & t & v & _ & C & ->) D IH]; constructor; [ | exact IH ]. cbn [snd].
      destruct C as [t' H|t' c r v' H H0 H1]; [ reflexivity | eauto ]. }
    assert (W1 : wfm m1) by (subst m1; apply defs_wf; [ exact wfm_nil | exact Wd ]).
    assert (W2 : wfm m2) by (subst m2; apply fold_mputall_wf; assumption).
    (* the variables without the facts *)
    assert (V2 : forall x, (exists v, last_map vs (VStr x) v /\ mgets x m2 = Some v) \/
                           (in_no_map vs (VStr x) /\ exists v, last_def defs x v /\ mgets x m2 = Some v) \/
                           (in_no_map vs (VStr x) /\ not_defined defs x /\ mgets x m2 = None)).
    { intro x. destruct (mget_fold vs m1 (VStr x) W1 Wv eq_refl) as [(v & H1 & H2)|[H1 H2]].
      - left. exists v. split; [ exact H1 | ]. subst m2. exact H2.
      - right. destruct (mgets_defs defs [] x) as [(v & H3 & H4)|[H3 H4]].
        + left. split; [ exact H1 | ]. exists v. split; [ exact H3 | ]. subst m2. unfold mgets. rewrite H2. subst m1. exact H4.
        + right. split; [ exact H1 | ]. split; [ exact H3 | ]. subst m2. unfold mgets. rewrite H2. subst m1. exact H4. }
    destruct fp as [|f0 fp].
    - injection E as <-. exists defs, vs, [], s1, s1. split; [ exact D | ]. split; [ exact R | ]. split; [ constructor | ].
      intros session x. cbn [scope_get]. destruct (V2 x) as [(v & H1 & H2)|[(H0 & v & H1 & H2)|(H0 & H1 & H2)]]; rewrite H2.
      + apply vi_var; [ right; reflexivity | discriminate | exact H1 ].
      + apply vi_def; [ right; reflexivity | discriminate | exact H0 | exact H1 ].
      + apply vi_session; [ right; reflexivity | discriminate | exact H0 | exact H1 ].
    - destruct (add_var_paths file (f0 :: fp) s1 []) as [[fm s2]|e| |] eqn:E3; try discriminate E. cbn [obind fst] in E. injection E as <-.
      apply add_var_paths_spec in E3. destruct E3 as (fs & R3 & E3). destruct (reads_wf s1 _ fs s2 Ws1 R3) as [Wf _].
      assert (W3 : wfm fm) by (subst fm; apply fold_mputall_wf; [ exact wfm_nil | exact Wf ]).
      exists defs, vs, fs, s1, s2. split; [ exact D | ]. split; [ exact R | ]. split; [ exact R3 | ].
      intros session x. cbn [scope_get]. rewrite P_Api.mgets_mput. destruct (String.eqb x "facts") eqn:X.
      + apply String.eqb_eq in X. apply vi_facts with (fs := fs); [ exact X | reflexivity | ]. intros k v Wk.
        destruct (mget_fold fs [] k wfm_nil Wf Wk) as [(w & H1 & H2)|[H1 H2]]; rewrite <- E3 in H2.
        * rewrite H2. split; [ intro Y; injection Y as <-; exact H1 | intro Y; f_equal; exact (last_map_fun fs k w v H1 Y) ].
        * rewrite H2. split; [ discriminate | ]. intros (a & q & b & -> & Y1 & _). apply Forall_app in H1. destruct H1 as [_ H1]. inversion H1; subst. congruence.
      + apply String.eqb_neq in X. unfold mgets. rewrite mget_mputall; [ | exact W2 | exact W3 | reflexivity ].
        destruct (mget_fold fs [] (VStr x) wfm_nil Wf eq_refl) as [(w & H1 & H2)|[H1 H2]]; rewrite <- E3 in H2; rewrite H2; cbn [mget].
        * apply vi_fact with (fs := fs); [ exact X | reflexivity | exact H1 ].
        * assert (N : forall fs', Some fs = Some fs' -> in_no_map fs' (VStr x)) by (intros fs' Y; injection Y as <-; exact H1).
          fold (mgets x m2). destruct (V2 x) as [(v & H3 & H4)|[(H0 & v & H3 & H4)|(H0 & H3 & H4)]]; rewrite H4.
          -- apply vi_var; [ left; exact X | exact N | exact H3 ].
          -- apply vi_def; [ left; exact X | exact N | exact H0 | exact H3 ].
          -- apply vi_session; [ left; exact X | exact N | exact H0 | exact H3 ].
  Qed.

  (** The scope can be made exactly when every --var argument defines a variable
      and every file can be read, is empty or has a map. *)
  Theorem C45_accepted : forall vars var_paths fact_paths stdin,
    (exists m, create_scope parse file vars var_paths fact_paths stdin = Ok m) <->
    exists defs vs fs s1 s2, Forall2 (defines parse) vars defs /\ reads file stdin var_paths vs s1 /\ reads file s1 fact_paths fs s2.
  Proof.
    intros vars vp fp stdin. unfold create_scope. split.
    - intros (m & E). destruct (add_variables parse vars []) as [m1|e| |] eqn:E1; try discriminate E. cbn [obind] in E.
      destruct (add_var_paths file vp stdin m1) as [[m2 s1]|e| |] eqn:E2; try discriminate E. cbn [obind fst snd] in E.
      apply add_variables_spec in E1. destruct E1 as (defs & D & _). apply add_var_paths_spec in E2. destruct E2 as (vs & R & _).
      destruct fp as [|f0 fp]; [ exists defs, vs, [], s1, s1; repeat split; auto; constructor | ].
      destruct (add_var_paths file (f0 :: fp) s1 []) as [[fm s2]|e| |] eqn:E3; try discriminate E.
      apply add_var_paths_spec in E3. destruct E3 as (fs & R3 & _). exists defs, vs, fs, s1, s2. auto.
    - intros (defs & vs & fs & s1 & s2 & D & R & R3).
      rewrite (proj2 (add_variables_spec vars [] _) (ex_intro _ defs (conj D eq_refl))). cbn [obind].
      rewrite (proj2 (add_var_paths_spec vp stdin _ _ s1) (ex_intro _ vs (conj R eq_refl))). cbn [obind fst snd].
      destruct fp as [|f0 fp]; [ eauto | ].
      rewrite (proj2 (add_var_paths_spec (f0 :: fp) s1 [] _ s2) (ex_intro _ fs (conj R3 eq_refl))). cbn [obind]. eauto.
  Qed.
End Scope.
Print Assumptions C45_variables.
Print Assumptions C45_accepted.

(** Two facts files, one on the standard input, which is then read twice; a vars
    file; --var arguments, one of them twice. *)
Definition ex_file (p : string) : var_file :=
  if String.eqb p "v.yaml" then VfMap [(VStr "b", VInt 2); (VStr "c", VInt 3)]
  else if String.eqb p "f.yaml" then VfMap [(VStr "c", VInt 4)]
  else if String.eqb p "empty" then VfEmpty else VfError "no such file".
Definition ex_parse (t : string) : outcome value := if String.eqb t "[1]" then Ok (VArr [VInt 1]) else Panic (EErr "syntax").
Example C45_ex : exists m, create_scope ex_parse ex_file ["a= [1]"; "b=x"; "a:y"; "ns::z : 1=2"] ["v.yaml"; "empty"] ["-"; "f.yaml"; "-"]
                             (VfMap [(VStr "d", VInt 5); (VStr "c", VInt 6)]) = Ok m /\
  scope_get (ScNest (ScMap [(VStr "s", VInt 7); (VStr "a", VInt 8)]) m) "a" = Some (VStr "y") /\
  scope_get (ScNest (ScMap [(VStr "s", VInt 7)]) m) "ns::z" = Some (VStr "1=2") /\
  scope_get (ScNest (ScMap [(VStr "s", VInt 7)]) m) "b" = Some (VInt 2) /\
  scope_get (ScNest (ScMap [(VStr "s", VInt 7)]) m) "c" = Some (VInt 4) /\
  scope_get (ScNest (ScMap [(VStr "s", VInt 7)]) m) "s" = Some (VInt 7) /\
  scope_get (ScNest (ScMap [(VStr "s", VInt 7)]) m) "facts" = Some (VMap [(VStr "d", VInt 5); (VStr "c", VInt 4)]).
Proof. eexists. repeat split; vm_compute; reflexivity. Qed.
Example C45_hypotheses_ex : (forall t v, ex_parse t = Ok v -> wf v = true) /\ (forall p m, ex_file p = VfMap m -> wfm m).
Proof.
  split.
  - intros t v. unfold ex_parse. destruct (String.eqb t "[1]"); [ | discriminate ]. intro E. injection E as <-. reflexivity.
  - intros p m. unfold ex_file. destruct (String.eqb p "v.yaml"); [ intro E; injection E as <-; reflexivity | ].
    destruct (String.eqb p "f.yaml"); [ intro E; injection E as <-; reflexivity | ]. destruct (String.eqb p "empty"); discriminate.
Qed.
Example C45_refused_ex : ~ exists m, create_scope ex_parse ex_file ["a==b"] [] [] VfEmpty = Ok m.
Proof. intros (m & E). discriminate E. Qed.

(** ** C54 *)

Section Kill.
  Context {S X : Type}.
  Variable new : M S X.
  Variable kill : X -> M S unit.

  (** The consumer is done, whatever its outcome, and then the plugins are killed;
      the outcome stays the one of the consumer. *)
  Theorem C54_do : forall consumer s x s1 o s2 s3,
    new s = (Ok x, s1) -> consumer x s1 = (o, s2) -> (o = Ok tt \/ exists e, o = Panic e) -> kill x s2 = (Ok tt, s3) ->
    do_with_parent new kill consumer s = (o, s3).
  Proof.
    intros consumer s x s1 o s2 s3 E1 E2 H E3. unfold do_with_parent, bind, deferred. rewrite E1, E2.
    destruct H as [->|[e ->]]; rewrite E3; reflexivity.
  Qed.

  (** The same for TryWithParent; the error is nil exactly when the consumer
      returned nil. *)
  Theorem C54_try : forall consumer s x s1 o s2 s3,
    new s = (Ok x, s1) -> consumer x s1 = (o, s2) -> kill x s2 = (Ok tt, s3) ->
    (o = Ok None -> try_with_parent new kill consumer s = (Ok None, s3)) /\
    (forall m, o = Ok (Some m) -> try_with_parent new kill consumer s = (Ok (Some (EErr m)), s3)) /\
    (forall m, o = Panic (EErr m) -> try_with_parent new kill consumer s = (Ok (Some (EErr m)), s3)) /\
    (forall m, o = Panic (EStr m) -> try_with_parent new kill consumer s = (Ok (Some (EStr m)), s3)) /\
    (o = Panic EOther -> try_with_parent new kill consumer s = (Panic EOther, s3)).
  Proof.
    intros consumer s x s1 o s2 s3 E1 E2 E3. unfold try_with_parent, bind, deferred, catch. rewrite E1. cbv beta iota. rewrite E2.
    repeat split; intros; subst o; cbn [panic ret]; unfold panic, ret; rewrite E3; reflexivity.
  Qed.

  (** How often the plugins of the session are killed: once, whatever the consumer
      does, or never when there is no session. *)
  Theorem C54_once : forall (killed : S -> nat) s,
    (forall q, killed (snd (new q)) = killed q) ->
    (forall x q, exists q', kill x q = (Ok tt, q') /\ killed q' = 1 + killed q) ->
    (forall consumer o s', (forall x q, killed (snd (consumer x q)) = killed q) ->
       do_with_parent new kill consumer s = (o, s') -> (o = Ok tt \/ exists e, o = Panic e) ->
       (exists x q, new s = (Ok x, q)) /\ killed s' = 1 + killed s \/ (forall x q, new s <> (Ok x, q)) /\ killed s' = killed s) /\
    (forall consumer o s', (forall x q, killed (snd (consumer x q)) = killed q) ->
       try_with_parent new kill consumer s = (o, s') -> (exists y, o = Ok y) \/ (exists e, o = Panic e) ->
       (exists x q, new s = (Ok x, q)) /\ killed s' = 1 + killed s \/ (forall x q, new s <> (Ok x, q)) /\ killed s' = killed s).
  Proof.
    intros killed s Hn Hk. split.
    - intros consumer o s' Hc E T. unfold do_with_parent, bind in E. specialize (Hn s).
      destruct (new s) as [[x|e| |] s1]; cbn [snd] in Hn.
      + left. split; [ eauto | ]. unfold deferred in E. specialize (Hc x s1). destruct (consumer x s1) as [o2 s2]. cbn [snd] in Hc.
        destruct (Hk x s2) as (s3 & K & Kn). rewrite K in E.
        destruct o2 as [u|e| |]; injection E as <- <-; try lia; destruct T as [T|[e T]]; discriminate T.
      + right. split; [ discriminate | ]. injection E as <- <-. exact Hn.
      + right. split; [ discriminate | ]. injection E as <- <-. exact Hn.
      + right. split; [ discriminate | ]. injection E as <- <-. exact Hn.
    - intros consumer o s' Hc E T. unfold try_with_parent, catch, bind in E. specialize (Hn s).
      destruct (new s) as [[x|e| |] s1]; cbn [snd] in Hn.
      + left. split; [ eauto | ]. unfold deferred in E. specialize (Hc x s1). destruct (consumer x s1) as [o2 s2]. cbn [snd] in Hc.
        destruct (Hk x s2) as (s3 & K & Kn). destruct o2 as [[m|]|e| |]; cbn [panic ret] in E; try rewrite K in E; try (injection E as _ <-; lia);
          cbn in E; injection E as <- <-; destruct T as [[y T]|[e T]]; discriminate T.
      + right. split; [ discriminate | ]. injection E as _ <-. exact Hn.
      + right. split; [ discriminate | ]. injection E as _ <-. exact Hn.
      + right. split; [ discriminate | ]. injection E as _ <-. exact Hn.
  Qed.
End Kill.
Print Assumptions C54_do.
Print Assumptions C54_try.
Print Assumptions C54_once.

(** A consumer that fails, one that panics, and no session. *)
Definition count_new (ok : bool) : M nat string := fun s => (if ok then Ok "session" else Panic (EErr "no directory"), s).
Definition count_kill (x : string) : M nat unit := fun s => (Ok tt, 1 + s).
Example C54_ex :
  try_with_parent (count_new true) count_kill (fun _ => ret (Some "failed")) 3 = (Ok (Some (EErr "failed")), 4) /\
  try_with_parent (count_new true) count_kill (fun _ => ret None) 3 = (Ok None, 4) /\
  try_with_parent (count_new false) count_kill (fun _ => ret None) 3 = (Ok (Some (EErr "no directory")), 3) /\
  do_with_parent (count_new true) count_kill (fun _ => panic EOther) 3 = (Panic EOther, 4).
Proof.
  split; [ | split; [ | split ] ].
  - apply (proj1 (proj2 (C54_try (count_new true) count_kill (fun _ => ret (Some "failed")) 3 "session" 3 (Ok (Some "failed")) 3 4 eq_refl eq_refl eq_refl))). reflexivity.
  - apply (proj1 (C54_try (count_new true) count_kill (fun _ => ret None) 3 "session" 3 (Ok None) 3 4 eq_refl eq_refl eq_refl)). reflexivity.
  - reflexivity.
  - apply (C54_do (count_new true) count_kill (fun _ => panic EOther) 3 "session" 3 (Panic EOther) 3 4 eq_refl eq_refl); [ eauto | reflexivity ].
Qed.
Example C54_once_ex : exists o s', do_with_parent (count_new true) count_kill (fun _ => ret tt) 3 = (o, s') /\ s' = 4.
Proof.
  eexists; eexists. split; [ reflexivity | ].
  destruct (proj1 (C54_once (count_new true) count_kill (fun n => n) 3 (fun _ => eq_refl) (fun x q => ex_intro _ (1 + q) (conj eq_refl eq_refl)))
              (fun _ => ret tt) (Ok tt) 4 (fun _ _ => eq_refl) eq_refl (or_introl eq_refl)) as [[_ E]|[N _]].
  - exact E.
  - elim (N "session" 3 eq_refl).
Qed.

(** ** C55 *)

(** The command looks up one name, without a default, a type or an explanation. *)
Definition plain_command (merge render_as : string) (vars : list string) : command_options :=
  mk_command "" merge None [] [] vars render_as false false false.

Section Command.
  Context {T : Type}.
  Variable inst : T -> option value -> bool.
  Variable conv : T -> option value -> outcome (option value).
  Variable any : T.
  Variable parse_type : string -> outcome T.
  Variable struct_of : T -> option (list (string * T)).
  Variable parse : string -> outcome value.
  Variable file : string -> var_file.
  Variable render : string -> value -> outcome string.
  Variable render_explainer : string -> M st string.
  Hypothesis any_instance : forall v, inst any v = true.

  (** The command in a new session. *)
  Definition command (w : world) (n : nat) (session_scope : scope) (opts : command_options) (name : string) : outcome (bool * string) :=
    fst (lookup_and_render inst conv any parse_type struct_of parse file VfEmpty (engine_invoke session_scope) (engine_ask w n)
           render render_explainer opts [name] (init_st session_scope None)).

  (** The rendering: yaml unless another is given. *)
  Definition shown_as (render_as : string) : string := if String.eqb render_as "" then "yaml" else render_as.

  Lemma command_is w n ssc merge ra vars name sc : create_scope parse file vars [] [] VfEmpty = Ok sc ->
    command w n ssc (plain_command merge ra vars) name
    = obind (new_key name) (fun k =>
      obind (fst (run_lookup w n k (if String.eqb merge "" || String.eqb merge "first" then None else Some [(VStr "merge", VStr merge)])
                    (init_st (ScNest ssc sc) None))) (fun o =>
      match o with None => Ok (false, "") | Some v => omap (fun out => (true, out)) (render (shown_as ra) v) end)).
  Proof.
    intro E. unfold command, lookup_and_render, plain_command.
    cbn [co_type co_merge co_default co_fact_paths co_var_paths co_variables co_render_as co_explain_data co_explain_options co_lookup_all].
    rewrite E. unfold lift, bind at 1, ret. cbn [String.eqb]. cbv iota. unfold bind at 1. unfold bind at 1.
    cbn [orb]. unfold bind at 1. unfold engine_invoke. change (invocation (ScNest ssc sc) false (init_st ssc None)) with (init_st (ScNest ssc sc) None).
    set (os := (if String.eqb merge "" || String.eqb merge "first" then None else Some [(VStr "merge", VStr merge)]) : option entries).
    unfold lookup2, lookup_in_map. unfold bind at 1. unfold bind at 1. cbn [ask_each]. unfold bind at 1. unfold engine_ask at 1. unfold bind at 1. unfold lift at 1.
    destruct (new_key name) as [k|e| |]; cbn [obind]; try reflexivity.
    destruct (run_lookup w n k os (init_st (ScNest ssc sc) None)) as [[[v|]|e| |] s1]; cbn [fst obind]; try reflexivity.
    unfold ret, lift. cbn [ensure_type]. rewrite any_instance. unfold bind. cbv beta iota. fold (shown_as ra).
    destruct (render (shown_as ra) v) as [out|e| |]; reflexivity.
  Qed.

  (** A strategy other than first that is given to the command is the one the
      value is merged with, whatever the lookup options say.
      Missing: the strategy first, see below; a value that is not settled; the
      other options of the command. *)
  Theorem C55_strategy_used_partial : forall w on_disk matching c ssc sc es files name k r ps merge ra vars lo s v out N,
    merge <> "first" -> create_scope parse file vars [] [] VfEmpty = Ok sc ->
    steady w on_disk matching c -> hierarchy_is w on_disk matching (ScNest ssc sc) c es ->
    new_key name = Ok k -> k_parts k = PStr r :: ps -> r <> "lookup_options" -> plain_key r ->
    Forall2 (level_is w) es files ->
    Forall (fun f => forall v, under "lookup_options" f = Some v -> wf v = true /\ settled v) files ->
    Forall (fun f => forall v, under r f = Some v -> wf v = true /\ settled v) files ->
    options_for (pure_lookup (SDeep []) (map (under "lookup_options") files)) r lo ->
    conversion_is lo None ->
    strategy_is (Some (VStr merge)) s ->
    digs ps (pure_lookup s (map (under r) files)) (Some v) -> render (shown_as ra) v = Ok out ->
    command w (4 + N) ssc (plain_command merge ra vars) name = Ok (true, out).
  Proof.
    intros w od mt c ssc sc es files name k r ps merge ra vars lo s v out N Hm Hsc Hw Hh Hn Hk Hr Hp Hf Ho Hq Hlo Hcv Hs Hd Hout.
    rewrite (command_is w (4 + N) ssc merge ra vars name sc Hsc), Hn. cbn [obind].
    assert (M : (String.eqb merge "" || String.eqb merge "first") = false).
    { apply orb_false_iff. split; apply String.eqb_neq; [ | exact Hm ]. intros ->. inversion Hs as [? ? H| | |? H]; subst; [ inversion H | elim (H _ eq_refl) ]. }
    rewrite M. rewrite (C25_strategy_in_force w od mt c (ScNest ssc sc) es files k r ps _ lo (Some (VStr merge)) s (Some v) N Hw Hh Hk Hr Hp Hf Ho Hq Hlo Hcv);
      [ | eapply mo_explicit; reflexivity | exact Hs | exact Hd ].
    cbn [obind]. rewrite Hout. reflexivity.
  Qed.
End Command.
Print Assumptions C55_strategy_used_partial.

(** A world in which the lookup options say that a is merged with unique, and a way
    to show values. *)
Definition cmd_data : list (string * value) :=
  [("/h/data/node.yaml", vmap [("lookup_options", vmap [("a", vmap [("merge", VStr "unique")])]);
                               ("a", VArr [VInt 1; VInt 2]); ("b", VInt 4)]);
   ("/h/data/common.yaml", vmap [("a", VArr [VInt 2; VInt 3])])].
Definition cmd_w : world := file_world [("/h/hiera.yaml", levels ["node"; "common"])] cmd_data.
Definition cmd_disk : string -> bool := fun p => match aget p cmd_data with Some _ => true | None => false end.
Definition cmd_es : list entry := map (level_out cmd_disk) ["node"; "common"].
Definition cmd_files : list (option entries) :=
  [Some [(VStr "lookup_options", vmap [("a", vmap [("merge", VStr "unique")])]);
         (VStr "a", VArr [VInt 1; VInt 2]); (VStr "b", VInt 4)];
   Some [(VStr "a", VArr [VInt 2; VInt 3])]].

Lemma cmd_steady : steady cmd_w cmd_disk (fun _ => []) (levels_in ["node"; "common"]).
Proof. constructor; try reflexivity. exists (CfYaml (levels ["node"; "common"])). split; [ reflexivity | vm_compute; reflexivity ]. Qed.
Lemma cmd_levels : Forall2 (level_is cmd_w) cmd_es cmd_files.
Proof. constructor; [ eapply li_present; reflexivity | ]. constructor; [ eapply li_present; reflexivity | constructor ]. Qed.
Lemma cmd_settled r : In r ["lookup_options"; "a"; "b"] ->
  Forall (fun f => forall v, under r f = Some v -> wf v = true /\ settled v) cmd_files.
Proof.
  intros [<-|[<-|[<-|[]]]]; repeat (apply Forall_cons; [ intros v E; vm_compute in E; first [ discriminate E
              | injection E as <-; split; [ reflexivity | apply settled_by; reflexivity ] ] | ]); apply Forall_nil.
Qed.
Definition ex_render (as_what : string) (v : value) : outcome string :=
  match v with
  | VArr l => Ok (as_what ++ " of " ++ match l with [VInt 1; VInt 2] => "1 2" | [VInt 1; VInt 2; VInt 3] => "1 2 3" | _ => "?" end)
  | _ => Ok "?"
  end%string.
Definition ex_command : world -> nat -> scope -> command_options -> string -> outcome (bool * string) :=
  command (T := unit) (fun _ _ => true) (fun _ v => Ok v) tt (fun _ => Ok tt) (fun _ => None) ex_parse ex_file ex_render (fun _ => ret "").

Lemma cmd_hierarchy : hierarchy_is cmd_w cmd_disk (fun _ => []) (ScNest (ScMap []) [(VStr "x", VStr "1")]) (levels_in ["node"; "common"]) cmd_es.
Proof. apply levels_resolved; reflexivity. Qed.

Example C55_strategy_used_ex : ex_command cmd_w 9 (ScMap []) (plain_command "hash" "" ["x=1"]) "b.x" = Ok (false, "") /\
  ex_command cmd_w 9 (ScMap []) (plain_command "deep" "json" ["x=1"]) "a" = Ok (true, "json of 1 2 3").
Proof.
  split; [ vm_compute; reflexivity | ].
  refine (C55_strategy_used_partial (fun _ _ => true) (fun _ v => Ok v) tt (fun _ => Ok tt) (fun _ => None) ex_parse ex_file ex_render (fun _ => ret "")
           (fun _ => eq_refl) cmd_w cmd_disk (fun _ => []) (levels_in ["node"; "common"]) (ScMap []) [(VStr "x", VStr "1")] cmd_es cmd_files
           "a" (mk_key "a" [PStr "a"]) "a" [] "deep" "json" ["x=1"] _ (SDeep []) (VArr [VInt 1; VInt 2; VInt 3]) "json of 1 2 3" 5 _ eq_refl cmd_steady cmd_hierarchy
           eq_refl eq_refl _ _ cmd_levels _ _ _ _ _ _ eq_refl).
  all: try discriminate.
  - apply plain_key_by. reflexivity.
  - apply cmd_settled. simpl. auto.
  - apply cmd_settled. simpl. auto.
  - eapply of_map; reflexivity.
  - apply ci_none. intros l E. injection E as <-. left. reflexivity.
  - apply si_name. constructor.
  - match goal with |- digs ?ps _ (Some ?v) => exact (digs_by ps (Some v)) end.
Qed.

(** The strategy first is dropped: the lookup is done with the strategy of the
    lookup options. *)
Theorem C55_first_refuted : exists w name v,
  pure_lookup SFirst (map (under name) cmd_files) = Some v /\
  ex_render "s" v = Ok "s of 1 2" /\
  ex_command w 9 (ScMap []) (plain_command "first" "s" []) name = Ok (true, "s of 1 2 3") /\
  ex_command w 9 (ScMap []) (plain_command "first" "s" []) name = ex_command w 9 (ScMap []) (plain_command "" "s" []) name.
Proof. exists cmd_w, "a", (VArr [VInt 1; VInt 2]). repeat split; vm_compute; reflexivity. Qed.
Print Assumptions C55_first_refuted.

(** Exactly: asking for first is asking for nothing, whatever the functions, the
    scope, the other options and the names are. *)
Definition asks_merge (merge : string) (o : command_options) : command_options :=
  mk_command (co_type o) merge (co_default o) (co_fact_paths o) (co_var_paths o) (co_variables o) (co_render_as o)
    (co_explain_data o) (co_explain_options o) (co_lookup_all o).
Theorem C55_first_exactly : forall S T inst conv any parse_type struct_of parse file stdin invoke ask render render_explainer o args s,
  @lookup_and_render S T inst conv any parse_type struct_of parse file stdin invoke ask render render_explainer (asks_merge "first" o) args s
  = lookup_and_render inst conv any parse_type struct_of parse file stdin invoke ask render render_explainer (asks_merge "" o) args s.
Proof. reflexivity. Qed.
Print Assumptions C55_first_exactly.

(** With lookup options that say unique, both give the union. *)
Example C55_first_exactly_ex :
  asks_merge "first" (plain_command "unique" "s" []) = plain_command "first" "s" [] /\
  ex_command cmd_w 9 (ScMap []) (asks_merge "first" (plain_command "unique" "s" [])) "a" = Ok (true, "s of 1 2 3").
Proof. split; vm_compute; reflexivity. Qed.
