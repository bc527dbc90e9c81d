(** Facts about the functions for paths. *)

From Coq Require Import String Ascii List Bool Arith Lia.
From Verif Require Import Str Fpath SpecKey SpecIpl SpecPath StrFacts.
Import ListNotations.
Open Scope string_scope.
Open Scope list_scope.

Lemma sapp_assoc (a b c : string) : ((a ++ b) ++ c = a ++ b ++ c)%string.
Proof. induction a as [|x a IH]; [ reflexivity | cbn; rewrite IH; reflexivity ]. Qed.
Lemma sapp_nil (a : string) : (a ++ "" = a)%string.
Proof. induction a as [|x a IH]; [ reflexivity | cbn; rewrite IH; reflexivity ]. Qed.

Lemma split_acc_app cur a b :
  split_slash_acc cur (a ++ String c_slash b)%string = split_slash_acc cur a ++ split_slash b.
Proof.
  revert cur. induction a as [|c a IH]; intro cur.
  - cbn [String.append split_slash_acc]. unfold ceq. rewrite Ascii.eqb_refl. reflexivity.
  - cbn [String.append split_slash_acc]. destruct (ceq c c_slash); [ cbn [app]; f_equal; apply IH | apply IH ].
Qed.

Lemma split_app a b : split_slash (a ++ "/" ++ b)%string = split_slash a ++ split_slash b.
Proof. apply split_acc_app. Qed.

Lemma ceq_occurs c a : ~ occurs c (str1 a) -> ceq a c = false.
Proof. intro H. unfold ceq. apply Ascii.eqb_neq. intros ->. apply H. left. reflexivity. Qed.

(** The parts of a path have no slash. *)
Lemma split_no_slash s : forall cur e, ~ occurs c_slash cur -> In e (split_slash_acc cur s) -> ~ occurs c_slash e.
Proof.
  induction s as [|c s IH]; intros cur e Hc He; cbn [split_slash_acc] in He.
  - destruct He as [<-|[]]. exact Hc.
  - unfold ceq in He. destruct (Ascii.eqb_spec c c_slash) as [->|Hn].
    + destruct He as [<-|He]; [ exact Hc | ]. apply (IH ""); [ intros [] | exact He ].
    + apply (IH _ _) in He; [ exact He | ]. intro H. apply occurs_app in H as [H|[H|[]]]; [ exact (Hc H) | congruence ].
Qed.

(** A part that is two dots is one between slashes. *)
Lemma split_up s : forall cur, ~ occurs c_slash cur -> In ".." (split_slash_acc cur s) -> goes_up (cur ++ s).
Proof.
  induction s as [|c s IH]; intros cur Hc H; cbn [split_slash_acc] in H.
  - destruct H as [->|[]]. exists "", "". rewrite sapp_nil. auto.
  - unfold ceq in H. destruct (Ascii.eqb_spec c c_slash) as [->|Hn].
    + destruct H as [->|H].
      * exists "", (String c_slash s). split; [ reflexivity | ]. split; [ auto | ]. right. exists s. reflexivity.
      * destruct (IH "" (fun x => x) H) as (a & b & E & Ha & Hb). cbn [String.append] in E. exists (cur ++ String c_slash a)%string, b. split.
        -- rewrite E, !sapp_assoc. reflexivity.
        -- split; [ | exact Hb ]. right. destruct Ha as [->|[a' ->]]; [ exists cur; reflexivity | ].
           exists (cur ++ String c_slash a')%string. rewrite sapp_assoc. reflexivity.
    + replace (cur ++ String c s)%string with ((cur ++ str1 c) ++ s)%string by (rewrite sapp_assoc; reflexivity).
      apply IH; [ | exact H ]. intro Ho. apply occurs_app in Ho as [Ho|[Ho|[]]]; [ exact (Hc Ho) | congruence ].
Qed.

Lemma no_up_parts t : ~ goes_up t -> ~ In ".." (split_slash t).
Proof. intros H Hi. apply H. exact (split_up t "" (fun x => x) Hi). Qed.

Lemma clean_parts_app r a : forall st b, clean_parts r st (a ++ b) = clean_parts r (clean_parts r st a) b.
Proof.
  induction a as [|p a IH]; intros st b; [ reflexivity | ]. cbn [app clean_parts].
  destruct (String.eqb p "" || String.eqb p "."); [ apply IH | ].
  destruct (String.eqb p ".."); [ | apply IH ].
  destruct st as [|x st]; [ apply IH | ]. destruct (String.eqb x ".."); apply IH.
Qed.

Definition kept_part (p : string) : bool := negb (String.eqb p "" || String.eqb p ".").

Lemma clean_parts_down r ps : ~ In ".." ps -> forall st, clean_parts r st ps = rev (filter kept_part ps) ++ st.
Proof.
  induction ps as [|p ps IH]; intros H st; [ reflexivity | ]. cbn [clean_parts filter]. unfold kept_part at 1.
  assert (Hn : ~ In ".." ps) by (intro C; apply H; right; exact C).
  destruct (String.eqb p "" || String.eqb p "."); cbn [negb].
  - apply IH. exact Hn.
  - destruct (String.eqb_spec p "..") as [->|_]; [ destruct H; left; reflexivity | ].
    rewrite IH by exact Hn. cbn [rev]. rewrite <- app_assoc. reflexivity.
Qed.

Lemma clean_parts_in r ps : forall st e, In e (clean_parts r st ps) -> In e st \/ In e ps \/ e = "..".
Proof.
  induction ps as [|p ps IH]; intros st e H; [ left; exact H | ]. cbn [clean_parts] in H.
  destruct (String.eqb p "" || String.eqb p "."); [ apply IH in H; simpl; tauto | ].
  destruct (String.eqb p "..").
  - destruct st as [|x st].
    + apply IH in H. destruct r; simpl in *; intuition auto.
    + destruct (String.eqb x ".."); apply IH in H; simpl in *; intuition auto.
  - apply IH in H. simpl in *. intuition auto.
Qed.

Lemma clean_parts_kept r ps : forall st, Forall (fun e => kept_part e = true) st -> Forall (fun e => kept_part e = true) (clean_parts r st ps).
Proof.
  induction ps as [|p ps IH]; intros st H; [ exact H | ]. cbn [clean_parts].
  destruct (String.eqb p "" || String.eqb p ".") eqn:E; [ apply IH; exact H | ].
  destruct (String.eqb_spec p "..") as [->|_].
  - destruct st as [|x st].
    + apply IH. destruct r; repeat constructor.
    + destruct (String.eqb x ".."); apply IH; [ constructor; [ reflexivity | exact H ] | inversion H; assumption ].
  - apply IH. constructor; [ unfold kept_part; rewrite E; reflexivity | exact H ].
Qed.

Lemma kept_element e : kept_part e = true -> ~ occurs c_slash e -> element e.
Proof.
  unfold kept_part. intros H Hs. apply negb_true_iff in H. apply orb_false_iff in H as [A B].
  apply String.eqb_neq in A, B. repeat split; assumption.
Qed.

Lemma clean_parts_elements r p : Forall element (rev (clean_parts r [] (split_slash p))).
Proof.
  apply Forall_rev. apply Forall_forall. intros e He.
  assert (K : kept_part e = true) by (revert e He; apply Forall_forall; apply clean_parts_kept; constructor).
  apply kept_element; [ exact K | ]. apply clean_parts_in in He as [[]|[He| -> ]].
  - exact (split_no_slash p "" e (fun x => x) He).
  - cbn. intros [H|[H|[]]]; discriminate.
Qed.

Lemma join_spelled es : join "/" es = spelled_from es.
Proof.
  unfold join. induction es as [|e es IH]; [ reflexivity | ]. destruct es as [|x es]; [ reflexivity | ].
  change (String.concat "/" (e :: x :: es)) with (e ++ "/" ++ String.concat "/" (x :: es))%string. rewrite IH. reflexivity.
Qed.

Lemma clean_spelled p : clean p = spelled (is_abs p) (rev (clean_parts (is_abs p) [] (split_slash p))).
Proof.
  unfold clean, spelled. destruct (is_abs p); [ rewrite join_spelled; reflexivity | ].
  destruct (rev (clean_parts false [] (split_slash p))); [ reflexivity | apply join_spelled ].
Qed.

Lemma is_abs_app d t : d <> "" -> is_abs (d ++ t) = is_abs d.
Proof. destruct d; [ congruence | reflexivity ]. Qed.

Lemma clean_abs p : is_abs p = true -> is_abs (clean p) = true.
Proof. intro H. rewrite clean_spelled, H. reflexivity. Qed.

Lemma join_abs r d : is_abs r = true -> is_abs (join2 r d) = true.
Proof.
  intro H. assert (Hr : r <> "") by (intros ->; discriminate). unfold join2.
  destruct (String.eqb_spec r "") as [C|_]; [ contradiction | ].
  destruct (String.eqb d ""); apply clean_abs; [ exact H | ]. rewrite is_abs_app; assumption.
Qed.

Lemma spelled_not_empty abs es : Forall element es -> spelled abs es <> "".
Proof.
  destruct abs; [ discriminate | ]. intros H. destruct es as [|e es]; [ discriminate | ].
  inversion H as [|? ? [He _] _]; subst. destruct e; [ congruence | ]. destruct es; discriminate.
Qed.

Lemma clean_not_empty p : clean p <> "".
Proof. rewrite clean_spelled. apply spelled_not_empty. apply clean_parts_elements. Qed.

Lemma join_not_empty r d : r <> "" -> join2 r d <> "".
Proof.
  intro H. unfold join2. destruct (String.eqb_spec r "") as [C|_]; [ contradiction | ].
  destruct (String.eqb d ""); apply clean_not_empty.
Qed.

Lemma dir_not_empty p : dir p <> "".
Proof. apply clean_not_empty. Qed.

(** ** Where paths lead *)

Lemma spelled_head abs es : Forall element es -> is_abs (spelled abs es) = abs.
Proof.
  intro H. destruct abs; [ reflexivity | ]. destruct es as [|e es]; [ reflexivity | ].
  inversion H as [|? ? [He [_ Hs]] _]; subst. destruct e as [|c e]; [ congruence | ].
  unfold spelled, spelled_from. fold spelled_from.
  assert (Hc : ceq c c_slash = false).
  { unfold ceq. apply Ascii.eqb_neq. intros ->. apply Hs. left. reflexivity. }
  destruct es; exact Hc.
Qed.

Lemma split_element e : ~ occurs "/"%char e -> forall cur s,
  split_slash_acc cur (e ++ "/" ++ s)%string = (cur ++ e)%string :: split_slash s /\
  split_slash_acc cur e = [(cur ++ e)%string].
Proof.
  induction e as [|c e IH]; intros H cur s.
  - cbn. rewrite sapp_nil. split; reflexivity.
  - cbn [String.append split_slash_acc]. unfold ceq. destruct (Ascii.eqb_spec c c_slash) as [->|_]; [ destruct H; left; reflexivity | ].
    assert (H' : ~ occurs "/"%char e) by (intro C; apply H; right; exact C).
    destruct (IH H' (cur ++ str1 c)%string s) as [A B]. split.
    + etransitivity; [ exact A | ]. rewrite sapp_assoc. reflexivity.
    + etransitivity; [ exact B | ]. rewrite sapp_assoc. reflexivity.
Qed.

Lemma split_pieces es : es <> [] -> Forall (fun e => ~ occurs "/"%char e) es -> split_slash (spelled_from es) = es.
Proof.
  induction es as [|e es IH]; intros N H; [ congruence | ]. inversion H as [|? ? Hs Hr]; subst.
  destruct es as [|x es].
  - cbn [spelled_from]. exact (proj2 (split_element e Hs "" "")).
  - change (spelled_from (e :: x :: es)) with (e ++ "/" ++ spelled_from (x :: es))%string.
    unfold split_slash at 1. rewrite (proj1 (split_element e Hs "" _)). rewrite IH by (assumption || discriminate). reflexivity.
Qed.

Lemma split_spelled es : es <> [] -> Forall element es -> split_slash (spelled_from es) = es.
Proof.
  intros N H. apply split_pieces; [ exact N | ]. eapply Forall_impl; [ | exact H ]. intros e [_ [_ He]]. exact He.
Qed.

Lemma split_not_nil s : forall cur, split_slash_acc cur s <> [].
Proof. induction s as [|c s IH]; intro cur; cbn [split_slash_acc]; [ discriminate | ]. destruct (ceq c c_slash); [ discriminate | apply IH ]. Qed.

Lemma split_join s : forall cur, (cur ++ s)%string = spelled_from (split_slash_acc cur s).
Proof.
  induction s as [|c s IH]; intro cur; cbn [split_slash_acc]; [ apply sapp_nil | ].
  unfold ceq. destruct (Ascii.eqb_spec c c_slash) as [->|_].
  - pose proof (split_not_nil s "") as N. pose proof (IH "") as E. cbn [String.append] in E.
    destruct (split_slash_acc "" s) as [|x l] eqn:F; [ contradiction | ].
    change (spelled_from (cur :: x :: l)) with (cur ++ "/" ++ spelled_from (x :: l))%string. rewrite <- E. reflexivity.
  - rewrite <- IH, sapp_assoc. reflexivity.
Qed.

Lemma parts_split p es : parts p es <-> es = split_slash p.
Proof.
  split.
  - intros (N & H & ->). change (String.concat "/" es) with (join "/" es). rewrite join_spelled, split_pieces; auto.
  - intros ->. split; [ apply split_not_nil | ]. split.
    + apply Forall_forall. intros e He. exact (split_no_slash p "" e (fun x => x) He).
    + change (String.concat "/" (split_slash p)) with (join "/" (split_slash p)). rewrite join_spelled. exact (split_join p "").
Qed.

Lemma absolute_is p : absolute p <-> is_abs p = true.
Proof.
  split.
  - intros [r ->]. reflexivity.
  - destruct p as [|c r]; [ discriminate | ]. cbn. unfold ceq. destruct (Ascii.eqb_spec c c_slash) as [->|]; [ | discriminate ].
    intros _. exists r. reflexivity.
Qed.

(** Going along parts, computed. *)
Definition walk (at_ ps : list string) : list string := rev (clean_parts true (rev at_) ps).
Definition place (at_ : list string) (p : string) : list string := walk (if is_abs p then [] else at_) (split_slash p).

Lemma walk_nil at_ : walk at_ [] = at_.
Proof. apply rev_involutive. Qed.
Lemma walk_stay at_ e r : e = "" \/ e = "." -> walk at_ (e :: r) = walk at_ r.
Proof. intros [->| ->]; reflexivity. Qed.
Lemma walk_top r : walk [] (".." :: r) = walk [] r.
Proof. reflexivity. Qed.
Lemma walk_up at_ e r : e <> ".." -> walk (at_ ++ [e]) (".." :: r) = walk at_ r.
Proof.
  intro H. unfold walk. rewrite rev_app_distr. cbn [rev app clean_parts String.eqb Ascii.eqb Bool.eqb orb].
  destruct (String.eqb_spec e ".."); [ contradiction | reflexivity ].
Qed.
Lemma walk_down at_ e r : e <> "" -> e <> "." -> e <> ".." -> walk at_ (e :: r) = walk (at_ ++ [e]) r.
Proof.
  intros A B C. unfold walk. rewrite rev_app_distr. cbn [rev app clean_parts].
  apply String.eqb_neq in A, B, C. rewrite A, B, C. reflexivity.
Qed.

Lemma name_not_up e : name e -> e <> "..".
Proof. intros [_ H]. exact H. Qed.

Lemma walks_walk at_ ps to : Forall name at_ -> Forall (fun e => ~ occurs "/"%char e) ps ->
  (walks at_ ps to <-> to = walk at_ ps) /\ Forall name (walk at_ ps).
Proof.
  intros Ha Hp. revert at_ Ha to. induction Hp as [|e r He Hr IH]; intros at_ Ha to.
  - rewrite walk_nil. split; [ | exact Ha ]. split; [ intro W; inversion W; reflexivity | intros ->; constructor ].
  - destruct (String.eqb_spec e "") as [->|N1].
    { rewrite walk_stay by auto. destruct (IH at_ Ha to) as [I J]. split; [ | exact J ]. rewrite <- I.
      split; intro W; [ inversion W; subst; congruence || assumption | constructor; auto ]. }
    destruct (String.eqb_spec e ".") as [->|N2].
    { rewrite walk_stay by auto. destruct (IH at_ Ha to) as [I J]. split; [ | exact J ]. rewrite <- I.
      split; intro W; [ inversion W; subst; congruence || assumption | constructor; auto ]. }
    destruct (String.eqb_spec e "..") as [->|N3].
    { destruct at_ as [|x l] using rev_ind.
      - rewrite walk_top. destruct (IH [] Ha to) as [I J]. split; [ | exact J ]. rewrite <- I.
        split; intro W; [ | apply walks_top; exact W ]. inversion W as [|? ? ? ? [C|C]|a' x' ? ? W' E| |]; subst; try congruence; try assumption.
        destruct a'; discriminate.
      - clear IHl. apply Forall_app in Ha as [Ha Hx]. inversion Hx as [|? ? Hx' _]; subst.
        rewrite walk_up by (apply name_not_up; exact Hx'). destruct (IH l Ha to) as [I J]. split; [ | exact J ]. rewrite <- I.
        split; intro W; [ | apply walks_up; exact W ]. inversion W as [|? ? ? ? [C|C]|a' x' ? ? W' E|? ? W' E|]; subst; try congruence.
        + apply app_inj_tail in E as [-> _]. exact W'.
        + destruct l; discriminate. }
    rewrite walk_down by assumption.
    assert (Hn : name e) by (repeat split; assumption).
    destruct (IH (at_ ++ [e])) with (to := to) as [I J]; [ apply Forall_app; auto | ]. split; [ | exact J ]. rewrite <- I.
    split; intro W; [ | apply walks_down; assumption ]. inversion W as [|? ? ? ? [C|C]| | |]; subst; congruence || assumption.
Qed.

Lemma split_pieces_ok p : Forall (fun e => ~ occurs "/"%char e) (split_slash p).
Proof. apply Forall_forall. intros e He. exact (split_no_slash p "" e (fun x => x) He). Qed.

Lemma reaches_place at_ p to : Forall name at_ -> (reaches at_ p to <-> to = place at_ p).
Proof.
  intro H. unfold place. split.
  - intros [es A P W|es A P W]; apply parts_split in P; subst es.
    + apply absolute_is in A. rewrite A. apply (walks_walk [] _ to (Forall_nil _) (split_pieces_ok p)). exact W.
    + destruct (is_abs p) eqn:E; [ destruct A; apply absolute_is; exact E | ].
      apply (walks_walk at_ _ to H (split_pieces_ok p)). exact W.
  - intro E. destruct (is_abs p) eqn:A.
    + apply (reaches_absolute at_ p to (split_slash p)); [ apply absolute_is; exact A | apply parts_split; reflexivity | ].
      apply (walks_walk [] _ to (Forall_nil _) (split_pieces_ok p)). exact E.
    + apply (reaches_relative at_ p to (split_slash p)); [ rewrite absolute_is; congruence | apply parts_split; reflexivity | ].
      apply (walks_walk at_ _ to H (split_pieces_ok p)). exact E.
Qed.

Lemma place_names at_ p : Forall name at_ -> Forall name (place at_ p).
Proof.
  intro H. unfold place. destruct (is_abs p); apply walks_walk; auto using split_pieces_ok.
Qed.

Lemma walk_app at_ a b : walk at_ (a ++ b) = walk (walk at_ a) b.
Proof. unfold walk. rewrite clean_parts_app, rev_involutive. reflexivity. Qed.

Lemma names_elements es : Forall name es -> Forall element es.
Proof. apply Forall_impl. intros e [H _]. exact H. Qed.

Lemma walk_names at_ es : Forall name es -> walk at_ es = at_ ++ es.
Proof.
  revert at_. induction es as [|e es IH]; intros at_ H; [ rewrite walk_nil, app_nil_r; reflexivity | ].
  inversion H as [|? ? [[A [B _]] C] H']; subst. rewrite walk_down by assumption. rewrite IH by exact H'. rewrite <- app_assoc. reflexivity.
Qed.

(** The elements kept in a relative path: steps up only at its beginning. *)
Lemma kept_relative ps : Forall (fun e => ~ occurs "/"%char e) ps -> forall k es, Forall name es ->
  exists k' es', Forall name es' /\ clean_parts false (rev (repeat ".." k ++ es)) ps = rev (repeat ".." k' ++ es') /\
    forall at_, Forall name at_ -> walk at_ (repeat ".." k' ++ es') = walk at_ (repeat ".." k ++ es ++ ps).
Proof.
  induction 1 as [|e r He _ IH]; intros k es Hes.
  { exists k, es. split; [ exact Hes | ]. split; [ reflexivity | ]. intros at_ _. rewrite app_nil_r. reflexivity. }
  cbn [clean_parts]. destruct (String.eqb e "" || String.eqb e ".") eqn:E0.
  { destruct (IH k es Hes) as (k' & es' & A & B & C). exists k', es'. split; [ exact A | ]. split; [ exact B | ].
    intros at_ H. rewrite C by exact H. rewrite !walk_app. rewrite walk_stay; [ reflexivity | ].
    apply orb_true_iff in E0 as [E|E]; apply String.eqb_eq in E; auto. }
  apply orb_false_iff in E0 as [N1 N2]. apply String.eqb_neq in N1, N2.
  destruct (String.eqb_spec e "..") as [->|N3].
  - destruct es as [|x l _] using rev_ind.
    + rewrite app_nil_r. assert (R : forall k, rev (repeat ".." k) = repeat ".." k).
      { clear. induction k as [|k IHk]; [ reflexivity | ]. cbn [repeat rev]. rewrite IHk. symmetry. apply repeat_cons. }
      destruct (IH (S k) [] (Forall_nil _)) as (k' & es' & A & B & C). exists k', es'. split; [ exact A | ]. split.
      * rewrite app_nil_r, R in B. rewrite <- B, R. destruct k; reflexivity.
      * intros at_ H. rewrite C by exact H.
        replace (repeat ".." (S k)) with (repeat ".." k ++ [".."]) by (symmetry; apply repeat_cons). rewrite <- app_assoc. reflexivity.
    + apply Forall_app in Hes as [Hl Hx]. inversion Hx as [|? ? Hx' _]; subst.
      destruct (IH k l Hl) as (k' & es' & A & B & C). exists k', es'. split; [ exact A | ]. split.
      * rewrite <- B. rewrite app_assoc, rev_app_distr. cbn [rev app].
        destruct (String.eqb_spec x "..") as [->|_]; [ destruct (name_not_up _ Hx'); reflexivity | reflexivity ].
      * intros at_ H. rewrite C by exact H. rewrite !walk_app. destruct Hx' as [[X1 [X2 _]] X3].
        rewrite (walk_down _ x) by assumption. rewrite walk_nil, walk_up by exact X3. reflexivity.
  - assert (Hn : name e) by (repeat split; assumption).
    destruct (IH k (es ++ [e])) as (k' & es' & A & B & C); [ apply Forall_app; auto | ]. exists k', es'. split; [ exact A | ]. split.
    + rewrite <- B. rewrite app_assoc, (rev_app_distr _ [e]). reflexivity.
    + intros at_ H. rewrite C by exact H. rewrite <- app_assoc. reflexivity.
Qed.

Lemma ups_elements k es : Forall name es -> Forall element (repeat ".." k ++ es).
Proof.
  intro H. apply Forall_app. split; [ | apply names_elements; exact H ].
  apply Forall_forall. intros e He. apply repeat_spec in He. subst e. repeat split; [ discriminate | discriminate | ].
  intros [C|[C|[]]]; discriminate.
Qed.

(** The place of a direct path. *)
Lemma place_absolute at_ es : Forall name es -> place at_ (spelled true es) = es.
Proof.
  intro H. unfold place, spelled. change (is_abs ("/" ++ spelled_from es)) with true. cbv iota.
  change (split_slash ("/" ++ spelled_from es)%string) with ("" :: split_slash (spelled_from es)). rewrite walk_stay by auto.
  destruct es as [|e es]; [ reflexivity | ]. rewrite split_spelled; [ | discriminate | apply names_elements; exact H ].
  apply (walk_names []). exact H.
Qed.

Lemma place_relative at_ k es : Forall name es -> place at_ (spelled false (repeat ".." k ++ es)) = walk at_ (repeat ".." k ++ es).
Proof.
  intro H. unfold place. rewrite spelled_head by (apply ups_elements; exact H). unfold spelled.
  destruct (repeat ".." k ++ es) as [|x l] eqn:E; [ reflexivity | ].
  rewrite split_spelled; [ reflexivity | discriminate | rewrite <- E; apply ups_elements; exact H ].
Qed.

Lemma clean_direct p : direct (clean p) /\ is_abs (clean p) = is_abs p /\
  forall at_, Forall name at_ -> place at_ (clean p) = place at_ p.
Proof.
  rewrite clean_spelled. destruct (is_abs p) eqn:A.
  - assert (N : Forall name (rev (clean_parts true [] (split_slash p)))).
    { apply (walks_walk [] (split_slash p) [] (Forall_nil _) (split_pieces_ok p)). }
    split; [ apply direct_absolute; exact N | ]. split; [ reflexivity | ].
    intros at_ _. rewrite place_absolute by exact N. unfold place. rewrite A. reflexivity.
  - destruct (kept_relative (split_slash p) (split_pieces_ok p) 0 [] (Forall_nil _)) as (k & es & N & E & W).
    cbn [repeat app rev] in E. rewrite E, rev_involutive. split; [ apply direct_relative; exact N | ].
    split; [ apply spelled_head; apply ups_elements; exact N | ].
    intros at_ H. rewrite place_relative by exact N. rewrite W by exact H. unfold place. rewrite A. reflexivity.
Qed.

Lemma place_clean at_ p : Forall name at_ -> place at_ (clean p) = place at_ p.
Proof. apply clean_direct. Qed.
Lemma clean_is_abs p : is_abs (clean p) = is_abs p.
Proof. apply clean_direct. Qed.

(** Where joined paths lead. *)
Lemma place_join at_ a b : Forall name at_ -> a <> "" -> place at_ (join2 a b) = walk (place at_ a) (split_slash b).
Proof.
  intros H N. unfold join2. destruct (String.eqb_spec a "") as [C|_]; [ contradiction | ].
  destruct (String.eqb_spec b "") as [->|_].
  - rewrite place_clean by exact H. change (split_slash "") with [""]. rewrite walk_stay, walk_nil by auto. reflexivity.
  - rewrite place_clean by exact H. unfold place. rewrite is_abs_app by exact N. rewrite split_app, walk_app. reflexivity.
Qed.

Lemma join_is_abs a b : a <> "" -> is_abs (join2 a b) = is_abs a.
Proof.
  intro N. unfold join2. destruct (String.eqb_spec a "") as [C|_]; [ contradiction | ].
  destruct (String.eqb b ""); rewrite clean_is_abs; [ reflexivity | apply is_abs_app; exact N ].
Qed.

Lemma join_direct a b : a <> "" -> direct (join2 a b).
Proof.
  intro N. unfold join2. destruct (String.eqb_spec a "") as [C|_]; [ contradiction | ].
  destruct (String.eqb b ""); apply clean_direct.
Qed.

(** Going along parts without a step up stays below. *)
Lemma walk_below at_ ps : ~ In ".." ps -> exists es, walk at_ ps = at_ ++ es.
Proof.
  intro H. exists (filter kept_part ps). unfold walk. rewrite clean_parts_down by exact H.
  rewrite rev_app_distr, !rev_involutive. reflexivity.
Qed.

(** Joining a path that does not go up stays within. *)
Lemma join_within d t : d <> "" -> ~ goes_up t -> within d (join2 d t).
Proof.
  intros Hd Ht at_ Ha. destruct (walk_below (place at_ d) (split_slash t) (no_up_parts t Ht)) as [es E].
  exists (place at_ d), es. split; apply reaches_place; auto. rewrite place_join by assumption. symmetry. exact E.
Qed.

(** Parts that never go up further than they went down stay below. *)
Lemma stays_down_below ps : Forall (fun e => ~ occurs "/"%char e) ps -> forall n, stays_down n ps -> forall at_ xs, Forall name xs -> length xs = n ->
  exists es, walk (at_ ++ xs) ps = at_ ++ es.
Proof.
  intros Hp n H. induction H as [n|n e r He H IH|n r H IH|n e r H1 H2 H3 H IH]; intros at_ xs Hx Hn.
  - exists xs. apply walk_nil.
  - inversion Hp; subst. rewrite walk_stay by exact He. apply IH; auto.
  - inversion Hp; subst. destruct xs as [|x l _] using rev_ind; [ discriminate | ]. apply Forall_app in Hx as [Hl Hx]. inversion Hx as [|? ? Hx' _]; subst.
    rewrite app_assoc, walk_up by (apply name_not_up; exact Hx'). apply IH; auto. rewrite app_length in Hn. cbn in Hn. lia.
  - inversion Hp as [|? ? Ho Hp']; subst. rewrite walk_down by assumption. rewrite <- app_assoc. apply IH; auto.
    + apply Forall_app. split; [ exact Hx | ]. constructor; [ | constructor ]. repeat split; assumption.
    + rewrite app_length. cbn. lia.
Qed.

Lemma stays_down_or ps : forall n, stays_down n ps \/ ~ stays_down n ps.
Proof.
  induction ps as [|e r IH]; intros n; [ left; constructor | ].
  destruct (string_dec e "") as [->|N1].
  { destruct (IH n) as [Y|N]; [ left; constructor; auto | right; intro C; inversion C; subst; congruence ]. }
  destruct (string_dec e ".") as [->|N2].
  { destruct (IH n) as [Y|N]; [ left; constructor; auto | right; intro C; inversion C; subst; congruence ]. }
  destruct (string_dec e "..") as [->|N3].
  { destruct n as [|n].
    - right. intro C. inversion C; subst; intuition congruence.
    - destruct (IH n) as [Y|N]; [ left; apply sd_up; exact Y | right; intro C; inversion C; subst; intuition congruence ]. }
  destruct (IH (S n)) as [Y|N]; [ left; apply sd_down; auto | right; intro C; inversion C; subst; intuition congruence ].
Qed.

Lemma walk_in at_ ps e : In e (walk at_ ps) -> In e at_ \/ In e ps \/ e = "..".
Proof. unfold walk. rewrite <- in_rev. intros H. apply clean_parts_in in H. rewrite <- in_rev in H. exact H. Qed.

(** Parts that go up further leave a directory whose name is none of theirs for good. *)
Lemma leaves_for_good q ps : q <> ".." -> ~ In q ps -> forall xs, ~ stays_down (length xs) ps -> Forall (fun x => x <> "..") xs -> ~ In q xs -> ~ In q (walk (q :: xs) ps).
Proof.
  intros Hq. induction ps as [|e r IH]; intros Hp xs Hs Hn Hx; [ exfalso; apply Hs; constructor | ].
  assert (Hr : ~ In q r) by (intro C; apply Hp; right; exact C).
  destruct (string_dec e "") as [->|N1].
  { rewrite walk_stay by auto. apply IH; auto. intro C. apply Hs. constructor; auto. }
  destruct (string_dec e ".") as [->|N2].
  { rewrite walk_stay by auto. apply IH; auto. intro C. apply Hs. constructor; auto. }
  destruct (string_dec e "..") as [->|N3].
  { destruct xs as [|x l _] using rev_ind.
    - change [q] with ([] ++ [q]). rewrite walk_up by exact Hq. intro C. apply walk_in in C as [[]|[C|C]]; contradiction.
    - change (q :: l ++ [x]) with ((q :: l) ++ [x]). apply Forall_app in Hn as [Hl Hn]. inversion Hn; subst. rewrite walk_up by assumption.
      apply IH; auto.
      + intro C. apply Hs. rewrite app_length. cbn. rewrite Nat.add_comm. apply sd_up. exact C.
      + intro C. apply Hx. apply in_app_iff. left. exact C. }
  rewrite walk_down by assumption. change ((q :: xs) ++ [e]) with (q :: xs ++ [e]). apply IH; auto.
  - intro C. apply Hs. apply sd_down; auto. rewrite app_length in C. cbn in C. rewrite Nat.add_comm in C. exact C.
  - apply Forall_app. split; [ exact Hn | ]. constructor; [ exact N3 | constructor ].
  - intro C. apply in_app_iff in C as [C|[C|[]]]; [ contradiction | ]. apply Hp. left. exact C.
Qed.

Fixpoint qs (n : nat) : string := match n with O => "q" | S n => String "q" (qs n) end.
Lemma qs_name n : name (qs n).
Proof.
  assert (O : ~ occurs "/"%char (qs n)) by (induction n as [|n IH]; cbn; intros [C|C]; [ discriminate | destruct C | discriminate | exact (IH C) ]).
  repeat split; try exact O; destruct n; discriminate.
Qed.
Lemma qs_length n : String.length (qs n) = S n.
Proof. induction n as [|n IH]; cbn; [ reflexivity | rewrite IH; reflexivity ]. Qed.
Lemma fresh_name ps : exists q, name q /\ ~ In q ps.
Proof.
  exists (qs (list_max (map String.length ps))). split; [ apply qs_name | ]. intro C.
  pose proof (proj1 (list_max_le (map String.length ps) (list_max (map String.length ps))) (le_n _)) as F.
  rewrite Forall_forall in F. specialize (F _ (in_map String.length _ _ C)). rewrite qs_length in F. lia.
Qed.

Lemma inside_within d t : d <> "" -> keeps_inside t -> within d (join2 d t).
Proof.
  intros Hd (ps & Hp & Hs) at_ Ha. apply parts_split in Hp. subst ps.
  destruct (stays_down_below _ (split_pieces_ok t) _ Hs (place at_ d) [] (Forall_nil _) eq_refl) as [es E]. rewrite app_nil_r in E.
  exists (place at_ d), es. split; apply reaches_place; auto. rewrite place_join by assumption. symmetry. exact E.
Qed.

Lemma inside_exactly t : keeps_inside t <-> forall d, d <> "" -> within d (join2 d t).
Proof.
  split; [ intros H d Hd; apply inside_within; assumption | ]. intros H.
  destruct (stays_down_or (split_slash t) 0) as [Y|N]; [ exists (split_slash t); split; [ apply parts_split; reflexivity | exact Y ] | exfalso ].
  destruct (fresh_name (split_slash t)) as (q & Hq & Hn).
  assert (Hd : spelled true [q] <> "") by discriminate.
  destruct (H _ Hd [] (Forall_nil _)) as (ds & es & R1 & R2). apply reaches_place in R1, R2; try constructor.
  rewrite place_join in R2 by (exact Hd || constructor). rewrite place_absolute in R1, R2 by (constructor; [ exact Hq | constructor ]). subst ds.
  apply (leaves_for_good q (split_slash t) (name_not_up _ Hq) Hn [] N (Forall_nil _) (fun x => x)). rewrite <- R2. left. reflexivity.
Qed.

Lemma not_up_inside t : ~ goes_up t -> keeps_inside t.
Proof.
  intros H. exists (split_slash t). split; [ apply parts_split; reflexivity | ]. apply no_up_parts in H. revert H. generalize 0. 
  induction (split_slash t) as [|e r IH]; intros n H; [ constructor | ].
  assert (Hr : ~ In ".." r) by (intro C; apply H; right; exact C).
  destruct (string_dec e "") as [->|N1]; [ constructor; auto | ]. destruct (string_dec e ".") as [->|N2]; [ constructor; auto | ].
  apply sd_down; auto. intros ->. apply H. left. reflexivity.
Qed.

(** Going up leaves the beginning. *)
Lemma walk_ups k : forall at_, Forall name at_ -> walk at_ (repeat ".." k) = firstn (length at_ - k) at_.
Proof.
  induction k as [|k IH]; intros at_ H.
  - cbn [repeat]. rewrite walk_nil, Nat.sub_0_r, firstn_all. reflexivity.
  - cbn [repeat]. destruct at_ as [|x l _] using rev_ind.
    + rewrite walk_top. exact (IH [] H).
    + apply Forall_app in H as [Hl Hx]. inversion Hx as [|? ? Hx' _]; subst.
      rewrite walk_up by (apply name_not_up; exact Hx'). rewrite IH by exact Hl.
      rewrite app_length. cbn [length]. rewrite firstn_app.
      replace (length l + 1 - S k) with (length l - k) by lia.
      replace (length l - k - length l) with 0 by lia. cbn [firstn]. rewrite app_nil_r. reflexivity.
Qed.

Lemma place_direct at_ k es : Forall name at_ -> Forall name es ->
  place at_ (spelled false (repeat ".." k ++ es)) = firstn (length at_ - k) at_ ++ es.
Proof.
  intros Ha H. rewrite place_relative by exact H. rewrite walk_app, walk_ups by exact Ha. apply walk_names. exact H.
Qed.

Lemma name_a : name "a".
Proof. repeat split; try discriminate. intros [C|[]]; discriminate. Qed.
Lemma name_b : name "b".
Proof. repeat split; try discriminate. intros [C|[]]; discriminate. Qed.
Lemma names_repeat x n : name x -> Forall name (repeat x n).
Proof. intro H. apply Forall_forall. intros e He. apply repeat_spec in He. subst e. exact H. Qed.

Lemma firstn_repeat {A} (x : A) n m : firstn n (repeat x m) = repeat x (Nat.min n m).
Proof. revert m. induction n as [|n IH]; intros [|m]; cbn; [ reflexivity | reflexivity | reflexivity | rewrite IH; reflexivity ]. Qed.

Lemma nth_repeat_app {A} (x : A) n m l : n < m -> nth_error (repeat x m ++ l) n = Some x.
Proof. revert n. induction m as [|m IH]; intros n H; [ lia | ]. destruct n; [ reflexivity | ]. apply IH. lia. Qed.

(** Steps up can be told from the places reached. *)
Lemma ups_shorter k1 es1 k2 es2 : k1 < k2 -> Forall name es1 -> Forall name es2 ->
  (forall at_, Forall name at_ ->
     place at_ (spelled false (repeat ".." k1 ++ es1)) = place at_ (spelled false (repeat ".." k2 ++ es2))) -> False.
Proof.
  intros L N1 N2 H.
  assert (P : forall x, name x -> repeat x (k2 - k1) ++ es1 = es2).
  { intros x Hx. specialize (H (repeat x k2) (names_repeat x k2 Hx)).
    rewrite !place_direct in H by auto using names_repeat. rewrite !firstn_repeat, !repeat_length in H.
    replace (Nat.min (k2 - k1) k2) with (k2 - k1) in H by lia. rewrite Nat.sub_diag in H. exact H. }
  pose proof (P "a" name_a) as A. pose proof (P "b" name_b) as B. rewrite <- B in A.
  assert (C : nth_error (repeat "a" (k2 - k1) ++ es1) 0 = nth_error (repeat "b" (k2 - k1) ++ es1) 0) by (rewrite A; reflexivity).
  rewrite !nth_repeat_app in C by lia. discriminate.
Qed.

Lemma absolute_not_relative es k es2 : Forall name es -> Forall name es2 ->
  (forall at_, Forall name at_ ->
     place at_ (spelled true es) = place at_ (spelled false (repeat ".." k ++ es2))) -> False.
Proof.
  intros N N2 H.
  assert (P : forall x, name x -> es = [x] ++ es2).
  { intros x Hx. specialize (H (repeat x (S k)) (names_repeat x (S k) Hx)).
    rewrite place_absolute in H by exact N. rewrite place_direct in H by auto using names_repeat.
    rewrite firstn_repeat, repeat_length in H. replace (Nat.min (S k - k) (S k)) with 1 in H by lia. exact H. }
  pose proof (P "a" name_a) as A. rewrite (P "b" name_b) in A. discriminate.
Qed.

(** Direct paths that lead to the same place, wherever one is, are the same
    text. *)
Lemma direct_unique p q : direct p -> direct q ->
  (forall at_, Forall name at_ -> place at_ p = place at_ q) -> p = q.
Proof.
  intros [es N|k es N] [es' N'|k' es' N'] H.
  - specialize (H [] (Forall_nil _)). rewrite !place_absolute in H by assumption. rewrite H. reflexivity.
  - destruct (absolute_not_relative es k' es' N N' H).
  - destruct (absolute_not_relative es' k es N' N). intros. symmetry. apply H. assumption.
  - destruct (Nat.lt_trichotomy k k') as [L|[->|L]].
    + destruct (ups_shorter k es k' es' L N N' H).
    + specialize (H [] (Forall_nil _)). rewrite !place_direct in H by (assumption || constructor). rewrite firstn_nil in H. cbn [app] in H.
      rewrite H. reflexivity.
    + destruct (ups_shorter k' es' k es L N' N). intros. symmetry. apply H. assumption.
Qed.

(** How many parts go up and how many go down. *)
Fixpoint ups (ps : list string) : nat :=
  match ps with [] => 0 | e :: r => if string_dec e ".." then S (ups r) else ups r end.
Fixpoint downs (ps : list string) : nat :=
  match ps with [] => 0 | e :: r => if string_dec e ".." then downs r else if string_dec e "" then downs r else if string_dec e "." then downs r else S (downs r) end.

(** From deep enough, going along parts changes the depth by the difference. *)
Lemma walk_depth ps : forall at_, Forall (fun x => x <> "..") at_ -> ups ps <= length at_ ->
  length (walk at_ ps) + ups ps = length at_ + downs ps.
Proof.
  induction ps as [|e r IH]; intros at_ Ha Hl; cbn [ups downs] in *; [ rewrite walk_nil; lia | ].
  destruct (string_dec e "..") as [->|N3].
  - destruct at_ as [|x l _] using rev_ind; [ cbn in Hl; lia | ]. apply Forall_app in Ha as [Ha Hx]. inversion Hx; subst.
    rewrite app_length in *. cbn [length] in *. rewrite walk_up by assumption. specialize (IH l Ha ltac:(lia)). lia.
  - destruct (string_dec e "") as [->|N1]; [ rewrite walk_stay by auto; apply IH; auto | ].
    destruct (string_dec e ".") as [->|N2]; [ rewrite walk_stay by auto; apply IH; auto | ].
    rewrite walk_down by assumption. rewrite IH; [ rewrite app_length; cbn; lia | apply Forall_app; auto | rewrite app_length; cbn; lia ].
Qed.

(** A relative root without detours, joined twice with a relative path. *)
Lemma joined_twice k es p : Forall name es -> is_abs p = false ->
  let root := spelled false (repeat ".." k ++ es) in
  join2 root (join2 root p) = join2 root p <-> length es = k.
Proof.
  intros He Hp root.
  assert (Hr : root <> "") by (apply spelled_not_empty; apply ups_elements; exact He).
  assert (Ar : is_abs root = false) by (apply spelled_head; apply ups_elements; exact He).
  assert (P1 : forall at_, Forall name at_ -> place at_ root = firstn (length at_ - k) at_ ++ es) by (intros; apply place_direct; assumption).
  assert (Q : forall at_, Forall name at_ -> place at_ (join2 root p) = walk (place at_ root) (split_slash p)).
  { intros at_ Ha. apply place_join; assumption. }
  assert (P2 : forall at_, Forall name at_ -> place at_ (join2 root (join2 root p)) = walk (place (place at_ root) root) (split_slash p)).
  { intros at_ Ha. rewrite place_join by assumption. rewrite <- Q by (apply place_names; exact Ha).
    unfold place at 2. rewrite join_is_abs by exact Hr. rewrite Ar. reflexivity. }
  split.
  - intros E. destruct (Nat.eq_dec (length es) k) as [Y|N]; [ exact Y | exfalso ].
    set (big := ups (split_slash p) + k + k). set (at_ := repeat "a" big).
    assert (Ha : Forall name at_) by (apply names_repeat; exact name_a).
    assert (E2 : place at_ (join2 root (join2 root p)) = place at_ (join2 root p)) by (rewrite E; reflexivity).
    rewrite P2, Q in E2 by exact Ha.
    assert (NU : forall l, Forall name l -> Forall (fun x => x <> "..") l) by (intros l F; eapply Forall_impl; [ | exact F ]; intros x Hx; apply name_not_up; exact Hx).
    pose proof (place_names at_ root Ha) as Ha1. pose proof (place_names _ root Ha1) as Ha2.
    assert (L1 : length (place at_ root) = big - k + length es).
    { rewrite P1 by exact Ha. rewrite app_length, firstn_length. unfold at_. rewrite repeat_length. lia. }
    assert (L2 : length (place (place at_ root) root) = big - k + length es - k + length es).
    { rewrite P1 by exact Ha1. rewrite app_length, firstn_length, L1. lia. }
    pose proof (walk_depth (split_slash p) _ (NU _ Ha1)) as D1. pose proof (walk_depth (split_slash p) _ (NU _ Ha2)) as D2.
    rewrite L1 in D1. rewrite L2 in D2. rewrite E2 in D2. unfold big in *.
    specialize (D1 ltac:(lia)). specialize (D2 ltac:(lia)). lia.
  - intros Hk. apply direct_unique; [ apply join_direct; exact Hr | apply join_direct; exact Hr | ].
    intros at_ Ha. rewrite P2, Q by exact Ha. f_equal.
    pose proof (place_names at_ root Ha) as Ha1. rewrite (P1 _ Ha1). rewrite (P1 at_ Ha). f_equal.
    rewrite app_length, firstn_length. destruct (le_lt_dec k (length at_)) as [L|L].
    + replace (Nat.min (length at_ - k) (length at_) + length es - k) with (length at_ - k) by lia.
      rewrite firstn_app, firstn_firstn, firstn_length. replace (Nat.min (length at_ - k) (length at_ - k)) with (length at_ - k) by lia.
      replace (length at_ - k - Nat.min (length at_ - k) (length at_)) with 0 by lia. cbn [firstn]. apply app_nil_r.
    + replace (length at_ - k) with 0 by lia. cbn [firstn length Nat.min List.app]. replace (0 + length es - k) with 0 by lia. reflexivity.
Qed.

(** When joining a directory with an absolute path gives that path. *)
Lemma walk_absolute at_ es : Forall name es -> walk at_ (split_slash (spelled true es)) = at_ ++ es.
Proof.
  intro H. unfold spelled. change (split_slash ("/" ++ spelled_from es)%string) with ("" :: split_slash (spelled_from es)). rewrite walk_stay by auto.
  destruct es as [|e es]; [ cbn [spelled_from]; change (split_slash "") with [""]; rewrite walk_stay, walk_nil, app_nil_r by auto; reflexivity | ].
  rewrite split_spelled; [ apply walk_names; exact H | discriminate | apply names_elements; exact H ].
Qed.

Lemma join_absolute r f : is_abs f = true ->
  (join2 r f = f <-> direct f /\ (r = "" \/ is_abs r = true /\ place [] r = [])).
Proof.
  intro Hf. assert (Nf : f <> "") by (intros ->; discriminate Hf).
  destruct (string_dec r "") as [->|N].
  - unfold join2. cbn [String.eqb]. split.
    + intro E. split; [ | auto ]. rewrite <- E. destruct (String.eqb_spec f ""); [ contradiction | apply clean_direct ].
    + intros [D _]. destruct (String.eqb_spec f ""); [ contradiction | ]. apply direct_unique; [ apply clean_direct | exact D | ].
      intros at_ Ha. apply place_clean; exact Ha.
  - split.
    + intro E. assert (D : direct f) by (rewrite <- E; apply join_direct; exact N). split; [ exact D | right ].
      assert (Ar : is_abs r = true) by (rewrite <- (join_is_abs r f N), E; exact Hf). split; [ exact Ar | ].
      destruct D as [es He|k es He].
      * assert (P : place [] (join2 r (spelled true es)) = place [] (spelled true es)) by (rewrite E; reflexivity).
        rewrite place_join, place_absolute, walk_absolute in P by auto. apply (f_equal (@length string)) in P. rewrite app_length in P.
        destruct (place [] r); [ reflexivity | cbn in P; lia ].
      * rewrite spelled_head in Hf by (apply ups_elements; exact He). discriminate.
    + intros [D [C|[Ar Pr]]]; [ contradiction | ]. apply direct_unique; [ apply join_direct; exact N | exact D | ].
      intros at_ Ha. rewrite place_join by assumption. unfold place at 1. rewrite Ar. unfold place in Pr. rewrite Ar in Pr. rewrite Pr.
      unfold place. rewrite Hf. reflexivity.
Qed.
