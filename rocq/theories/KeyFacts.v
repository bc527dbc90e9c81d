(** Proofs about keys. *)

From Coq Require Import String Ascii List ZArith Bool Arith Lia.
From Verif Require Import Str Value ValueFacts Outcome Key SpecKey.
Import ListNotations.
Open Scope string_scope.

(** * Strings *)

Lemma app_assoc_s (a b c : string) : (a ++ b) ++ c = a ++ (b ++ c).
Proof. induction a; simpl; congruence. Qed.
Lemma app_nil_s (a : string) : a ++ "" = a.
Proof. induction a; simpl; congruence. Qed.
Lemma app_comm_cons_s c (a b : string) : String c (a ++ b) = String c a ++ b.
Proof. reflexivity. Qed.
Lemma length_app_s a b : String.length (a ++ b) = String.length a + String.length b.
Proof. induction a; simpl; lia. Qed.

Lemma ceq_true a b : ceq a b = true <-> a = b.
Proof. unfold ceq. apply Ascii.eqb_eq. Qed.
Lemma ceq_false a b : ceq a b = false <-> a <> b.
Proof. unfold ceq. apply Ascii.eqb_neq. Qed.
Lemma ceq_refl a : ceq a a = true.
Proof. apply ceq_true. reflexivity. Qed.

(** * Integers *)

Lemma digit_of_is c : is_digit c = true -> digit_of c (digit_val c).
Proof.
  unfold is_digit, digit_of, digit_val. rewrite andb_true_iff, !Nat.leb_le. lia.
Qed.

Lemma is_digit_of c d : digit_of c d -> is_digit c = true /\ digit_val c = d.
Proof.
  unfold is_digit, digit_of, digit_val. rewrite andb_true_iff, !Nat.leb_le. lia.
Qed.

Lemma digits_val_app acc s t :
  digits_val acc (s ++ t) = match digits_val acc s with Some z => digits_val z t | None => None end.
Proof.
  revert acc. induction s as [|c s IH]; intros acc; simpl; auto. destruct (is_digit c); auto.
Qed.

Lemma str_snoc_ind (P : string -> Prop) :
  P "" -> (forall s c, P s -> P (s ++ String c "")) -> forall s, P s.
Proof.
  intros H0 HS s.
  assert (forall n s, String.length s = n -> P s) as H; [|eauto].
  induction n as [|n IH]; intros t Ht.
  - destruct t; [auto|discriminate].
  - assert (exists t' c, t = t' ++ String c "") as (t' & c & ->).
    { clear -Ht. revert n Ht. induction t as [|c t IH]; intros n Ht; [discriminate|].
      destruct t as [|d t]; [exists "", c; reflexivity|].
      simpl in *. injection Ht as Ht. destruct n; [discriminate|].
      destruct (IH n Ht) as (t' & c' & E). exists (String c t'), c'. simpl. now rewrite <- E. }
    apply HS, IH. rewrite length_app_s in Ht. simpl in Ht. lia.
Qed.

Lemma parse_uint_numeral s z : parse_uint s = Some z <-> numeral s z.
Proof.
  split.
  - revert z. induction s as [|s c IH] using str_snoc_ind; intros z; [discriminate|].
    destruct s as [|c0 s0].
    + simpl. destruct (is_digit c) eqn:E; [|discriminate].
      intros [= <-]. change (0 * 10 + digit_val c)%Z with (digit_val c). constructor. now apply digit_of_is.
    + unfold parse_uint in *. cbn [append] in *.
      change (String c0 (s0 ++ String c "")) with ((String c0 s0) ++ String c "").
      rewrite digits_val_app.
      destruct (digits_val 0 (String c0 s0)) as [z'|] eqn:E; [|discriminate].
      cbn [digits_val]. destruct (is_digit c) eqn:D; [|discriminate].
      intros [= <-]. rewrite Z.mul_comm. constructor; auto. now apply digit_of_is.
  - induction 1 as [c d Hd|s z c d Hn IH Hd].
    + apply is_digit_of in Hd. destruct Hd as [H1 H2]. simpl. rewrite H1. f_equal. lia.
    + apply is_digit_of in Hd. destruct Hd as [H1 H2].
      destruct s as [|c0 s0]; [discriminate|].
      unfold parse_uint in *. cbn [append].
      change (String c0 (s0 ++ String c "")) with ((String c0 s0) ++ String c "").
      rewrite digits_val_app, IH. cbn [digits_val]. rewrite H1, H2. f_equal. lia.
Qed.

Lemma numeral_nonneg s z : numeral s z -> (0 <= z)%Z.
Proof. induction 1 as [c d H|s z c d Hn IH H]; destruct H as [H _]; lia. Qed.

Lemma numeral_head s z : numeral s z -> exists c d r, s = String c r /\ digit_of c d.
Proof.
  induction 1 as [c d H|s z c d H IH Hd].
  - eauto.
  - destruct IH as (c' & d' & r & -> & Hd'). simpl. eauto.
Qed.

Lemma digit_not_sign c d : digit_of c d -> c <> "-"%char /\ c <> "+"%char.
Proof.
  intros [H1 H2]. split; intros ->.
  - change (Z.of_nat (nat_of_ascii "-"%char)) with 45%Z in H2. lia.
  - change (Z.of_nat (nat_of_ascii "+"%char)) with 43%Z in H2. lia.
Qed.

Lemma parse_int32_reads s z : parse_int32 s = Some z <-> reads_as s z.
Proof.
  unfold parse_int32. destruct s as [|c r].
  { split; [discriminate|]. intros H. inversion H; subst; try discriminate.
    destruct (numeral_head _ _ H0) as (? & ? & ? & ? & ?). discriminate. }
  destruct (ceq c "-"%char) eqn:Em.
  { apply ceq_true in Em. subst c. split.
    - destruct (parse_uint r) as [u|] eqn:E; cbn [option_map]; [|discriminate].
      destruct ((-2147483648 <=? - u)%Z && (- u <=? 2147483647)%Z) eqn:R; [|discriminate].
      intros [= <-]. apply andb_true_iff in R. rewrite !Z.leb_le in R.
      apply parse_uint_numeral in E. apply (reads_minus r u); auto. lia.
    - intros H. inversion H as [s z' Hn Hr E|s z' Hn Hr E|s z' Hn Hr E]; subst.
      + destruct (numeral_head _ _ Hn) as (c & d & r' & E & Hd). injection E as <- <-.
        apply digit_not_sign in Hd. tauto.
      + pose proof (numeral_nonneg _ _ Hn).
        apply parse_uint_numeral in Hn. rewrite Hn. cbn [option_map].
        replace ((-2147483648 <=? - z')%Z && (- z' <=? 2147483647)%Z) with true; auto.
        symmetry. apply andb_true_iff. rewrite !Z.leb_le. lia. }
  destruct (ceq c "+"%char) eqn:Ep.
  { apply ceq_true in Ep. subst c. split.
    - destruct (parse_uint r) as [u|] eqn:E; [|discriminate].
      destruct ((-2147483648 <=? u)%Z && (u <=? 2147483647)%Z) eqn:R; [|discriminate].
      intros [= <-]. apply andb_true_iff in R. rewrite !Z.leb_le in R.
      apply parse_uint_numeral in E. apply (reads_plus r u); auto. lia.
    - intros H. inversion H as [s z' Hn Hr E|s z' Hn Hr E|s z' Hn Hr E]; subst.
      + destruct (numeral_head _ _ Hn) as (c & d & r' & E & Hd). injection E as <- <-.
        apply digit_not_sign in Hd. tauto.
      + pose proof (numeral_nonneg _ _ Hn).
        apply parse_uint_numeral in Hn. rewrite Hn.
        replace ((-2147483648 <=? z)%Z && (z <=? 2147483647)%Z) with true; auto.
        symmetry. apply andb_true_iff. rewrite !Z.leb_le. lia. }
  apply ceq_false in Em, Ep. split.
  - destruct (parse_uint (String c r)) as [u|] eqn:E; [|discriminate].
    destruct ((-2147483648 <=? u)%Z && (u <=? 2147483647)%Z) eqn:R; [|discriminate].
    intros [= <-]. apply andb_true_iff in R. rewrite !Z.leb_le in R.
    apply parse_uint_numeral in E. apply reads_plain; auto. lia.
  - intros H. inversion H as [s z' Hn Hr E|s z' Hn Hr E|s z' Hn Hr E]; subst; try congruence.
    pose proof (numeral_nonneg _ _ Hn).
    apply parse_uint_numeral in Hn. rewrite Hn.
    replace ((-2147483648 <=? z)%Z && (z <=? 2147483647)%Z) with true; auto.
    symmetry. apply andb_true_iff. rewrite !Z.leb_le. lia.
Qed.

Lemma parse_int32_none s : parse_int32 s = None <-> forall z, ~ reads_as s z.
Proof.
  split.
  - intros H z Hr. apply parse_int32_reads in Hr. congruence.
  - intros H. destruct (parse_int32 s) as [z|] eqn:E; auto. apply parse_int32_reads in E. destruct (H z E).
Qed.

(** * The parser against the grammar *)

Lemma is_quote_dec c : ceq c c_squote || ceq c c_dquote = true <-> is_quote c.
Proof. unfold is_quote. rewrite orb_true_iff, !ceq_true. reflexivity. Qed.
Lemma is_quote_dec_false c : ceq c c_squote || ceq c c_dquote = false <-> ~ is_quote c.
Proof. rewrite <- is_quote_dec. destruct (_ || _); split; congruence. Qed.

Lemma concat_cons sep (a : string) l : l <> [] -> String.concat sep (a :: l) = a ++ sep ++ String.concat sep l.
Proof. destruct l; [congruence|reflexivity]. Qed.
Lemma concat_empty_cons (a : string) l : String.concat "" (a :: l) = a ++ String.concat "" l.
Proof. destruct l; simpl; auto. now rewrite app_nil_s. Qed.

Lemma show_seg_cons p seg : show_seg (p :: seg) = show_piece p ++ show_seg seg.
Proof. unfold show_seg. cbn [map]. apply concat_empty_cons. Qed.
Lemma seg_text_cons p seg : seg_text (p :: seg) = piece_text p ++ seg_text seg.
Proof. unfold seg_text. cbn [map]. apply concat_empty_cons. Qed.
Lemma show_key_cons seg segs : segs <> [] -> show_key (seg :: segs) = show_seg seg ++ String "." (show_key segs).
Proof. intros H. unfold show_key. cbn [map]. rewrite concat_cons; auto. destruct segs; [congruence|discriminate]. Qed.

Lemma occurs_dec c s : {occurs c s} + {~ occurs c s}.
Proof.
  induction s as [|d r IH]; simpl; [auto|].
  destruct (ascii_dec d c); [auto|]. destruct IH; [auto|]. right. tauto.
Qed.

(** What parse_quoted does. *)
Lemma parse_quoted_closed key q : forall body b parts rest,
  ~ occurs q body ->
  parse_quoted key q b parts (body ++ String q rest) =
  match rest with
  | "" => Ok (parts ++ [PStr (b ++ body)])%list
  | _ => parse_unquoted key (b ++ body) parts rest
  end.
Proof.
  induction body as [|c body IH]; intros b parts rest H.
  - cbn [append parse_quoted]. rewrite ceq_refl, app_nil_s. reflexivity.
  - cbn [append parse_quoted]. simpl in H.
    destruct (ceq c q) eqn:E; [apply ceq_true in E; tauto|].
    rewrite IH; [|tauto]. unfold str1. rewrite app_assoc_s. reflexivity.
Qed.

Lemma parse_quoted_open key q : forall s b parts,
  ~ occurs q s -> parse_quoted key q b parts s = Panic (EErr ("unterminated quote in key '" ++ key ++ "'")).
Proof.
  induction s as [|c s IH]; intros b parts H; [reflexivity|].
  cbn [parse_quoted]. simpl in H. destruct (ceq c q) eqn:E; [apply ceq_true in E; tauto|]. apply IH. tauto.
Qed.

Lemma occurs_split q s : occurs q s -> exists body rest, s = body ++ String q rest /\ ~ occurs q body.
Proof.
  induction s as [|c s IH]; simpl; [contradiction|]. intros H.
  destruct (ascii_dec c q) as [->|Hne].
  - exists "", s. auto.
  - destruct H as [H|H]; [congruence|]. destruct (IH H) as (body & rest & -> & Hb).
    exists (String c body), rest. split; auto. simpl. tauto.
Qed.

Lemma ends_quoted_cons p seg : seg <> [] -> (ends_quoted (p :: seg) <-> ends_quoted seg).
Proof.
  intros Hne. split; intros (pre & q & body & E).
  - destruct pre as [|x pre]; simpl in E; injection E as -> E; [congruence|]. exists pre, q, body. auto.
  - exists (p :: pre), q, body. simpl. now rewrite E.
Qed.
Lemma ends_quoted_one q body : ends_quoted [Quoted q body].
Proof. exists [], q, body. reflexivity. Qed.
Lemma not_ends_nil : ~ ends_quoted [].
Proof. intros ([|] & ? & ? & E); discriminate. Qed.
Lemma not_ends_plain c : ~ ends_quoted [Plain c].
Proof. intros ([|x [|]] & ? & ? & E); discriminate. Qed.
Lemma ends_quoted_dec seg : {ends_quoted seg} + {~ ends_quoted seg}.
Proof.
  induction seg as [|p seg IH]; [right; apply not_ends_nil|].
  destruct seg as [|p' seg].
  - destruct p; [right; apply not_ends_plain|left; apply ends_quoted_one].
  - destruct IH as [H|H]; [left|right]; rewrite ends_quoted_cons; auto; discriminate.
Qed.

Lemma plain_part_int t z : reads_as t z -> forall p, plain_part t p -> p = PInt z.
Proof.
  intros Hr p Hp. destruct Hp as [t z' Hr'|t Hne Hno].
  - apply parse_int32_reads in Hr, Hr'. congruence.
  - destruct (Hno z Hr).
Qed.

Lemma plain_part_str t : (forall z, ~ reads_as t z) -> forall p, plain_part t p -> p = PStr t /\ t <> "".
Proof.
  intros Hr p Hp. destruct Hp as [t z' Hr'|t Hne Hno].
  - destruct (Hr z' Hr').
  - auto.
Qed.

Lemma munged_ok key ix t p :
  munged key ix t = Ok p <-> plain_part t p /\ (ix = 0 -> exists s, p = PStr s).
Proof.
  unfold munged. destruct (parse_int32 t) as [z|] eqn:E.
  - apply parse_int32_reads in E. destruct ix; simpl.
    + split; [discriminate|]. intros [H1 H2]. destruct (H2 eq_refl) as [s ->].
      apply (plain_part_int _ _ E) in H1. discriminate.
    + split.
      * intros [= <-]. split; [|lia]. now constructor.
      * intros [H1 _]. apply (plain_part_int _ _ E) in H1. now subst.
  - rewrite parse_int32_none in E. destruct (String.eqb t "") eqn:F.
    + apply String.eqb_eq in F. subst t. split; [discriminate|]. intros [H1 _].
      apply (plain_part_str _ E) in H1. destruct H1. congruence.
    + apply String.eqb_neq in F. split.
      * intros [= <-]. split; [now constructor|]. eauto.
      * intros [H1 _]. apply (plain_part_str _ E) in H1. destruct H1 as [-> _]. reflexivity.
Qed.

Lemma munged_cases key ix t :
  (exists p, munged key ix t = Ok p) \/
  munged key ix t = Panic (EErr ("key '" ++ key ++ "' first segment cannot be an index")) \/
  munged key ix t = Panic (EErr ("key '" ++ key ++ "' contains an empty segment")).
Proof.
  unfold munged. destruct (parse_int32 t); [destruct (Nat.eqb ix 0)|destruct (String.eqb t "")]; eauto.
Qed.

(** The parts of a key whose first segment already has the text [b] in front
    of it; [n] is the number of parts before. *)
Definition tail_parts (n : nat) (b : string) (seg : list piece) (segs : list (list piece)) (ps : list part) : Prop :=
  match segs with
  | [] =>
      if ends_quoted_dec seg then ps = [PStr (b ++ seg_text seg)]
      else exists p, ps = [p] /\ plain_part (b ++ seg_text seg) p /\ (n = 0 -> exists s, p = PStr s)
  | _ =>
      exists p ps', ps = p :: ps' /\ plain_part (b ++ seg_text seg) p /\ (n = 0 -> exists s, p = PStr s) /\
                    key_parts segs ps'
  end.

Lemma key_parts_tail seg segs ps :
  (key_parts (seg :: segs) ps /\ exists r rest, ps = PStr r :: rest) <-> tail_parts 0 "" seg segs ps.
Proof.
  unfold tail_parts. simpl. split.
  - intros [H (r & rest & ->)]. inversion H; subst.
    + destruct (ends_quoted_dec seg); [reflexivity|tauto].
    + destruct (ends_quoted_dec seg); [tauto|]. eexists. repeat split; eauto.
    + destruct segs as [|s2 segs]; [inversion H5|].
      exists (PStr r), rest. repeat split; eauto.
  - destruct segs as [|s2 segs].
    + destruct (ends_quoted_dec seg).
      * intros ->. split; [now constructor|eauto].
      * intros (p & -> & Hp & H0). destruct (H0 eq_refl) as [s ->]. split; [now apply kp_last_plain|eauto].
    + intros (p & ps' & -> & Hp & H0 & Hk). destruct (H0 eq_refl) as [s ->]. split; [now apply kp_more|eauto].
Qed.

Lemma key_parts_tail_S n seg segs ps :
  key_parts (seg :: segs) ps <-> tail_parts (S n) "" seg segs ps.
Proof.
  unfold tail_parts. simpl. split.
  - intros H. inversion H; subst.
    + destruct (ends_quoted_dec seg); [reflexivity|tauto].
    + destruct (ends_quoted_dec seg); [tauto|]. eexists. repeat split; eauto. lia.
    + destruct segs as [|s2 segs]; [inversion H4|].
      eexists _, _. repeat split; eauto. lia.
  - destruct segs as [|s2 segs].
    + destruct (ends_quoted_dec seg).
      * intros ->. now constructor.
      * intros (p & -> & Hp & _). now apply kp_last_plain.
    + intros (p & ps' & -> & Hp & _ & Hk). now apply kp_more.
Qed.

(** Completeness: a written key is parsed into its parts. *)
Lemma parse_complete key : forall segs seg b parts ps,
  Forall seg_ok (seg :: segs) ->
  tail_parts (List.length parts) b seg segs ps ->
  parse_unquoted key b parts (show_key (seg :: segs)) = Ok (parts ++ ps)%list.
Proof.
  induction segs as [|seg2 segs IHsegs].
  - intros seg b parts ps Hok Ht. unfold show_key. cbn [map String.concat].
    inversion Hok as [|? ? Hseg _]; subst. clear Hok. revert b ps Ht.
    induction seg as [|p seg IH]; intros b ps Ht.
    + cbn. unfold tail_parts in Ht. destruct (ends_quoted_dec []) as [E|E]; [destruct (not_ends_nil E)|].
      destruct Ht as (p & -> & Hp & H0). cbn in Hp. rewrite app_nil_s in Hp.
      replace (munged key (List.length parts) b) with (Ok p); [reflexivity|].
      symmetry. apply munged_ok. auto.
    + inversion Hseg as [|? ? Hp Hrest]; subst. rewrite show_seg_cons.
      destruct p as [c|q body]; simpl in Hp.
      * cbn [show_piece append parse_unquoted]. destruct Hp as [Hq Hd].
        apply is_quote_dec_false in Hq. rewrite Hq.
        destruct (ceq c c_dot) eqn:Ed; [apply ceq_true in Ed; now destruct Hd|].
        apply IH; auto. unfold tail_parts in *. rewrite seg_text_cons in Ht. cbn [piece_text] in Ht.
        unfold str1. rewrite app_assoc_s.
        destruct (ends_quoted_dec seg) as [E|E], (ends_quoted_dec (Plain c :: seg)) as [F|F]; auto.
        -- exfalso. apply F. destruct seg; [now apply not_ends_nil in E|]. rewrite ends_quoted_cons by discriminate. exact E.
        -- exfalso. destruct seg; [now apply not_ends_plain in F|]. rewrite ends_quoted_cons in F by discriminate. auto.
      * destruct Hp as [Hq Hocc]. cbn [show_piece]. rewrite <- app_comm_cons_s, app_assoc_s.
        cbn [append parse_unquoted]. apply is_quote_dec in Hq. rewrite Hq.
        rewrite parse_quoted_closed; auto.
        destruct seg as [|p2 seg].
        -- cbn. unfold tail_parts in Ht.
           destruct (ends_quoted_dec [Quoted q body]) as [E|E]; [|destruct E; apply ends_quoted_one].
           subst ps. reflexivity.
        -- assert (show_seg (p2 :: seg) <> "") as Hne.
           { rewrite show_seg_cons. destruct p2; discriminate. }
           destruct (show_seg (p2 :: seg)) as [|c0 r0] eqn:Es; [congruence|].
           apply IH; auto. unfold tail_parts in *. rewrite seg_text_cons in Ht.
           cbn [piece_text] in Ht. rewrite app_assoc_s.
           destruct (ends_quoted_dec (p2 :: seg)) as [E|E], (ends_quoted_dec (Quoted q body :: p2 :: seg)) as [F|F]; auto;
             rewrite ends_quoted_cons in F by discriminate; tauto.
  - intros seg b parts ps Hok Ht. rewrite show_key_cons by discriminate.
    inversion Hok as [|? ? Hseg Hsegs]; subst. clear Hok.
    destruct Ht as (p & ps' & -> & Hp & H0 & Hk).
    assert (parse_unquoted key b parts (show_seg seg ++ String "." (show_key (seg2 :: segs))) =
            obind (munged key (List.length parts) (b ++ seg_text seg))
                  (fun p => parse_unquoted key "" (parts ++ [p])%list (show_key (seg2 :: segs)))) as ->.
    { clear -Hseg. generalize (show_key (seg2 :: segs)) as rest. intros rest. revert b.
      induction seg as [|p seg IH]; intros b.
      - cbn. now rewrite app_nil_s.
      - inversion Hseg as [|? ? Hp Hrest]; subst. rewrite show_seg_cons, seg_text_cons.
        destruct p as [c|q body]; simpl in Hp.
        + cbn [show_piece append parse_unquoted]. destruct Hp as [Hq Hd].
          apply is_quote_dec_false in Hq. rewrite Hq.
          destruct (ceq c c_dot) eqn:Ed; [apply ceq_true in Ed; now destruct Hd|].
          rewrite IH; auto. cbn [piece_text]. unfold str1. rewrite app_assoc_s. reflexivity.
        + destruct Hp as [Hq Hocc]. cbn [show_piece]. rewrite <- !app_comm_cons_s, !app_assoc_s.
          cbn [append parse_unquoted]. apply is_quote_dec in Hq. rewrite Hq.
          rewrite parse_quoted_closed; auto.
          destruct (show_seg seg ++ String "." rest) as [|c0 r0] eqn:Es;
            [destruct (show_seg seg); discriminate|].
          rewrite IH; auto. cbn [piece_text]. rewrite app_assoc_s. reflexivity. }
    assert (munged key (List.length parts) (b ++ seg_text seg) = Ok p) as -> by now apply munged_ok.
    cbn [obind]. rewrite (IHsegs seg2 "" (parts ++ [p])%list ps'); auto.
    + rewrite <- app_assoc. reflexivity.
    + rewrite app_length. simpl. rewrite Nat.add_1_r. now apply key_parts_tail_S.
Qed.

(** Soundness: whatever the parser accepts is a written key, and its only
    failures are the three errors. *)
Definition three_errors (key : string) (e : err) : Prop :=
  e = EErr ("unterminated quote in key '" ++ key ++ "'") \/
  e = EErr ("key '" ++ key ++ "' first segment cannot be an index") \/
  e = EErr ("key '" ++ key ++ "' contains an empty segment").

Lemma tail_parts_piece n b p seg segs ps :
  (segs = [] -> ends_quoted (p :: seg) <-> ends_quoted seg) ->
  tail_parts n (b ++ piece_text p) seg segs ps -> tail_parts n b (p :: seg) segs ps.
Proof.
  intros He. unfold tail_parts. rewrite seg_text_cons, app_assoc_s. destruct segs; auto.
  specialize (He eq_refl).
  destruct (ends_quoted_dec seg), (ends_quoted_dec (p :: seg)); tauto.
Qed.

Lemma parse_sound_aux key : forall n s b parts, String.length s <= n ->
  match parse_unquoted key b parts s with
  | Ok ps => exists seg segs rest, ps = (parts ++ rest)%list /\ Forall seg_ok (seg :: segs) /\
               s = show_key (seg :: segs) /\ tail_parts (List.length parts) b seg segs rest
  | Panic e => three_errors key e
  | _ => False
  end.
Proof.
  induction n as [|n IH]; intros s b parts Hl.
  - destruct s; [|simpl in Hl; lia]. cbn [parse_unquoted].
    destruct (munged_cases key (List.length parts) b) as [[p E]|[E|E]]; rewrite E; cbn [obind].
    + exists [], [], [p]. split; [reflexivity|]. split; [repeat constructor|]. split; [reflexivity|].
      unfold tail_parts. destruct (ends_quoted_dec []) as [F|F]; [destruct (not_ends_nil F)|].
      exists p. split; auto. cbn. rewrite app_nil_s. now apply munged_ok in E.
    + unfold three_errors; auto.
    + unfold three_errors; auto.
  - destruct s as [|c r]; [apply (IH "" b parts); simpl; lia|]. simpl in Hl.
    cbn [parse_unquoted].
    destruct (ceq c c_squote || ceq c c_dquote) eqn:Q.
    + apply is_quote_dec in Q.
      destruct (occurs_dec c r) as [O|O].
      * apply occurs_split in O. destruct O as (body & rest & -> & Hb).
        rewrite parse_quoted_closed; auto. destruct rest as [|c1 r1].
        -- exists [Quoted c body], [], [PStr (b ++ body)]. split; [reflexivity|]. split; [|split].
           ++ constructor; auto. constructor; auto. simpl. auto.
           ++ unfold show_key, show_seg. cbn. reflexivity.
           ++ unfold tail_parts. destruct (ends_quoted_dec [Quoted c body]) as [F|F]; [|destruct F; apply ends_quoted_one].
              reflexivity.
        -- rewrite length_app_s in Hl. simpl in Hl.
           specialize (IH (String c1 r1) (b ++ body) parts ltac:(simpl; lia)).
           destruct (parse_unquoted key (b ++ body) parts (String c1 r1)) as [ps|e| |]; auto.
           destruct IH as (seg & segs & rest & -> & Hok & Hs & Ht).
           exists (Quoted c body :: seg), segs, rest. split; auto. inversion Hok; subst. split.
           { constructor; auto. constructor; auto. simpl. auto. }
           split.
           ++ destruct segs as [|s2 segs].
              ** unfold show_key in *. cbn [map String.concat] in *. rewrite show_seg_cons. cbn [show_piece].
                 rewrite Hs, <- app_comm_cons_s, app_assoc_s. reflexivity.
              ** rewrite show_key_cons in * by discriminate. rewrite show_seg_cons. cbn [show_piece].
                 rewrite Hs, <- !app_comm_cons_s, !app_assoc_s. reflexivity.
           ++ apply tail_parts_piece; auto. intros ->. apply ends_quoted_cons.
              intros ->. discriminate.
      * rewrite parse_quoted_open; auto. unfold three_errors; auto.
    + apply is_quote_dec_false in Q.
      destruct (ceq c c_dot) eqn:D.
      * apply ceq_true in D. subst c.
        destruct (munged_cases key (List.length parts) b) as [[p E]|[E|E]]; rewrite E; cbn [obind];
          try (unfold three_errors; now auto).
        specialize (IH r "" (parts ++ [p])%list ltac:(lia)).
        destruct (parse_unquoted key "" (parts ++ [p])%list r) as [ps|e| |]; auto.
        destruct IH as (seg & segs & rest & -> & Hok & -> & Ht).
        exists [], (seg :: segs), (p :: rest). rewrite <- app_assoc. split; auto. split; [constructor; auto; constructor|].
        split; [reflexivity|].
        unfold tail_parts. exists p, rest. apply munged_ok in E. destruct E as [E1 E2].
        cbn. rewrite app_nil_s. repeat split; auto.
        rewrite app_length in Ht. simpl in Ht. rewrite Nat.add_1_r in Ht. now apply key_parts_tail_S in Ht.
      * apply ceq_false in D.
        specialize (IH r (b ++ str1 c) parts ltac:(lia)).
        destruct (parse_unquoted key (b ++ str1 c) parts r) as [ps|e| |]; auto.
        destruct IH as (seg & segs & rest & -> & Hok & Hs & Ht).
        exists (Plain c :: seg), segs, rest. split; auto. inversion Hok; subst. split.
        { constructor; auto. constructor; auto. simpl. auto. }
        split.
        ++ destruct segs as [|s2 segs].
           ** unfold show_key in *. cbn [map String.concat] in *. rewrite show_seg_cons. reflexivity.
           ** unfold show_key in *. cbn [map String.concat] in *. rewrite show_seg_cons. reflexivity.
        ++ apply tail_parts_piece; auto. intros ->. destruct seg as [|p2 seg].
           ** split; intros F; [destruct (not_ends_plain _ F)|destruct (not_ends_nil F)].
           ** apply ends_quoted_cons. discriminate.
Qed.

Lemma new_key_written s k :
  new_key s = Ok k <-> exists parts, k = mk_key s parts /\ written_key s parts.
Proof.
  unfold new_key. split.
  - intros H. pose proof (parse_sound_aux s (String.length s) s "" [] (le_n _)) as HS.
    destruct (parse_unquoted s "" [] s) as [ps|e| |]; try discriminate.
    cbn in H. injection H as <-. exists ps. split; auto.
    destruct HS as (seg & segs & rest & -> & Hok & Hs & Ht). simpl in Ht |- *.
    apply key_parts_tail in Ht. exists (seg :: segs). tauto.
  - intros (parts & -> & segs & Hok & Hs & Hk & Hr).
    destruct segs as [|seg segs]; [inversion Hk|].
    assert (parse_unquoted s "" [] s = Ok parts) as ->; [|reflexivity].
    rewrite Hs at 2. apply (parse_complete s segs seg "" [] parts Hok).
    apply key_parts_tail. auto.
Qed.

Lemma new_key_total s : (exists k, new_key s = Ok k) \/ (exists e, new_key s = Panic e /\ three_errors s e).
Proof.
  unfold new_key. pose proof (parse_sound_aux s (String.length s) s "" [] (le_n _)) as HS.
  destruct (parse_unquoted s "" [] s) as [ps|e| |]; cbn; eauto; contradiction.
Qed.

Lemma new_key_root s k : new_key s = Ok k -> exists r rest, k_parts k = PStr r :: rest /\ root k = Ok r.
Proof.
  intros H. apply new_key_written in H. destruct H as (parts & -> & segs & _ & _ & _ & r & rest & ->).
  exists r, rest. auto.
Qed.

(** A text is written in only one way. *)
Lemma show_seg_inj_aux : forall seg seg' t t',
  seg_ok seg -> seg_ok seg' ->
  (t = "" \/ exists r, t = String "." r) -> (t' = "" \/ exists r, t' = String "." r) ->
  show_seg seg ++ t = show_seg seg' ++ t' -> seg = seg' /\ t = t'.
Proof.
  assert (forall q b1 b2 t1 t2, ~ occurs q b1 -> ~ occurs q b2 ->
            b1 ++ String q t1 = b2 ++ String q t2 -> b1 = b2 /\ t1 = t2) as HB.
  { induction b1 as [|c b1 IH]; intros [|c2 b2] t1 t2 H1 H2 E; simpl in *; injection E; intros; subst; try tauto; auto.
    destruct (IH b2 t1 t2) as [-> ->]; tauto. }
  assert (forall p seg t, piece_ok p -> (t = "" \/ exists r, t = String "." r) ->
             show_seg (p :: seg) ++ t <> t /\ (forall t', (t' = "" \/ exists r, t' = String "." r) -> show_seg (p :: seg) ++ t <> t')) as HN.
  { intros p seg t Hp Ht. assert (forall t', (t' = "" \/ exists r, t' = String "." r) -> show_seg (p :: seg) ++ t <> t') as HX.
    { intros t' Ht'. rewrite show_seg_cons. destruct p as [c|q body]; simpl in Hp; destruct Ht' as [->|[r ->]]; try discriminate.
      - simpl. intros E. injection E as E _. tauto.
      - simpl. intros E. injection E as E _. destruct Hp as [[-> | ->] _]; discriminate. }
    split; auto. }
  induction seg as [|p seg IH]; intros [|p' seg'] t t' Hs Hs' Ht Ht' E.
  - simpl in E. auto.
  - exfalso. inversion Hs'; subst. destruct (HN p' seg' t' H1 Ht') as [_ HX]. apply (HX t Ht). now symmetry.
  - exfalso. inversion Hs; subst. destruct (HN p seg t H1 Ht) as [_ HX]. apply (HX t' Ht'). now symmetry in E.
  - inversion Hs as [|? ? Hp Hr]; inversion Hs' as [|? ? Hp' Hr']; subst.
    rewrite !show_seg_cons, !app_assoc_s in E.
    destruct p as [c|q b], p' as [c'|q' b']; simpl in Hp, Hp'; cbn [show_piece append] in E.
    + injection E as -> E. destruct (IH seg' t t' Hr Hr' Ht Ht' E) as [-> ->]. auto.
    + injection E as -> E. tauto.
    + injection E as -> E. tauto.
    + injection E as -> E. rewrite !app_assoc_s in E. cbn [append] in E.
      destruct (HB q' b b' _ _ (proj2 Hp) (proj2 Hp') E) as [-> E'].
      destruct (IH seg' t t' Hr Hr' Ht Ht' E') as [-> ->]. auto.
Qed.

Lemma show_key_inj : forall segs segs',
  segs <> [] -> segs' <> [] -> Forall seg_ok segs -> Forall seg_ok segs' ->
  show_key segs = show_key segs' -> segs = segs'.
Proof.
  assert (forall seg segs, exists t, (t = "" /\ segs = [] \/ t = String "." (show_key segs) /\ segs <> []) /\ show_key (seg :: segs) = show_seg seg ++ t) as HX.
  { intros seg [|s2 segs].
    - exists "". split; auto. unfold show_key. cbn. now rewrite app_nil_s.
    - exists (String "." (show_key (s2 :: segs))). split; [right; split; [reflexivity|discriminate]|].
      apply show_key_cons. discriminate. }
  induction segs as [|seg segs IH]; intros [|seg' segs'] H1 H2 O1 O2 E; try congruence.
  destruct (HX seg segs) as (t & Ht & E1), (HX seg' segs') as (t' & Ht' & E2).
  rewrite E1, E2 in E. inversion O1; inversion O2; subst.
  destruct (show_seg_inj_aux seg seg' t t') as [-> Et]; auto.
  - destruct Ht as [[-> _]|[-> _]]; eauto.
  - destruct Ht' as [[-> _]|[-> _]]; eauto.
  - destruct Ht as [[-> ->]|[-> Hn]], Ht' as [[-> ->]|[-> Hn']]; try discriminate; auto.
    injection Et as Et. f_equal. auto.
Qed.

(** * Dig and Bury *)

Lemma mget_first k m w (Hk : forall x, veq k x = true <-> x = k) :
  mget k m = Some w <-> exists pre post, m = (pre ++ (k, w) :: post)%list /\ (forall y, ~ In (k, y) pre).
Proof.
  split.
  - induction m as [|[x y] m IH]; simpl; [discriminate|].
    destruct (veq k x) eqn:E.
    + apply Hk in E. subst x. intros [= <-]. exists [], m. split; auto.
    + intros H. destruct (IH H) as (pre & post & -> & Hn). exists ((x, y) :: pre), post. split; auto.
      intros y0 [F|F]; [|eapply Hn; eauto]. injection F as -> ->.
      assert (veq k k = true) by now apply Hk. congruence.
  - intros (pre & post & -> & Hn). induction pre as [|[x y] pre IH]; simpl.
    + assert (veq k k = true) as -> by now apply Hk. reflexivity.
    + destruct (veq k x) eqn:E.
      * apply Hk in E. subst x. exfalso. apply (Hn y). now left.
      * apply IH. intros y0 F. apply (Hn y0). now right.
Qed.

Lemma dig_part_step p v w : dig_part p v = Some w <-> step_into v p w.
Proof.
  split.
  - destruct v; simpl; try discriminate.
    + destruct p as [z|s]; [|discriminate].
      destruct ((0 <=? z)%Z && (z <? Z.of_nat (List.length l))%Z) eqn:E; [|discriminate].
      apply andb_true_iff in E. rewrite Z.leb_le, Z.ltb_lt in E.
      intros H. destruct (nth_error_split _ _ H) as (pre & post & -> & Hl).
      replace z with (Z.of_nat (List.length pre)) by lia. constructor.
    + destruct p as [z|s]; simpl; intros H.
      * apply (mget_first (VInt z)) in H; [|apply veq_int_l]. destruct H as (pre & post & -> & Hn). econstructor; eauto.
      * apply (mget_first (VStr s)) in H; [|apply veq_str_l]. destruct H as (pre & post & -> & Hn). econstructor; eauto.
  - intros H. destruct H as [pre x post|m pre z x post -> Hn|m pre s x post -> Hn]; simpl.
    + replace ((0 <=? Z.of_nat (List.length pre))%Z && (Z.of_nat (List.length pre) <? Z.of_nat (List.length (pre ++ x :: post)))%Z) with true.
      * rewrite Nat2Z.id, nth_error_app2, Nat.sub_diag; auto.
      * symmetry. apply andb_true_iff. rewrite Z.leb_le, Z.ltb_lt, app_length. simpl. lia.
    + apply (mget_first (VInt z)); [apply veq_int_l|eauto].
    + apply (mget_first (VStr s)); [apply veq_str_l|eauto].
Qed.

Lemma dig_parts_path ps : forall v w, dig_parts ps v = Some w <-> path v ps w.
Proof.
  induction ps as [|p ps IH]; intros v w; simpl.
  - split; [intros [= ->]; constructor|]. intros H. inversion H; subst. reflexivity.
  - split.
    + destruct (dig_part p v) as [x|] eqn:E; [|discriminate]. intros H.
      apply path_cons with x; [now apply dig_part_step|now apply IH].
    + intros H. inversion H as [|? ? x ? ? Hs Hp]; subst. apply dig_part_step in Hs. rewrite Hs. now apply IH.
Qed.

Lemma dig_bury k v : dig k (bury k v) = Some v.
Proof.
  unfold dig, bury. induction (tl (k_parts k)) as [|p ps IH]; [reflexivity|].
  simpl. destruct p as [z|s]; simpl.
  - now rewrite Z.eqb_refl.
  - now rewrite String.eqb_refl.
Qed.

(** * Plain keys *)

Definition plain_seg (s : string) : list piece := map Plain (list_ascii_of_string s).

Lemma show_plain s : show_seg (plain_seg s) = s.
Proof. induction s as [|c s IH]; [reflexivity|]. unfold plain_seg in *. cbn [list_ascii_of_string map]. rewrite show_seg_cons, IH. reflexivity. Qed.
Lemma text_plain s : seg_text (plain_seg s) = s.
Proof. induction s as [|c s IH]; [reflexivity|]. unfold plain_seg in *. cbn [list_ascii_of_string map]. rewrite seg_text_cons, IH. reflexivity. Qed.
Lemma plain_not_quoted s : ~ ends_quoted (plain_seg s).
Proof.
  intros (pre & q & body & E). assert (In (Quoted q body) (plain_seg s)) as H by (rewrite E; apply in_or_app; simpl; auto).
  unfold plain_seg in H. apply in_map_iff in H. destruct H as (c & Hc & _). discriminate.
Qed.
Lemma plain_seg_ok s :
  ~ occurs "."%char s -> ~ occurs "'"%char s -> ~ occurs """"%char s -> seg_ok (plain_seg s).
Proof.
  induction s as [|c s IH]; simpl; intros H1 H2 H3; [constructor|].
  constructor; [|apply IH; tauto]. simpl. unfold is_quote. split; [|tauto]. tauto.
Qed.

Lemma plain_part_total t : t <> "" -> exists p, plain_part t p.
Proof.
  intros H. destruct (parse_int32 t) as [z|] eqn:E.
  - apply parse_int32_reads in E. exists (PInt z). now constructor.
  - rewrite parse_int32_none in E. exists (PStr t). now constructor.
Qed.

Lemma dotted_parts segs :
  segs <> [] -> (forall t, In t segs -> t <> "") ->
  exists ps, key_parts (map plain_seg segs) ps /\ Forall2 plain_part segs ps.
Proof.
  induction segs as [|t segs IH]; [congruence|]. intros _ Ht.
  destruct (plain_part_total t) as [p Hp]; [apply Ht; now left|].
  destruct segs as [|t2 segs].
  - exists [p]. split; [|repeat constructor; auto]. cbn [map]. apply kp_last_plain; [apply plain_not_quoted|now rewrite text_plain].
  - destruct IH as (ps & Hk & Hf); [discriminate|intros; apply Ht; now right|].
    exists (p :: ps). split; [|constructor; auto]. cbn [map]. apply kp_more; [now rewrite text_plain|auto].
Qed.

Lemma dotted_key segs :
  segs <> [] ->
  (forall t, In t segs -> t <> "" /\ ~ occurs "."%char t /\ ~ occurs "'"%char t /\ ~ occurs """"%char t) ->
  (forall z, ~ reads_as (hd "" segs) z) ->
  exists ps, new_key (String.concat "." segs) = Ok (mk_key (String.concat "." segs) ps) /\ Forall2 plain_part segs ps.
Proof.
  intros Hne Hok Hz.
  destruct (dotted_parts segs Hne) as (ps & Hk & Hf); [intros t Ht; apply (Hok t Ht)|].
  exists ps. split; auto. apply new_key_written. exists ps. split; auto.
  exists (map plain_seg segs). repeat split; auto.
  - apply Forall_forall. intros x Hx. apply in_map_iff in Hx. destruct Hx as (t & <- & Ht).
    destruct (Hok t Ht) as (_ & ? & ? & ?). now apply plain_seg_ok.
  - unfold show_key. rewrite map_map. f_equal. symmetry. erewrite map_ext; [apply map_id|]. apply show_plain.
  - destruct Hf as [|t p segs ps Hp Hf]; [congruence|]. simpl in Hz.
    destruct (plain_part_str t Hz p Hp) as [-> _]. eauto.
Qed.

(** * Quoted segments *)

Lemma key_parts_length segs ps : key_parts segs ps -> List.length ps = List.length segs.
Proof. induction 1; simpl; auto. Qed.

Lemma key_parts_nth segs ps : key_parts segs ps -> forall i q body,
  nth_error segs i = Some [Quoted q body] ->
  S i = List.length segs \/ (body <> "" /\ forall z, ~ reads_as body z) ->
  nth_error ps i = Some (PStr body).
Proof.
  assert (forall q body, seg_text [Quoted q body] = body) as HT.
  { intros. rewrite seg_text_cons. cbn. apply app_nil_s. }
  induction 1 as [seg Hq|seg p Hn Hp|seg p segs ps Hp Hk IH]; intros i q body Hi Hc.
  - destruct i; simpl in Hi; [|destruct i; discriminate]. injection Hi as ->. simpl. now rewrite HT.
  - destruct i; simpl in Hi; [|destruct i; discriminate]. injection Hi as ->.
    destruct Hn. apply ends_quoted_one.
  - destruct i; simpl in Hi.
    + injection Hi as ->. rewrite HT in Hp. destruct Hc as [Hc|[_ Hc]].
      * simpl in Hc. destruct segs; [inversion Hk|discriminate].
      * apply (plain_part_str _ Hc) in Hp. destruct Hp as [-> _]. reflexivity.
    + simpl. apply (IH i q body Hi). destruct Hc as [Hc|Hc]; auto.
Qed.
