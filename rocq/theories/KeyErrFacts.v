(** Proofs about texts that are no keys. *)

From Coq Require Import String Ascii List ZArith Bool Arith Lia.
From Verif Require Import Str Value ValueFacts Outcome Key SpecKey KeyFacts SpecKeyErr.
Import ListNotations.
Open Scope string_scope.

Lemma show_seg_app a b : show_seg (a ++ b)%list = show_seg a ++ show_seg b.
Proof. induction a as [|p a IH]; [ reflexivity | ]. cbn [app]. rewrite !show_seg_cons, IH, app_assoc_s. reflexivity. Qed.
Lemma seg_text_app a b : seg_text (a ++ b)%list = seg_text a ++ seg_text b.
Proof. induction a as [|p a IH]; [ reflexivity | ]. cbn [app]. rewrite !seg_text_cons, IH, app_assoc_s. reflexivity. Qed.
Lemma led_app a b : led (a ++ b)%list = led a ++ led b.
Proof. induction a as [|p a IH]; [ reflexivity | ]. cbn [app led]. rewrite IH, !app_assoc_s. reflexivity. Qed.

(** Reading a segment. *)
Lemma parse_seg key : forall seg b parts rest, seg_ok seg -> rest <> "" \/ ~ ends_quoted seg ->
  parse_unquoted key b parts (show_seg seg ++ rest) = parse_unquoted key (b ++ seg_text seg) parts rest.
Proof.
  induction seg as [|p seg IH]; intros b parts rest Hok Hr.
  - cbn. rewrite app_nil_s. reflexivity.
  - inversion Hok as [|? ? Hp Hs]; subst. rewrite show_seg_cons, seg_text_cons, app_assoc_s.
    assert (Hr' : rest <> "" \/ ~ ends_quoted seg).
    { destruct Hr as [Hr|Hr]; [ left; exact Hr | ]. destruct seg as [|p' seg]; [ right; apply not_ends_nil | ].
      right. rewrite ends_quoted_cons in Hr; [ exact Hr | discriminate ]. }
    rewrite <- (app_assoc_s b). rewrite <- (IH (b ++ piece_text p) parts rest Hs Hr').
    destruct p as [c|q body]; cbn [show_piece piece_text] in *.
    + cbn [append parse_unquoted]. destruct Hp as [Hq Hd].
      apply is_quote_dec_false in Hq. rewrite Hq. apply ceq_false in Hd.
      change c_dot with "."%char. rewrite Hd. reflexivity.
    + destruct Hp as [Hq Ho]. cbn [append parse_unquoted].
      apply is_quote_dec in Hq. rewrite Hq. rewrite app_assoc_s. cbn [append].
      rewrite parse_quoted_closed by exact Ho.
      destruct (show_seg seg ++ rest) as [|c r] eqn:E; [ | reflexivity ].
      exfalso. destruct rest as [|c r]; [ | destruct (show_seg seg); discriminate E ].
      destruct Hr as [Hr|Hr]; [ congruence | ]. apply Hr.
      destruct seg as [|p' seg]; [ apply ends_quoted_one | ].
      rewrite show_seg_cons in E. destruct p' as [c|q' b']; discriminate E.
Qed.

Lemma parse_led key : forall segs parts rest, Forall seg_ok segs ->
  Forall (fun seg => exists p, plain_part (seg_text seg) p) segs ->
  (parts = [] -> forall seg r, segs = seg :: r -> exists t, plain_part (seg_text seg) (PStr t)) ->
  exists ps, List.length ps = List.length segs /\
  parse_unquoted key "" parts (led segs ++ rest) = parse_unquoted key "" (parts ++ ps)%list rest.
Proof.
  induction segs as [|seg segs IH]; intros parts rest Hok Hp H0.
  - exists []. split; [ reflexivity | ]. rewrite app_nil_r. reflexivity.
  - inversion Hok as [|? ? Ho Hok']; subst. inversion Hp as [|? ? [p Hpp] Hp']; subst.
    assert (Hq : exists p, munged key (List.length parts) (seg_text seg) = Ok p).
    { destruct parts as [|x parts].
      - destruct (H0 eq_refl seg segs eq_refl) as [t Ht]. exists (PStr t). apply munged_ok. eauto.
      - exists p. apply munged_ok. split; [ exact Hpp | discriminate ]. }
    destruct Hq as [q Hq].
    destruct (IH (parts ++ [q])%list rest Hok' Hp') as (ps & L & E).
    { intro E. destruct parts; discriminate E. }
    exists (q :: ps). split; [ cbn; congruence | ].
    cbn [led]. rewrite !app_assoc_s. rewrite parse_seg; [ | exact Ho | left; discriminate ].
    cbn [append parse_unquoted]. replace (ceq "." c_squote || ceq "." c_dquote) with false by reflexivity.
    replace (ceq "." c_dot) with true by reflexivity. rewrite Hq. cbn [obind]. rewrite E.
    rewrite <- app_assoc. reflexivity.
Qed.

Lemma parse_over key seg parts rest e : seg_ok seg -> over seg rest ->
  munged key (List.length parts) (seg_text seg) = Panic e ->
  parse_unquoted key "" parts (show_seg seg ++ rest) = Panic e.
Proof.
  intros Ho Hr Hm. destruct Hr as [[r ->]|[-> Hr]].
  - rewrite parse_seg; [ | exact Ho | left; discriminate ]. cbn [append parse_unquoted].
    replace (ceq "." c_squote || ceq "." c_dquote) with false by reflexivity.
    replace (ceq "." c_dot) with true by reflexivity. rewrite Hm. reflexivity.
  - rewrite parse_seg; [ | exact Ho | right; exact Hr ]. cbn [append parse_unquoted]. rewrite Hm. reflexivity.
Qed.

Lemma misspelt_refused s e : misspelt s e -> new_key s = Panic e.
Proof.
  assert (L : forall before rest, right_segments before ->
    exists ps, List.length ps = List.length before /\
    parse_unquoted s "" [] (led before ++ rest) = parse_unquoted s "" ps rest).
  { intros before rest (H1 & H2 & H3). exact (parse_led s before [] rest H1 H2 (fun _ => H3)). }
  intro H. unfold new_key.
  assert (P : parse_unquoted s "" [] s = Panic e); [ | rewrite P; reflexivity ].
  destruct H as [seg rest z Ho E Hr Hz|before seg rest Hb Ho E Hr Ht|before seg q rest Hb Ho E Hq Hn].
  - rewrite E at 2. apply parse_over; [ exact Ho | exact Hr | ]. unfold munged.
    apply parse_int32_reads in Hz. rewrite Hz. reflexivity.
  - destruct (L before (show_seg seg ++ rest) Hb) as (ps & Hl & Ep). rewrite E at 2. rewrite Ep.
    apply parse_over; [ exact Ho | exact Hr | ]. unfold munged. rewrite Ht. reflexivity.
  - destruct (L before (show_seg seg ++ String q rest) Hb) as (ps & Hl & Ep). rewrite E at 2. rewrite Ep.
    rewrite parse_seg; [ | exact Ho | left; discriminate ]. cbn [append parse_unquoted].
    apply is_quote_dec in Hq. rewrite Hq. apply parse_quoted_open. exact Hn.
Qed.

(** The other direction: what has been read so far is right. *)
Lemma refused_misspelt_aux key : forall n s before seg parts e, String.length s <= n ->
  right_segments before -> seg_ok seg -> List.length parts = List.length before ->
  key = led before ++ show_seg seg ++ s -> s <> "" \/ ~ ends_quoted seg ->
  parse_unquoted key (seg_text seg) parts s = Panic e -> misspelt key e.
Proof.
  assert (Over : forall before seg (parts : list part) s e, right_segments before -> seg_ok seg ->
     List.length parts = List.length before -> key = led before ++ show_seg seg ++ s -> over seg s ->
     munged key (List.length parts) (seg_text seg) = Panic e -> misspelt key e).
  { intros before seg parts s e Hb Ho Hl Hk Hr Hm. unfold munged in Hm.
    destruct (parse_int32 (seg_text seg)) as [z|] eqn:E.
    - apply parse_int32_reads in E. destruct (Nat.eqb (List.length parts) 0) eqn:Z; [ | discriminate ].
      apply Nat.eqb_eq in Z. injection Hm as <-. destruct before; [ | rewrite Hl in Z; discriminate Z ].
      exact (ms_index key seg s z Ho Hk Hr E).
    - destruct (String.eqb (seg_text seg) "") eqn:F; [ | discriminate ]. apply String.eqb_eq in F. injection Hm as <-.
      exact (ms_empty key before seg s Hb Ho Hk Hr F). }
  induction n as [|n IH]; intros s before seg parts e Hn Hb Ho Hl Hk Hs H.
  - destruct s; [ | cbn in Hn; lia ]. cbn [parse_unquoted] in H.
    destruct (munged key (List.length parts) (seg_text seg)) as [p|x| |] eqn:M; cbn [obind] in H; try discriminate.
    injection H as ->. apply (Over before seg parts "" e Hb Ho Hl Hk); [ | exact M ].
    right. split; [ reflexivity | ]. destruct Hs as [Hs|Hs]; [ congruence | exact Hs ].
  - destruct s as [|c r].
    { apply (IH "" before seg parts e); auto. cbn; lia. }
    cbn [String.length] in Hn. cbn [parse_unquoted] in H.
    destruct (ceq c c_squote || ceq c c_dquote) eqn:Q.
    + apply is_quote_dec in Q. destruct (occurs_dec c r) as [O|O].
      * apply occurs_split in O as (body & rest & -> & Hbd). rewrite parse_quoted_closed in H by exact Hbd.
        destruct rest as [|c1 r1]; [ discriminate | ].
        apply (IH (String c1 r1) before (seg ++ [Quoted c body])%list parts e).
        -- rewrite length_app_s in Hn. cbn [String.length] in *. lia.
        -- exact Hb.
        -- apply Forall_app. split; [ exact Ho | ]. constructor; [ | constructor ]. split; assumption.
        -- exact Hl.
        -- rewrite Hk, show_seg_app. unfold show_seg at 3. cbn [map String.concat show_piece].
           rewrite !app_assoc_s. cbn [append]. rewrite !app_assoc_s. reflexivity.
        -- left. discriminate.
        -- rewrite seg_text_app. exact H.
      * rewrite parse_quoted_open in H by exact O. injection H as <-.
        exact (ms_open key before seg c r Hb Ho Hk Q O).
    + apply is_quote_dec_false in Q. destruct (ceq c c_dot) eqn:D.
      * apply ceq_true in D. subst c.
        destruct (munged key (List.length parts) (seg_text seg)) as [p|x| |] eqn:M; cbn [obind] in H; try discriminate.
        -- apply munged_ok in M as [M1 M2].
           apply (IH r (before ++ [seg])%list [] (parts ++ [p])%list e).
           ++ lia.
           ++ destruct Hb as (B1 & B2 & B3). split; [ apply Forall_app; auto | ]. split.
              ** apply Forall_app. split; [ exact B2 | ]. constructor; [ eauto | constructor ].
              ** intros seg' r' E. destruct before as [|s0 before].
                 --- injection E as <- <-. destruct (M2 ltac:(rewrite Hl; reflexivity)) as [t ->]. eauto.
                 --- injection E as <- _. exact (B3 s0 before eq_refl).
           ++ constructor.
           ++ rewrite !app_length, Hl. reflexivity.
           ++ rewrite Hk, led_app. cbn [led]. rewrite !app_assoc_s. reflexivity.
           ++ right. apply not_ends_nil.
           ++ exact H.
        -- injection H as ->. apply (Over before seg parts (String "." r) e Hb Ho Hl Hk); [ | exact M ].
           left. exists r. reflexivity.
      * apply ceq_false in D.
        apply (IH r before (seg ++ [Plain c])%list parts e).
        -- lia.
        -- exact Hb.
        -- apply Forall_app. split; [ exact Ho | ]. constructor; [ | constructor ]. split; assumption.
        -- exact Hl.
        -- rewrite Hk, show_seg_app. unfold show_seg at 3. cbn [map String.concat show_piece]. rewrite !app_assoc_s. reflexivity.
        -- right. intros (pre & q & body & E). apply app_inj_tail in E as [_ E]. discriminate E.
        -- rewrite seg_text_app. exact H.
Qed.

Lemma new_key_refused s e : new_key s = Panic e <-> misspelt s e.
Proof.
  split; [ | apply misspelt_refused ]. intro H. unfold new_key in H.
  destruct (parse_unquoted s "" [] s) as [ps|x| |] eqn:E; cbn in H; try discriminate. injection H as ->.
  apply (refused_misspelt_aux s (String.length s) s [] [] [] e (le_n _)); auto.
  - split; [ constructor | ]. split; [ constructor | ]. discriminate.
  - constructor.
  - right. apply not_ends_nil.
Qed.
