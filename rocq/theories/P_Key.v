(** Properties C01-C05: keys. *)

From Coq Require Import String Ascii List ZArith Bool.
From Verif Require Import Str Value Outcome Key SpecKey SpecKeyErr KeyFacts KeyErrFacts.
Import ListNotations.
Open Scope string_scope.

(** ** C01 *)

(** NewKey returns a key exactly for the texts of the grammar in SpecKey, with
    the parts the grammar gives them; otherwise it panics with one of three
    errors; Root always succeeds on its result.  The grammar is unambiguous. *)
Theorem C01_key_grammar : forall s,
  (forall k, new_key s = Ok k <-> exists parts, k = mk_key s parts /\ written_key s parts) /\
  ((exists k, new_key s = Ok k) \/ (exists e, new_key s = Panic e /\ three_errors s e)) /\
  (forall k, new_key s = Ok k -> exists r rest, k_parts k = PStr r :: rest /\ root k = Ok r).
Proof. exact (fun s => conj (new_key_written s) (conj (new_key_total s) (new_key_root s))). Qed.
Print Assumptions C01_key_grammar.

Theorem C01_grammar_unambiguous : forall segs segs',
  segs <> [] -> segs' <> [] -> Forall seg_ok segs -> Forall seg_ok segs' ->
  show_key segs = show_key segs' -> segs = segs'.
Proof. exact show_key_inj. Qed.
Print Assumptions C01_grammar_unambiguous.

Example C01_ex_ok : new_key "a.'b.c'.3.""x" = Panic (EErr "unterminated quote in key 'a.'b.c'.3.""x'")
  /\ new_key "a.'b.c'.3.-4" = Ok (mk_key "a.'b.c'.3.-4" [PStr "a"; PStr "b.c"; PInt 3; PInt (-4)])
  /\ new_key "3.a" = Panic (EErr "key '3.a' first segment cannot be an index")
  /\ new_key "a..b" = Panic (EErr "key 'a..b' contains an empty segment").
Proof. vm_compute. auto. Qed.

Example C01_ex_written : written_key "a.'b.c'" [PStr "a"; PStr "b.c"].
Proof.
  assert (new_key "a.'b.c'" = Ok (mk_key "a.'b.c'" [PStr "a"; PStr "b.c"])) as H by reflexivity.
  apply (proj1 (C01_key_grammar _)) in H. destruct H as (parts & E & H). now injection E as <-.
Qed.

Example C01_ex_unambiguous :
  Forall seg_ok [[Plain "a"%char; Quoted "'"%char "b.c"]; [Plain "d"%char]] /\
  show_key [[Plain "a"%char; Quoted "'"%char "b.c"]; [Plain "d"%char]] = "a'b.c'.d".
Proof.
  split; [|reflexivity].
  repeat constructor; simpl; unfold is_quote; try (left; reflexivity);
    intuition discriminate.
Qed.

(** Which of the three errors a text gives: that of the first thing that is
    wrong in it, from the left. *)
Theorem C01_refused : forall s e, new_key s = Panic e <-> misspelt s e.
Proof. exact new_key_refused. Qed.
Print Assumptions C01_refused.

(** Two things are wrong in each of these texts. *)
Example C01_ex_refused :
  misspelt "3..a" (EErr "key '3..a' first segment cannot be an index") /\
  misspelt "a..'b" (EErr "key 'a..'b' contains an empty segment") /\
  misspelt "a.'b..c" (EErr "unterminated quote in key 'a.'b..c'") /\
  (forall e, misspelt "a..'b" e -> e = EErr "key 'a..'b' contains an empty segment").
Proof.
  split; [ | split; [ | split ] ].
  - apply ms_index with (seg := [Plain "3"%char]) (rest := "..a") (z := 3%Z); [ | reflexivity | left; exists ".a"; reflexivity | ].
    + constructor; [ split; [ intros [H|H]; discriminate H | discriminate ] | constructor ].
    + apply reads_plain; [ apply num_one; split; [ split; discriminate | reflexivity ] | reflexivity ].
  - apply ms_empty with (before := [[Plain "a"%char]]) (seg := []) (rest := ".'b"); [ | constructor | reflexivity | left; exists "'b"; reflexivity | reflexivity ].
    assert (P : plain_part "a" (PStr "a")).
    { constructor; [ discriminate | ]. intros z Hz. apply parse_int32_reads in Hz. discriminate Hz. }
    split; [ | split ].
    + constructor; [ constructor; [ split; [ intros [H|H]; discriminate H | discriminate ] | constructor ] | constructor ].
    + constructor; [ exists (PStr "a"); exact P | constructor ].
    + intros seg r E. injection E as <- _. exists "a". exact P.
  - apply C01_refused. reflexivity.
  - intros e H. apply C01_refused in H. vm_compute in H. injection H as <-. reflexivity.
Qed.

(** ** C02 *)

Theorem C02_plain_dotted_split : forall segs : list string,
  segs <> [] ->
  (forall t, In t segs -> t <> "" /\ ~ occurs "."%char t /\ ~ occurs "'"%char t /\ ~ occurs """"%char t) ->
  (forall z, ~ reads_as (hd "" segs) z) ->
  exists ps, new_key (String.concat "." segs) = Ok (mk_key (String.concat "." segs) ps) /\
             Forall2 plain_part segs ps.
Proof. exact dotted_key. Qed.
Print Assumptions C02_plain_dotted_split.

Example C02_ex :
  let segs := ["host"; "2"; "+7"; "99999999999"; "x y"] in
  segs <> [] /\
  (forall t, In t segs -> t <> "" /\ ~ occurs "."%char t /\ ~ occurs "'"%char t /\ ~ occurs """"%char t) /\
  (forall z, ~ reads_as (hd "" segs) z) /\
  new_key (String.concat "." segs) =
    Ok (mk_key "host.2.+7.99999999999.x y" [PStr "host"; PInt 2; PInt 7; PStr "99999999999"; PStr "x y"]).
Proof.
  cbv zeta. split; [discriminate|]. split; [|split; [|reflexivity]].
  - intros t Ht. simpl in Ht. intuition; subst; simpl in *; intuition discriminate.
  - apply parse_int32_none. reflexivity.
Qed.

(** ** C03 *)

(** Full statement: a segment written as one quoted stretch, anywhere in the
    key, is accepted and gives a string part with exactly the quoted text. *)
Definition C03_full : Prop :=
  forall segs i q body,
    Forall seg_ok segs -> nth_error segs i = Some [Quoted q body] ->
    (forall j seg, nth_error segs j = Some seg -> j <> i ->
       seg_text seg <> "" /\ forall z, ~ reads_as (seg_text seg) z) ->
    exists k, new_key (show_key segs) = Ok k /\ nth_error (k_parts k) i = Some (PStr body).

(** It is false: a quoted number in front of other segments becomes an index,
    and an empty or numeric quoted first segment makes NewKey panic. *)
Theorem C03_quoted_literal_refuted : exists segs i q body,
  Forall seg_ok segs /\ nth_error segs i = Some [Quoted q body] /\
  (forall j seg, nth_error segs j = Some seg -> j <> i ->
     seg_text seg <> "" /\ forall z, ~ reads_as (seg_text seg) z) /\
  (exists k, new_key (show_key segs) = Ok k /\ nth_error (k_parts k) i = Some (PInt 1)).
Proof.
  exists [[Plain "a"%char]; [Quoted "'"%char "1"]; [Plain "b"%char]], 1, "'"%char, "1".
  split; [|split; [reflexivity|split]].
  - repeat constructor; simpl; unfold is_quote; try (left; reflexivity); intuition discriminate.
  - intros [|[|[|j]]] seg Hj Hne; simpl in Hj; try congruence; try (injection Hj as <-);
      try (destruct j; discriminate); (split; [discriminate|]); apply parse_int32_none; reflexivity.
  - eexists. split; vm_compute; reflexivity.
Qed.
Print Assumptions C03_quoted_literal_refuted.

Theorem C03_quoted_root_refuted :
  new_key "'1'.a" = Panic (EErr "key ''1'.a' first segment cannot be an index") /\
  new_key "a.''.b" = Panic (EErr "key 'a.''.b' contains an empty segment") /\
  new_key "'1'" = Ok (mk_key "'1'" [PStr "1"]) /\
  new_key "a.''" = Ok (mk_key "a.''" [PStr "a"; PStr ""]).
Proof. vm_compute. auto. Qed.
Print Assumptions C03_quoted_root_refuted.

(** What holds: the quoted text is taken literally when the segment is the last
    one, or when the text is neither empty nor a 32 bit integer. *)
Theorem C03_quoted_literal_partial : forall segs i q body k,
  Forall seg_ok segs -> nth_error segs i = Some [Quoted q body] ->
  new_key (show_key segs) = Ok k ->
  S i = List.length segs \/ (body <> "" /\ forall z, ~ reads_as body z) ->
  nth_error (k_parts k) i = Some (PStr body).
Proof.
  intros segs i q body k Hok Hi Hk Hc. apply new_key_written in Hk.
  destruct Hk as (parts & -> & segs' & Hok' & Hs & Hkp & _).
  assert (segs = segs') as <-.
  { apply C01_grammar_unambiguous; auto.
    - destruct segs; [destruct i; discriminate|discriminate].
    - intros ->. inversion Hkp. }
  apply (key_parts_nth _ _ Hkp i q body Hi Hc).
Qed.
Print Assumptions C03_quoted_literal_partial.

Lemma key_parts_quoted segs ps : key_parts segs ps -> forall i q body, nth_error segs i = Some [Quoted q body] -> S i <> List.length segs ->
  exists p, nth_error ps i = Some p /\ plain_part body p.
Proof.
  assert (forall q body, seg_text [Quoted q body] = body) as HT.
  { intros. rewrite seg_text_cons. cbn. apply app_nil_s. }
  induction 1 as [seg Hq|seg p Hn Hp|seg p segs ps Hp Hk IH]; intros i q body Hi Hc.
  - destruct i; simpl in Hi; [|destruct i; discriminate]. exfalso. apply Hc. reflexivity.
  - destruct i; simpl in Hi; [|destruct i; discriminate]. exfalso. apply Hc. reflexivity.
  - destruct i; simpl in Hi.
    + injection Hi as ->. rewrite HT in Hp. exists p. split; [ reflexivity | exact Hp ].
    + apply (IH i q body Hi). simpl in Hc. congruence.
Qed.

(** Exactly: a quoted segment of a key is taken literally when it is the last
    one or its text is no 32 bit integer; such an integer before another segment
    becomes that number. *)
Theorem C03_exactly : forall segs i q body k,
  Forall seg_ok segs -> nth_error segs i = Some [Quoted q body] -> new_key (show_key segs) = Ok k ->
  (nth_error (k_parts k) i = Some (PStr body) <-> S i = List.length segs \/ forall z, ~ reads_as body z) /\
  (forall z, S i <> List.length segs -> reads_as body z -> nth_error (k_parts k) i = Some (PInt z)).
Proof.
  intros segs i q body k Hok Hi Hk. apply new_key_written in Hk.
  destruct Hk as (parts & -> & segs' & Hok' & Hs & Hkp & _).
  assert (segs = segs') as <-.
  { apply C01_grammar_unambiguous; auto.
    - destruct segs; [destruct i; discriminate|discriminate].
    - intros ->. inversion Hkp. }
  cbn [k_parts]. pose proof (key_parts_quoted _ _ Hkp i q body Hi) as Q.
  assert (Z : forall z, S i <> List.length segs -> reads_as body z -> nth_error parts i = Some (PInt z)).
  { intros z Hl Hz. destruct (Q Hl) as (p & E & P). rewrite E. f_equal. exact (plain_part_int _ _ Hz _ P). }
  split; [ | exact Z ]. split.
  - intros E. destruct (Nat.eq_dec (S i) (List.length segs)) as [L|L]; [ left; exact L | right ]. intros z Hz. rewrite (Z z L Hz) in E. discriminate.
  - intros [L|N].
    + apply (key_parts_nth _ _ Hkp i q body Hi). left. exact L.
    + destruct (Nat.eq_dec (S i) (List.length segs)) as [L|L]; [ apply (key_parts_nth _ _ Hkp i q body Hi); left; exact L | ].
      destruct (Q L) as (p & E & P). rewrite E. f_equal. apply (plain_part_str _ N) in P. tauto.
Qed.
Print Assumptions C03_exactly.

Example C03_exactly_ex :
  let segs := [[Plain "a"%char]; [Quoted "'"%char "-7"]; [Quoted "'"%char "b.c"]; [Quoted "'"%char "42"]] in
  Forall seg_ok segs /\
  new_key (show_key segs) = Ok (mk_key "a.'-7'.'b.c'.'42'" [PStr "a"; PInt (-7); PStr "b.c"; PStr "42"]).
Proof.
  split; [|reflexivity].
  repeat constructor; simpl; unfold is_quote; try (left; reflexivity); try (right; reflexivity); intuition discriminate.
Qed.

Example C03_ex :
  let segs := [[Plain "a"%char]; [Quoted """"%char "x.'y"]; [Quoted "'"%char "42"]] in
  Forall seg_ok segs /\
  new_key (show_key segs) = Ok (mk_key "a.""x.'y"".'42'" [PStr "a"; PStr "x.'y"; PStr "42"]).
Proof.
  split; [|reflexivity].
  repeat constructor; simpl; unfold is_quote; try (left; reflexivity); try (right; reflexivity); intuition discriminate.
Qed.

(** ** C04 *)

Theorem C04_dig_bury : forall k v, dig k (bury k v) = Some v.
Proof. exact dig_bury. Qed.
Print Assumptions C04_dig_bury.

Example C04_ex :
  let k := mk_key "a.b.3" [PStr "a"; PStr "b"; PInt 3] in
  bury k (VStr "x") = VMap [(VStr "b", VMap [(VInt 3, VStr "x")])] /\ dig k (bury k (VStr "x")) = Some (VStr "x").
Proof. vm_compute. auto. Qed.

(** ** C05 *)

Theorem C05_dig_is_path : forall k v w, dig k v = Some w <-> path v (tl (k_parts k)) w.
Proof. exact (fun k v w => dig_parts_path (tl (k_parts k)) v w). Qed.
Print Assumptions C05_dig_is_path.

Example C05_ex :
  let v := VMap [(VStr "b", VArr [VStr "x"; VMap [(VInt (-1), VBool true)]])] in
  dig (mk_key "a.b.1.-1" [PStr "a"; PStr "b"; PInt 1; PInt (-1)]) v = Some (VBool true) /\
  dig (mk_key "a.b.2" [PStr "a"; PStr "b"; PInt 2]) v = None /\
  dig (mk_key "a.b.-1" [PStr "a"; PStr "b"; PInt (-1)]) v = None /\
  dig (mk_key "a.b.x" [PStr "a"; PStr "b"; PStr "x"]) v = None /\
  dig (mk_key "a.b.0.0" [PStr "a"; PStr "b"; PInt 0; PInt 0]) v = None.
Proof. vm_compute. auto. Qed.
