(** The output of plugins and stopping them: C70 and C71. *)

From Coq Require Import String Ascii List Bool Arith Lia.
From Verif Require Import Str Outcome Pipes.
Import ListNotations.
Open Scope string_scope.
Open Scope list_scope.

(** ** C70: what a plugin writes on stderr is in the log *)

(** [unix s t]: [t] is [s] with each carriage return before a line break left
    out. *)
Inductive unix : string -> string -> Prop :=
| ux_end : unix "" ""
| ux_crlf s t : unix (String c_nl s) t -> unix (String c_cr (String c_nl s)) t
| ux_char c s t : (c = c_cr -> forall r, s <> String c_nl r) -> unix s t -> unix (String c s) (String c t).

(** The text ends a line. *)
Definition ends_line (s : string) : Prop := exists p, s = (p ++ str1 c_nl)%string.

(** The text after the last line break. *)
Inductive last_line : string -> string -> Prop :=
| ll_only s : (forall p q, s <> (p ++ String c_nl q)%string) -> last_line s s
| ll_more p s : (forall a b, s <> (a ++ String c_nl b)%string) -> last_line (p ++ String c_nl s)%string s.

Notation concat := (String.concat "").

Lemma concat_cons w ws : concat (w :: ws) = (w ++ concat ws)%string.
Proof. destruct ws; cbn; [ | reflexivity ]. induction w; cbn; [ reflexivity | ]. f_equal. assumption. Qed.

Lemma sapp_assoc a b c : ((a ++ b) ++ c)%string = (a ++ b ++ c)%string.
Proof. induction a; cbn; congruence. Qed.
Lemma sapp_nil a : (a ++ "")%string = a.
Proof. induction a; cbn; congruence. Qed.
Lemma slen a b : String.length (a ++ b) = String.length a + String.length b.
Proof. induction a; cbn; congruence. Qed.

Definition no_nl (s : string) : Prop := forall p q, s <> (p ++ String c_nl q)%string.
Lemma no_nl_cons c s : no_nl (String c s) <-> c <> c_nl /\ no_nl s.
Proof.
  split.
  - intro H. split.
    + intros ->. apply (H "" s). reflexivity.
    + intros p q ->. apply (H (String c p) q). reflexivity.
  - intros [A B] [|d p] q E; injection E as -> E; [ apply A; reflexivity | exact (B p q E) ].
Qed.
Lemma no_nl_nil : no_nl "".
Proof. intros [|? ?] q E; discriminate E. Qed.

Lemma ceq_nl c : ceq c c_nl = true <-> c = c_nl.
Proof. unfold ceq. apply Ascii.eqb_eq. Qed.
Lemma ceq_cr c : ceq c c_cr = true <-> c = c_cr.
Proof. unfold ceq. apply Ascii.eqb_eq. Qed.

(** What one slice is. *)
Lemma read_slice_spec n s l e t : read_slice n s = (l, e, t) ->
  no_nl l /\
  match e with
  | SlLine => s = (l ++ String c_nl t)%string /\ String.length l < n
  | SlFull => s = (l ++ t)%string /\ String.length l = n
  | SlEof => s = l /\ t = "" /\ String.length l < n
  end.
Proof.
  revert s l e t. induction n as [|n IH]; intros s l e t E.
  - cbn in E. injection E as <- <- <-. split; [ apply no_nl_nil | ]. cbn. auto.
  - destruct s as [|c r]; cbn [read_slice] in E.
    + injection E as <- <- <-. split; [ apply no_nl_nil | ]. cbn. repeat split. lia.
    + destruct (ceq c c_nl) eqn:C.
      * apply ceq_nl in C. subst c. injection E as <- <- <-. split; [ apply no_nl_nil | ]. cbn. split; [ reflexivity | lia ].
      * destruct (read_slice n r) as [[l' e'] t'] eqn:R. injection E as <- <- <-.
        destruct (IH _ _ _ _ R) as [N D]. split.
        -- apply no_nl_cons. split; [ | exact N ]. intros ->. unfold ceq in C. rewrite Ascii.eqb_refl in C. discriminate C.
        -- destruct e'; cbn; intuition (subst; auto; lia).
Qed.

Lemma drop_cr_spec l :
  match drop_cr l with
  | Some p => l = (p ++ str1 c_cr)%string
  | None => forall p, l <> (p ++ str1 c_cr)%string
  end.
Proof.
  induction l as [|c r IH]; [ intros [|? ?]; discriminate | ].
  destruct r as [|d r].
  - cbn. destruct (ceq c c_cr) eqn:C.
    + apply ceq_cr in C. subst. reflexivity.
    + intros [|x p] E; injection E as E; [ | destruct p; discriminate ].
      subst. unfold ceq in C. rewrite Ascii.eqb_refl in C. discriminate C.
  - change (drop_cr (String c (String d r))) with (option_map (String c) (drop_cr (String d r))).
    destruct (drop_cr (String d r)) as [p|]; cbn.
    + rewrite IH. reflexivity.
    + intros [|x p] E; [ discriminate E | ]. injection E as -> E. exact (IH p E).
Qed.

Definition ends_cr (s : string) : Prop := exists p, s = (p ++ str1 c_cr)%string.

(** A part of a line comes through as it is. *)
Lemma unix_app l s t : no_nl l -> (ends_cr l -> forall r, s <> String c_nl r) -> unix s t -> unix (l ++ s)%string (l ++ t)%string.
Proof.
  induction l as [|c r IH]; intros N C U; [ exact U | ].
  apply no_nl_cons in N. destruct N as [Nc N]. cbn. apply ux_char.
  - intros -> q E. destruct r as [|d r]; cbn in E.
    + apply (C (ex_intro _ "" eq_refl) q E).
    + injection E as -> _. apply no_nl_cons in N. destruct N as [N _]. apply N. reflexivity.
  - apply IH; [ exact N | | exact U ]. intros [p E]. apply C. exists (String c p). cbn. congruence.
Qed.

Lemma unix_nl s t : unix s t -> unix (String c_nl s) (String c_nl t).
Proof. intro U. apply ux_char; [ discriminate | exact U ]. Qed.

Lemma ends_line_app l s : ends_line s -> ends_line (l ++ s)%string.
Proof. intros [p ->]. exists (l ++ p)%string. apply eq_sym, sapp_assoc. Qed.

Lemma app_nonempty l s : l <> "" -> (l ++ s)%string <> "".
Proof. destruct l; [ congruence | discriminate ]. Qed.

(** Two ways to cut one text. *)
Lemma sapp_eq (a s c t : string) : (a ++ s)%string = (c ++ t)%string ->
  (exists m, a = (c ++ m)%string /\ t = (m ++ s)%string) \/ (exists m, c = (a ++ m)%string /\ s = (m ++ t)%string).
Proof.
  revert c. induction a as [|x a IH]; intros c E.
  - right. exists c. split; [ reflexivity | exact E ].
  - destruct c as [|y c]; cbn in E.
    + left. exists (String x a). split; [ reflexivity | symmetry; exact E ].
    + injection E as -> E. destruct (IH c E) as [(m & -> & ->)|(m & -> & ->)]; [ left | right ]; exists m; split; reflexivity.
Qed.

Lemma last_nl (a b c d : string) : (a ++ String c_nl b)%string = (c ++ String c_nl d)%string -> no_nl b -> no_nl d -> b = d.
Proof.
  intros E Nb Nd. apply sapp_eq in E. destruct E as [([|x m] & _ & E)|([|x m] & _ & E)].
  - exact (f_equal (fun s => match s with String _ r => r | _ => s end) (eq_sym E)).
  - exfalso. apply (Nd m b). exact (f_equal (fun s => match s with String _ r => r | _ => s end) E).
  - exact (f_equal (fun s => match s with String _ r => r | _ => s end) E).
  - exfalso. apply (Nb m d). exact (f_equal (fun s => match s with String _ r => r | _ => s end) E).
Qed.

Lemma ends_line_suffix (a b c : string) : b <> "" -> (a ++ b)%string = (c ++ str1 c_nl)%string -> ends_line b.
Proof.
  intros Nb E. apply sapp_eq in E. destruct E as [([|x m] & _ & E)|(m & _ & E)].
  - exists "". symmetry. exact E.
  - exfalso. destruct m; [ | discriminate E ]. apply Nb. exact (f_equal (fun s => match s with String _ r => r | _ => s end) (eq_sym E)).
  - exists m. exact E.
Qed.

Lemma last_line_nl (a b c d : string) : no_nl b -> (a ++ String c_nl b)%string = (c ++ String c_nl d)%string -> last_line d b.
Proof.
  intros Nb E. apply sapp_eq in E. destruct E as [([|x m] & _ & E)|([|x m] & _ & E)];
    apply (f_equal (fun s => match s with String _ r => r | _ => s end)) in E; cbn in E; subst.
  - constructor. exact Nb.
  - constructor. exact Nb.
  - constructor. exact Nb.
  - exfalso. exact (Nb m d eq_refl).
Qed.

Lemma last_line_part (a b c d : string) : no_nl b -> no_nl c -> (a ++ String c_nl b)%string = (c ++ d)%string ->
  last_line d b /\ String.length b <= String.length d.
Proof.
  intros Nb Nc E. apply sapp_eq in E. destruct E as [(m & _ & ->)|([|x m] & -> & E)].
  - split; [ constructor; exact Nb | rewrite slen; cbn; lia ].
  - cbn in E. subst d. split; [ apply (ll_more ""); exact Nb | cbn; lia ].
  - exfalso. injection E as <- _. exact (Nc a m eq_refl).
Qed.

Lemma last_line_unended s q : last_line s q -> (q = "" <-> s = "" \/ ends_line s).
Proof.
  intro L. inversion L as [x N E1 E2|p x N E1 E2]; subst.
  - split; [ auto | ]. intros [E|[p E]]; [ exact E | ]. exfalso. exact (N p "" E).
  - split.
    + intros ->. right. exists p. reflexivity.
    + intros [E|[r E]]; [ destruct p; discriminate E | ].
      apply last_nl in E; [ exact E | exact N | apply no_nl_nil ].
Qed.

(** The whole loop. *)
Lemma copy_spec n fuel s : 2 <= n -> String.length s < fuel ->
  exists ws t, copy_err_to_log n fuel s = Ok ws /\ unix s t /\
    (concat ws = t \/ concat ws = (t ++ str1 c_nl)%string /\ s <> "" /\ ~ ends_line s) /\
    (forall q, last_line s q -> q <> "" -> String.length q < n -> concat ws = (t ++ str1 c_nl)%string).
Proof.
  intro Hn. revert s. induction fuel as [|f IH]; intros s L; [ lia | ]. cbn. unfold read_line.
  destruct (read_slice n s) as [[l e] t] eqn:R. destruct (read_slice_spec _ _ _ _ _ R) as [N D]. assert (C := drop_cr_spec l).
  destruct e.
  - (* a line *)
    destruct D as [-> Ll].
    assert (Lt : String.length t < f) by (rewrite slen in L; cbn in L; lia).
    destruct (IH t Lt) as (ws & u & E & U & Q & W).
    assert (G : forall x, unix (l ++ String c_nl t)%string (x ++ String c_nl u)%string ->
      exists ws0 t0, omap (fun ws => x :: str1 c_nl :: ws) (copy_err_to_log n f t) = Ok ws0 /\ unix (l ++ String c_nl t)%string t0 /\
        (concat ws0 = t0 \/ concat ws0 = (t0 ++ str1 c_nl)%string /\ (l ++ String c_nl t)%string <> "" /\ ~ ends_line (l ++ String c_nl t)%string) /\
        (forall q, last_line (l ++ String c_nl t)%string q -> q <> "" -> String.length q < n -> concat ws0 = (t0 ++ str1 c_nl)%string)).
    { intros x Ux. exists (x :: str1 c_nl :: ws), (x ++ String c_nl u)%string.
      split; [ rewrite E; reflexivity | ]. split; [ exact Ux | ]. rewrite !concat_cons.
      split.
      - destruct Q as [->|[-> [T1 T2]]]; [ left; reflexivity | right ]. split; [ rewrite sapp_assoc; reflexivity | ].
        split; [ destruct l; discriminate | ]. intros [p Ep]. apply T2.
        apply (ends_line_suffix (l ++ str1 c_nl)%string t p T1). rewrite sapp_assoc. exact Ep.
      - intros q Lq Nq Lenq.
        assert (last_line t q).
        { inversion Lq as [y Ny E1 E2|p y Ny E1 E2]; subst.
          - exfalso. exact (Ny l t eq_refl).
          - exact (last_line_nl _ _ _ _ Ny E1). }
        rewrite (W q H Nq Lenq). cbn. rewrite sapp_assoc. reflexivity. }
    destruct (drop_cr l) as [l'|].
    + apply G. subst l. rewrite sapp_assoc. cbn. apply unix_app.
      * intros p q E0. apply (N p (q ++ str1 c_cr)%string). rewrite E0. rewrite sapp_assoc. reflexivity.
      * intros _ r E0. discriminate E0.
      * constructor. apply unix_nl. exact U.
    + apply G. apply unix_app; [ exact N | | apply unix_nl; exact U ].
      intros [p E0]. destruct (C p E0).
  - (* a full buffer *)
    destruct D as [-> Ll].
    assert (G : forall x y, (l ++ t)%string = (x ++ y)%string -> no_nl x -> (ends_cr x -> forall r, y <> String c_nl r) -> x <> "" ->
      exists ws0 t0, omap (fun ws => x :: ws) (copy_err_to_log n f y) = Ok ws0 /\ unix (l ++ t)%string t0 /\
        (concat ws0 = t0 \/ concat ws0 = (t0 ++ str1 c_nl)%string /\ (l ++ t)%string <> "" /\ ~ ends_line (l ++ t)%string) /\
        (forall q, last_line (l ++ t)%string q -> q <> "" -> String.length q < n -> String.length q <= String.length y ->
           concat ws0 = (t0 ++ str1 c_nl)%string)).
    { intros x y Exy Nx Cx Zx. rewrite Exy in L |- *.
      assert (Ly : String.length y < f) by (rewrite slen in L; destruct x; [ congruence | cbn in L; lia ]).
      destruct (IH y Ly) as (ws & u & E & U & Q & W).
      exists (x :: ws), (x ++ u)%string. split; [ rewrite E; reflexivity | ]. split; [ apply unix_app; assumption | ].
      rewrite concat_cons. split.
      - destruct Q as [->|[-> [T1 T2]]]; [ left; reflexivity | right ]. split; [ rewrite sapp_assoc; reflexivity | ].
        split; [ apply app_nonempty; exact Zx | ]. intros [p Ep]. apply T2.
        exact (ends_line_suffix x y p T1 Ep).
      - intros q Lq Nq Lenq Lqy.
        assert (last_line y q).
        { inversion Lq as [w Nw E1 E2|p w Nw E1 E2]; subst.
          - exfalso. rewrite slen in Lqy. destruct x; [ congruence | cbn in Lqy; lia ].
          - exact (proj1 (last_line_part _ _ _ _ Nw Nx E1)). }
        rewrite (W q H Nq Lenq). rewrite sapp_assoc. reflexivity. }
    assert (short : forall x y, (l ++ t)%string = (x ++ y)%string -> no_nl x -> n <= S (String.length x) -> (x = l \/ exists r, y = String c_cr r) ->
      forall q, last_line (l ++ t)%string q -> q <> "" -> String.length q < n -> String.length q <= String.length y).
    { intros x y Exy Nx Lx HX q Lq Nq Lenq. rewrite Exy in Lq. inversion Lq as [w Nw E1 E2|p w Nw E1 E2]; subst.
      - rewrite slen in Lenq |- *. destruct HX as [->|[r ->]]; cbn in *; lia.
      - exact (proj2 (last_line_part _ _ _ _ Nw Nx E1)). }
    destruct (drop_cr l) as [l'|].
    + assert (E : (l ++ t)%string = (l' ++ String c_cr t)%string) by (rewrite C, sapp_assoc; reflexivity).
      assert (Nl' : no_nl l').
      { intros p q E'. apply (N p (q ++ str1 c_cr)%string). rewrite C, E', sapp_assoc. reflexivity. }
      assert (Lenl : String.length l = S (String.length l')) by (rewrite C, slen; cbn; lia).
      destruct (G l' (String c_cr t) E Nl') as (ws0 & t0 & A & B & D & F).
      * intros _ r E'. discriminate E'.
      * intros ->. cbn in Lenl. lia.
      * exists ws0, t0. split; [ exact A | ]. split; [ exact B | ]. split; [ exact D | ]. intros q Lq Nq Lenq.
        apply (F q Lq Nq Lenq). eapply short; eauto; lia.
    + destruct (G l t eq_refl N) as (ws0 & t0 & A & B & D & F).
      * intros [p E]. destruct (C p E).
      * intros ->. cbn in Ll. lia.
      * exists ws0, t0. split; [ exact A | ]. split; [ exact B | ]. split; [ exact D | ]. intros q Lq Nq Lenq.
        apply (F q Lq Nq Lenq). eapply short; eauto; lia.
  - (* the end *)
    destruct D as (-> & -> & Ll). destruct (String.eqb l "") eqn:Z.
    + apply String.eqb_eq in Z. subst l. exists [], "". split; [ reflexivity | ]. split; [ constructor | ].
      split; [ left; reflexivity | ]. intros q Lq Nq. exfalso. apply Nq. apply (last_line_unended "" q Lq). auto.
    + apply String.eqb_neq in Z. destruct f as [|f]; [ destruct l; [ congruence | cbn in L; lia ] | ].
      cbn. unfold read_line. replace (read_slice n "") with ("", SlEof, "") by (destruct n; [ lia | reflexivity ]). cbn.
      exists [l; str1 c_nl], l. split; [ reflexivity | ]. rewrite !concat_cons. cbn.
      split; [ rewrite <- (sapp_nil l) at 1; rewrite <- (sapp_nil l) at 2; apply unix_app; [ exact N | discriminate | constructor ] | ].
      split; [ right | reflexivity ]. split; [ reflexivity | ]. split; [ exact Z | ]. intros [p E]. exact (N p "" E).
Qed.

(** Everything that a plugin writes on stderr gets into the log, in this order
    and with nothing else: only carriage returns before line breaks are left
    out, and a last line that is not ended may be ended.  Lines of any length
    come through, whatever the size of the buffer. *)
Theorem C70_log n s : 2 <= n -> exists ws t,
  copy_err_to_log n (S (String.length s)) s = Ok ws /\ unix s t /\
  (concat ws = t \/ concat ws = (t ++ str1 c_nl)%string /\ s <> "" /\ ~ ends_line s).
Proof.
  intro Hn. destruct (copy_spec n (S (String.length s)) s Hn (Nat.lt_succ_diag_r _)) as (ws & t & E & U & Q & _). eauto.
Qed.

(** The last line is ended when it is shorter than the buffer. *)
Theorem C70_last_line_partial n s q : 2 <= n -> last_line s q -> q <> "" -> String.length q < n -> exists ws t,
  copy_err_to_log n (S (String.length s)) s = Ok ws /\ unix s t /\ concat ws = (t ++ str1 c_nl)%string.
Proof.
  intros Hn L N Len. destruct (copy_spec n (S (String.length s)) s Hn (Nat.lt_succ_diag_r _)) as (ws & t & E & U & _ & W). eauto 6.
Qed.

Definition nl : string := str1 c_nl.
Definition cr : string := str1 c_cr.
Example C70_ex :
  omap (fun ws => concat ws) (copy_err_to_log 16 100 ("one" ++ cr ++ nl ++ nl ++ "a line that is longer than the buffer" ++ nl ++ "end"))
  = Ok ("one" ++ nl ++ nl ++ "a line that is longer than the buffer" ++ nl ++ "end" ++ nl)%string.
Proof. vm_compute. reflexivity. Qed.
Example C70_last_line_ex : last_line ("one" ++ nl ++ "end")%string "end" /\ "end" <> "" /\ String.length "end" < 16.
Proof.
  split; [ | split; [ discriminate | cbn; lia ] ]. apply (ll_more "one" "end").
  intros [|? [|? [|? [|? ?]]]] b E; discriminate E.
Qed.

(** The full statement: the last line is always ended. *)
Definition C70_full : Prop := forall n s q ws, 2 <= n -> last_line s q -> q <> "" ->
  copy_err_to_log n (S (String.length s)) s = Ok ws -> ends_line (concat ws).

(** It is not when it fills the buffer, whatever its size: the next thing that
    is written to the log is on the same line. *)
Theorem C70_last_line_refuted n : 2 <= n -> exists s ws,
  last_line s s /\ s <> "" /\ String.length s = n /\
  copy_err_to_log n (S (String.length s)) s = Ok ws /\ concat ws = s /\ ~ ends_line (concat ws).
Proof.
  intro Hn.
  pose (a := fix a n := match n with O => "" | S m => String "a"%char (a m) end).
  assert (Ln : forall m, String.length (a m) = m) by (induction m; cbn; congruence).
  assert (Nn : forall m, no_nl (a m)) by (induction m; [ apply no_nl_nil | apply no_nl_cons; split; [ discriminate | assumption ] ]).
  assert (R : forall m, read_slice m (a m) = (a m, SlFull, "")).
  { induction m; cbn; [ reflexivity | ]. rewrite IHm. reflexivity. }
  assert (C : forall m, drop_cr (a m) = None).
  { induction m as [|m IHm]; [ reflexivity | ]. destruct m; [ reflexivity | ]. change (option_map (String "a"%char) (drop_cr (a (S m))) = None).
    rewrite IHm. reflexivity. }
  exists (a n), [a n]. split; [ constructor; apply Nn | ]. split; [ destruct n; [ lia | discriminate ] | ]. split; [ apply Ln | ].
  split.
  - rewrite Ln. cbn. unfold read_line at 1. rewrite R, C. destruct n as [|m]; [ lia | ]. reflexivity.
  - split; [ reflexivity | ]. cbn. intros [p E]. exact (Nn n p "" E).
Qed.

(** *** When the last line is ended *)

(** How a last line is cut into pieces of the size of the buffer, where a carriage
    return at the end of a piece goes to the next one; whether something is left
    after the full pieces. *)
Inductive cut (n : nat) : string -> bool -> Prop :=
| cut_empty : cut n "" false
| cut_short q : q <> "" -> String.length q < n -> cut n q true
| cut_full l r b : String.length l = n -> ~ ends_cr l -> cut n r b -> cut n (l ++ r)%string b
| cut_cr l r b : S (String.length l) = n -> cut n (String c_cr r) b -> cut n (l ++ String c_cr r)%string b.

Lemma same_prefix (a b c d : string) : String.length a = String.length c -> (a ++ b)%string = (c ++ d)%string -> a = c /\ b = d.
Proof.
  revert c. induction a as [|x a IH]; intros [|y c] L E; cbn in L, E; try discriminate L; [ auto | ].
  injection L as L. injection E as -> E. destruct (IH c L E) as [-> ->]. auto.
Qed.

Lemma cut_one n q b : 2 <= n -> cut n q b -> forall b', cut n q b' -> b = b'.
Proof.
  intros Hn H. induction H as [|q Nq L|l r b L C H IH|l r b L H IH]; intros b' H'.
  - remember "" as q eqn:Eq. destruct H' as [|q' Nq' L'|l' r' b' L' C' H'|l' r' b' L' H']; [ reflexivity | congruence | | ].
    + destruct l'; [ cbn in L'; lia | discriminate Eq ].
    + destruct l'; discriminate Eq.
  - destruct H' as [|q' Nq' L'|l' r' b' L' C' H'|l' r' b' L' H']; [ congruence | reflexivity | | ]; rewrite slen in L; cbn in L; lia.
  - remember (l ++ r)%string as q eqn:Eq. destruct H' as [|q' Nq' L'|l' r' b' L' C' H'|l' r' b' L' H'].
    + destruct l; [ cbn in L; lia | discriminate Eq ].
    + subst q'. rewrite slen in L'. lia.
    + destruct (same_prefix l' r' l r) as [_ ->]; [ congruence | exact Eq | ]. exact (IH b' H').
    + exfalso. apply C. exists l'. destruct (same_prefix (l' ++ str1 c_cr) r' l r) as [<- _]; [ rewrite slen; cbn; lia | rewrite sapp_assoc; exact Eq | reflexivity ].
  - remember (l ++ String c_cr r)%string as q eqn:Eq. destruct H' as [|q' Nq' L'|l' r' b' L' C' H'|l' r' b' L' H'].
    + destruct l; discriminate Eq.
    + subst q'. rewrite slen in L'. cbn in L'. lia.
    + exfalso. apply C'. exists l. destruct (same_prefix l' r' (l ++ str1 c_cr) r) as [-> _]; [ rewrite slen; cbn; lia | rewrite sapp_assoc; exact Eq | reflexivity ].
    + destruct (same_prefix l' (String c_cr r') l (String c_cr r)) as [_ E]; [ congruence | exact Eq | ]. injection E as ->. exact (IH b' H').
Qed.

Definition tail (b : bool) : string := if b then str1 c_nl else "".

(** One line without an end. *)
Lemma copy_one n fuel s : 2 <= n -> String.length s < fuel -> no_nl s ->
  exists ws b, copy_err_to_log n fuel s = Ok ws /\ cut n s b /\ concat ws = (s ++ tail b)%string.
Proof.
  intro Hn. revert s. induction fuel as [|f IH]; intros s L Ns; [ lia | ]. cbn [copy_err_to_log]. unfold read_line.
  destruct (read_slice n s) as [[l e] t] eqn:R. destruct (read_slice_spec _ _ _ _ _ R) as [N D]. assert (C := drop_cr_spec l).
  destruct e.
  - destruct D as [-> _]. destruct (Ns l t eq_refl).
  - destruct D as [-> Ll]. destruct (drop_cr l) as [l'|].
    + subst l. rewrite slen in Ll. cbn in Ll. rewrite sapp_assoc in L, Ns |- *. cbn [append str1] in L, Ns |- *.
      destruct (IH (String c_cr t)) as (ws & b & E & K & W).
      { rewrite slen in L. cbn in L |- *. lia. }
      { intros p q E. apply (Ns (l' ++ p)%string q). rewrite sapp_assoc, <- E. reflexivity. }
      exists (l' :: ws), b. rewrite E. split; [ reflexivity | ]. split; [ apply cut_cr; [ lia | exact K ] | ].
      rewrite concat_cons, W, sapp_assoc. reflexivity.
    + destruct (IH t) as (ws & b & E & K & W).
      { rewrite slen in L. lia. }
      { intros p q E. apply (Ns (l ++ p)%string q). rewrite sapp_assoc, <- E. reflexivity. }
      exists (l :: ws), b. rewrite E. split; [ reflexivity | ].
      split; [ apply cut_full; [ exact Ll | intros [p E']; exact (C p E') | exact K ] | ].
      rewrite concat_cons, W, sapp_assoc. reflexivity.
  - destruct D as (-> & -> & Ll). destruct (String.eqb l "") eqn:Z.
    + apply String.eqb_eq in Z. subst l. exists [], false. split; [ reflexivity | ]. split; [ constructor | reflexivity ].
    + apply String.eqb_neq in Z. destruct f as [|f]; [ destruct l; [ congruence | cbn in L; lia ] | ].
      cbn. unfold read_line. replace (read_slice n "") with ("", SlEof, "") by (destruct n; [ lia | reflexivity ]). cbn.
      exists [l; str1 c_nl], true. split; [ reflexivity | ]. split; [ constructor; assumption | ]. rewrite !concat_cons. reflexivity.
Qed.

Lemma copy_end n fuel s q : 2 <= n -> String.length s < fuel -> last_line s q ->
  exists ws b z, copy_err_to_log n fuel s = Ok ws /\ cut n q b /\ concat ws = (z ++ q ++ tail b)%string.
Proof.
  intro Hn. revert s. induction fuel as [|f IH]; intros s L Lq; [ lia | ].
  inversion Lq as [x Nx E1 E2|p x Nx E1 E2]; subst x.
  - subst s. destruct (copy_one n (S f) q Hn L Nx) as (ws & b & E & K & W). exists ws, b, "". auto.
  - rewrite E1. cbn [copy_err_to_log]. unfold read_line.
    destruct (read_slice n s) as [[l e] t] eqn:R. destruct (read_slice_spec _ _ _ _ _ R) as [N D]. assert (C := drop_cr_spec l).
    destruct e.
    + destruct D as [D _]. rewrite D in E1. pose proof (last_line_nl _ _ _ _ Nx E1) as Lt.
      destruct (IH t) as (ws & b & z & E & K & W); [ rewrite D, slen in L; cbn in L; lia | exact Lt | ].
      destruct (drop_cr l) as [l'|].
      * exists (l' :: str1 c_nl :: ws), b, (l' ++ str1 c_nl ++ z)%string. rewrite E. split; [ reflexivity | ]. split; [ exact K | ].
        rewrite !concat_cons, W, !sapp_assoc. reflexivity.
      * exists (l :: str1 c_nl :: ws), b, (l ++ str1 c_nl ++ z)%string. rewrite E. split; [ reflexivity | ]. split; [ exact K | ].
        rewrite !concat_cons, W, !sapp_assoc. reflexivity.
    + destruct D as [D Ll]. destruct (drop_cr l) as [l'|].
      * assert (Nl' : no_nl l').
        { intros a c E'. apply (N a (c ++ str1 c_cr)%string). rewrite C, E', sapp_assoc. reflexivity. }
        rewrite C in D, Ll. rewrite slen in Ll. cbn in Ll. rewrite sapp_assoc in D. cbn [append str1] in D. rewrite D in E1.
        destruct (last_line_part _ _ _ _ Nx Nl' E1) as [Lt _].
        destruct (IH (String c_cr t)) as (ws & b & z & E & K & W); [ rewrite D, slen in L; cbn in L |- *; lia | exact Lt | ].
        exists (l' :: ws), b, (l' ++ z)%string. rewrite E. split; [ reflexivity | ]. split; [ exact K | ]. rewrite concat_cons, W, sapp_assoc. reflexivity.
      * rewrite D in E1. destruct (last_line_part _ _ _ _ Nx N E1) as [Lt _].
        destruct (IH t) as (ws & b & z & E & K & W); [ rewrite D, slen in L; lia | exact Lt | ].
        exists (l :: ws), b, (l ++ z)%string. rewrite E. split; [ reflexivity | ]. split; [ exact K | ]. rewrite concat_cons, W, sapp_assoc. reflexivity.
    + exfalso. destruct D as (D & _ & _). rewrite D in E1. exact (N p q (eq_sym E1)).
Qed.

Lemma not_ended (z q : string) : q <> "" -> no_nl q -> ~ ends_line (z ++ q)%string.
Proof.
  intros Nq N [p E]. destruct (ends_line_suffix z q p Nq E) as [a E']. exact (N a "" E').
Qed.

(** C70, exactly: a last line is ended if and only if something of it is left after
    the pieces that fill the buffer. *)
Theorem C70_last_line_exactly n s q ws b : 2 <= n -> last_line s q -> q <> "" ->
  copy_err_to_log n (S (String.length s)) s = Ok ws -> cut n q b -> (ends_line (concat ws) <-> b = true).
Proof.
  intros Hn Lq Nq E K. destruct (copy_end n (S (String.length s)) s q Hn (Nat.lt_succ_diag_r _) Lq) as (ws' & b' & z & E' & K' & W).
  rewrite E in E'. injection E' as <-. rewrite (cut_one n q b Hn K b' K'). rewrite W.
  assert (Nn : no_nl q) by (inversion Lq; assumption).
  destruct b'; cbn [tail].
  - split; [ reflexivity | ]. intros _. exists (z ++ q)%string. rewrite sapp_assoc. reflexivity.
  - rewrite sapp_nil. split; [ intro H; destruct (not_ended z q Nq Nn H) | discriminate ].
Qed.
Print Assumptions C70_last_line_exactly.

Lemma split_at n : forall q, n <= String.length q -> exists l r, q = (l ++ r)%string /\ String.length l = n.
Proof.
  induction n as [|n IH]; intros [|c q] L; cbn in L; try lia; [ exists "", ""; auto | exists "", (String c q); auto | ].
  destruct (IH q) as (l & r & -> & E); [ lia | ]. exists (String c l), r. cbn. auto.
Qed.

Lemma cut_plain n q : 2 <= n -> (forall a b, q <> (a ++ String c_cr b)%string) -> cut n q (negb (Nat.eqb (String.length q mod n) 0)).
Proof.
  intros Hn. remember (String.length q) as m eqn:Em. revert q Em. induction m as [m IH] using lt_wf_ind. intros q Em Nc.
  destruct (Nat.lt_ge_cases m n) as [Lt|Ge].
  - rewrite Nat.mod_small by lia. destruct q as [|c q]; cbn in Em; subst m; [ constructor | ].
    cbn [Nat.eqb negb]. constructor; [ discriminate | cbn; lia ].
  - destruct (split_at n q) as (l & r & -> & El); [ lia | ]. rewrite slen in Em.
    apply cut_full; [ exact El | | ].
    + intros [p ->]. apply (Nc p r). rewrite sapp_assoc. reflexivity.
    + replace (m mod n) with (String.length r mod n).
      * apply IH; [ lia | reflexivity | ]. intros a b E. apply (Nc (l ++ a)%string b). rewrite sapp_assoc, E. reflexivity.
      * subst m. rewrite El. replace (n + String.length r) with (String.length r + 1 * n) by lia. rewrite Nat.mod_add by lia. reflexivity.
Qed.

(** Without carriage returns: unless its length is a multiple of the size of the
    buffer. *)
Theorem C70_last_line_length n s q ws : 2 <= n -> last_line s q -> q <> "" -> (forall a b, q <> (a ++ String c_cr b)%string) ->
  copy_err_to_log n (S (String.length s)) s = Ok ws -> (ends_line (concat ws) <-> String.length q mod n <> 0).
Proof.
  intros Hn Lq Nq Nc E. rewrite (C70_last_line_exactly n s q ws _ Hn Lq Nq E (cut_plain n q Hn Nc)).
  rewrite negb_true_iff, Nat.eqb_neq. reflexivity.
Qed.
Print Assumptions C70_last_line_length.

(** A last line of two pieces of three bytes, one of which is short of the carriage
    return it would end with, and one that fills two pieces. *)
Example C70_exactly_ex :
  last_line ("one" ++ nl ++ "ab" ++ cr ++ "cd")%string ("ab" ++ cr ++ "cd")%string /\ cut 3 ("ab" ++ cr ++ "cd")%string false /\
  cut 3 "abcdef" false /\ cut 3 "abcdefg" true /\ cut 3 ("abcd" ++ cr ++ cr ++ "ef")%string false.
Proof.
  assert (E : forall l, ~ ends_cr l <-> drop_cr l = None).
  { intro l. pose proof (drop_cr_spec l) as D. destruct (drop_cr l); [ split; [ | discriminate ] | split; [ reflexivity | ] ].
    - intro H. exfalso. apply H. exists s. exact D.
    - intros _ [p H]. exact (D p H). }
  split; [ | split; [ | split; [ | split ] ] ].
  - apply (ll_more "one"). intros a b H. do 5 (destruct a as [|? a]; [ discriminate H | cbn in H; injection H as _ H ]). destruct a; discriminate H.
  - apply (cut_cr 3 "ab" "cd"); [ reflexivity | ]. apply (cut_full 3 (cr ++ "cd") ""); [ reflexivity | apply E; reflexivity | constructor ].
  - apply (cut_full 3 "abc" "def"); [ reflexivity | apply E; reflexivity | ]. apply (cut_full 3 "def" ""); [ reflexivity | apply E; reflexivity | constructor ].
  - apply (cut_full 3 "abc" "defg"); [ reflexivity | apply E; reflexivity | ]. apply (cut_full 3 "def" "g"); [ reflexivity | apply E; reflexivity | ].
    constructor; [ discriminate | cbn; lia ].
  - apply (cut_full 3 "abc" ("d" ++ cr ++ cr ++ "ef")); [ reflexivity | apply E; reflexivity | ].
    apply (cut_cr 3 ("d" ++ cr) "ef"); [ reflexivity | ].
    apply (cut_full 3 (cr ++ "ef") ""); [ reflexivity | apply E; reflexivity | constructor ].
Qed.

(** *** Several plugins *)

(** Two sequences of calls of Write, in any order. *)
Inductive shuffle {A} : list A -> list A -> list A -> Prop :=
| sh_nil : shuffle [] [] []
| sh_left x a b c : shuffle a b c -> shuffle (x :: a) b (x :: c)
| sh_right x a b c : shuffle a b c -> shuffle a (x :: b) (x :: c).

(** A line of a text. *)
Definition line_of (s l : string) : Prop :=
  no_nl l /\ ((exists q, s = (l ++ nl ++ q)%string) \/ (exists p q, s = (p ++ nl ++ l ++ nl ++ q)%string)).

(** The full statement: with two plugins a line of the log is a line of one of
    them. *)
Definition C70_lines_full : Prop := forall n s1 s2 ws1 ws2 ws l, 2 <= n ->
  copy_err_to_log n (S (String.length s1)) s1 = Ok ws1 -> copy_err_to_log n (S (String.length s2)) s2 = Ok ws2 ->
  shuffle ws1 ws2 ws -> line_of (concat ws) l -> line_of (concat ws1) l \/ line_of (concat ws2) l.

(** It is not: a line and its line break are written by separate calls. *)
Theorem C70_lines_refuted : exists n s1 s2 ws1 ws2 ws l, 2 <= n /\
  copy_err_to_log n (S (String.length s1)) s1 = Ok ws1 /\ copy_err_to_log n (S (String.length s2)) s2 = Ok ws2 /\
  shuffle ws1 ws2 ws /\ line_of (concat ws) l /\ ~ line_of (concat ws1) l /\ ~ line_of (concat ws2) l.
Proof.
  exists 16, ("a" ++ nl)%string, ("b" ++ nl)%string, ["a"; nl], ["b"; nl], ["a"; "b"; nl; nl], "ab".
  split; [ lia | ]. split; [ reflexivity | ]. split; [ reflexivity | ].
  split; [ repeat constructor | ].
  split; [ split; [ intros [|? [|? [|? ?]]] q E; discriminate E | left; exists nl; reflexivity ] | ].
  split; intros [_ [[q E]|[p [q E]]]]; cbn in E; try discriminate E.
  - apply (f_equal String.length) in E. rewrite slen in E. cbn in E. lia.
  - apply (f_equal String.length) in E. rewrite slen in E. cbn in E. lia.
Qed.
Print Assumptions C70_log.
Print Assumptions C70_last_line_partial.
Print Assumptions C70_last_line_refuted.
Print Assumptions C70_lines_refuted.

(** ** C71: stopping a plugin *)

(** What is written while the plugin is stopped. *)
Definition written (es : list stop_event) : list string :=
  flat_map (fun e => match e with EvWrite t => [t] | _ => [] end) es.

(** A step of the program, not of the plugin or its children. *)
Definition of_program (e : stop_event) : Prop :=
  match e with EvWrite _ | EvExit | EvFork | EvOtherExit => False | _ => True end.

Definition stop_inv (total : list string) (s : stopping) : Prop :=
  sp_log s ++ sp_pending s = total /\
  (sp_copying s = false -> sp_pending s = [] /\ is_open s = false) /\
  (sp_ignoring s = false -> is_open s = false) /\
  (sp_killer s = KlBack -> sp_copying s = false /\ sp_ignoring s = false) /\
  (sp_killer s = KlDrain -> sp_alive s = false) /\
  (sp_reaper s = RpSend -> sp_alive s = false).

Lemma stop_run_app a b s : stop_run (a ++ b) s = match stop_run a s with Some s' => stop_run b s' | None => None end.
Proof. revert s. induction a as [|e a IH]; intro s; cbn; [ reflexivity | ]. destruct (stop_step e s); [ apply IH | reflexivity ]. Qed.

Lemma written_app a b : written (a ++ b) = written a ++ written b.
Proof. apply flat_map_app. Qed.

Lemma stop_inv_step t e s s' : stop_inv t s -> stop_step e s = Some s' -> stop_inv (t ++ written [e]) s'.
Proof.
  destruct s as [alive others pending log copying ignoring k r]. unfold stop_inv, is_open. cbn.
  intros (A & B & C & D & F & G) E.
  destruct e; cbn in E; unfold is_open in E; cbn in E;
    destruct alive, copying, ignoring, others as [|n]; cbn in *;
    repeat match type of E with
    | match ?x with _ => _ end = _ => destruct x; try discriminate E
    end; try discriminate E; injection E as <-; cbn in *; rewrite ?app_nil_r in *;
    (split; [ subst t; rewrite <- ?app_assoc; reflexivity | ]);
    intuition (try discriminate; try congruence; auto).
Qed.

Lemma stop_inv_run es t s s' : stop_inv t s -> stop_run es s = Some s' -> stop_inv (t ++ written es) s'.
Proof.
  revert t s. induction es as [|e es IH]; cbn [stop_run]; intros t s I E.
  - injection E as <-. cbn. rewrite app_nil_r. exact I.
  - destruct (stop_step e s) as [s1|] eqn:S1; [ | discriminate E ].
    replace (t ++ written (e :: es)) with ((t ++ written [e]) ++ written es).
    + eapply IH; [ eapply stop_inv_step; eassumption | exact E ].
    + rewrite <- app_assoc. f_equal. exact (eq_sym (written_app [e] es)).
Qed.

Lemma stop_inv_start others pending log : stop_inv (log ++ pending) (stop_start others pending log).
Proof. unfold stop_inv. cbn. intuition discriminate. Qed.

(** Whatever the plugin and its children do, and in whatever order things
    happen: when kill is back the process has ended, no process has its pipes
    open, and everything that was written on its stderr, before or while it was
    stopped, is in the log, in order. *)
Theorem C71_stopped others pending log es s :
  stop_run es (stop_start others pending log) = Some s -> sp_killer s = KlBack ->
  sp_alive s = false /\ sp_others s = 0 /\ sp_log s = log ++ pending ++ written es.
Proof.
  intros E K. destruct (stop_inv_run _ _ _ _ (stop_inv_start others pending log) E) as (A & B & _ & D & _ & _).
  destruct (D K) as [D1 D2]. destruct (B D1) as [P O]. rewrite P, app_nil_r, <- app_assoc in A.
  unfold is_open in O. apply orb_false_iff in O. destruct O as [O1 O2]. apply negb_false_iff, Nat.eqb_eq in O2. auto.
Qed.

(** A plugin that writes when it is asked to end, and has a child that writes
    after it ended. *)
Definition stop_ex : list stop_event :=
  [EvTermSent; EvWrite "ending"; EvFork; EvExit; EvReaped; EvDone; EvCopy; EvWrite "child"; EvOtherExit; EvIgnoreEnd; EvCopy; EvCopy; EvCopyEnd; EvReturn].
Example C71_stopped_ex :
  stop_run stop_ex (stop_start 0 ["early"] []) =
  Some (mk_stopping false 0 [] ["early"; "ending"; "child"] false false KlBack RpEnded).
Proof. reflexivity. Qed.

(** *** Coming back *)

Definition stop_measure (s : stopping) : nat :=
  List.length (sp_pending s) + (if sp_copying s then 1 else 0) + (if sp_ignoring s then 1 else 0) +
  match sp_killer s with KlStart => 6 | KlSelect => 2 | KlDrain => 1 | KlBack => 0 end +
  match sp_reaper s with RpWait => 2 | RpSend => 1 | _ => 0 end.

Lemma stop_measure_step e s s' : of_program e -> stop_step e s = Some s' ->
  stop_measure s' < stop_measure s /\ sp_others s' = sp_others s.
Proof.
  destruct s as [alive others pending log copying ignoring k r]. unfold stop_measure.
  intros P E. destruct e; cbn in P; try contradiction; cbn in E; unfold is_open in E; cbn in E;
    destruct alive, copying, ignoring, others as [|n], k, r; cbn in E; try discriminate E;
    try (destruct pending; cbn in E; try discriminate E); injection E as <-; cbn; (split; [ lia | reflexivity ]).
Qed.

Lemma stop_measure_run es s s' : Forall of_program es -> stop_run es s = Some s' ->
  List.length es + stop_measure s' <= stop_measure s /\ sp_others s' = sp_others s.
Proof.
  revert s. induction es as [|e es IH]; cbn [stop_run]; intros s F E.
  - injection E as <-. cbn. auto.
  - destruct (stop_step e s) as [s1|] eqn:S1; [ | discriminate E ]. inversion F as [|? ? P F']; subst.
    destruct (stop_measure_step _ _ _ P S1) as [M O]. destruct (IH _ F' E) as [M' O']. cbn [List.length]. split; [ lia | congruence ].
Qed.

(** However far it is, and whatever happened before: when no child has the pipes
    open, the program comes to an end by itself, in a number of steps that only
    depends on how much there is to read; and where it cannot go on kill is
    back. *)
Theorem C71_returns_partial others pending log es s : stop_run es (stop_start others pending log) = Some s -> sp_others s = 0 ->
  forall es' s', Forall of_program es' -> stop_run es' s = Some s' ->
  List.length es' <= List.length (sp_pending s) + 10 /\
  ((forall e, of_program e -> stop_step e s' = None) -> sp_killer s' = KlBack).
Proof.
  intros E O es' s' F E'. destruct (stop_measure_run _ _ _ F E') as [M O']. split.
  - enough (stop_measure s <= List.length (sp_pending s) + 10) by lia. unfold stop_measure.
    destruct (sp_copying s), (sp_ignoring s), (sp_killer s), (sp_reaper s); lia.
  - intro Stuck. assert (I := stop_inv_run _ _ _ _ (stop_inv_start others pending log) E).
    assert (I' := stop_inv_run _ _ _ _ I E'). destruct I' as (_ & _ & _ & _ & D & _).
    rewrite O in O'. clear - Stuck D O'. destruct s' as [alive others pending log copying ignoring k r]. cbn in *. subst others.
    destruct k; [ exfalso | exfalso | exfalso | reflexivity ].
    + discriminate (Stuck EvTermSent I).
    + discriminate (Stuck EvTimeout I).
    + rewrite (D eq_refl) in Stuck. clear D.
      destruct copying.
      * destruct pending; [ discriminate (Stuck EvCopyEnd I) | discriminate (Stuck EvCopy I) ].
      * destruct ignoring; [ discriminate (Stuck EvIgnoreEnd I) | discriminate (Stuck EvReturn I) ].
Qed.

(** A plugin that does not end when it is asked to. *)
Example C71_returns_ex :
  let s := stop_start 0 ["early"] [] in
  let es := [EvTermSent; EvTimeout; EvCopy; EvCopyEnd; EvIgnoreEnd; EvReturn; EvReaped] in
  stop_run [] s = Some s /\ sp_others s = 0 /\ Forall of_program es /\
  stop_run es s = Some (mk_stopping false 0 [] ["early"] false false KlBack RpSend).
Proof. cbn. split; [ reflexivity | ]. split; [ reflexivity | ]. split; [ | reflexivity ]. repeat constructor. Qed.

(** The full statement: the program comes to an end by itself, with kill back,
    whatever children the plugin has. *)
Definition C71_returns_full : Prop := forall others pending log es s, stop_run es (stop_start others pending log) = Some s ->
  forall es' s', Forall of_program es' -> stop_run es' s = Some s' -> (forall e, of_program e -> stop_step e s' = None) -> sp_killer s' = KlBack.

Lemma held_open es s s' : (0 < sp_others s) -> sp_ignoring s = true -> sp_killer s = KlDrain -> ~ In EvOtherExit es ->
  stop_run es s = Some s' -> sp_killer s' = KlDrain.
Proof.
  revert s. induction es as [|e es IH]; cbn [stop_run]; intros s O G K N E.
  - injection E as <-. exact K.
  - destruct (stop_step e s) as [s1|] eqn:S1; [ | discriminate E ].
    assert (X : 0 < sp_others s1 /\ sp_ignoring s1 = true /\ sp_killer s1 = KlDrain).
    { destruct s as [alive others pending log copying ignoring k r]. cbn in O, G, K. subst ignoring k.
      destruct others as [|n]; [ lia | ].
      destruct e; cbn in S1; unfold is_open in S1; cbn in S1; rewrite ?orb_true_r, ?andb_false_r in S1; cbn in S1;
        try (exfalso; apply N; left; reflexivity);
        repeat match type of S1 with
        | context [match ?x with _ => _ end] => destruct x; try discriminate S1
        end; try discriminate S1; injection S1 as <-; cbn; repeat split; lia. }
    destruct X as (X1 & X2 & X3). apply (IH s1 X1 X2 X3); [ | exact E ]. intro Y. apply N. right. exact Y.
Qed.

(** It does not: the plugin has been killed, but a child that has its output
    open is not stopped by that, and kill waits as long as that child runs,
    with the lock of the registry and the lock of the plugin. *)
Theorem C71_waits_refuted : exists es s, stop_run es (stop_start 1 [] []) = Some s /\
  sp_alive s = false /\ sp_killer s = KlDrain /\ (forall e, of_program e -> stop_step e s = None) /\
  forall es' s', ~ In EvOtherExit es' -> stop_run es' s = Some s' -> sp_killer s' = KlDrain.
Proof.
  exists [EvTermSent; EvExit; EvReaped; EvDone]. eexists. split; [ reflexivity | ]. split; [ reflexivity | ]. split; [ reflexivity | ].
  split.
  - intros []; cbn; intro; try contradiction; reflexivity.
  - intros es' s' N E. eapply held_open; [ | | | exact N | exact E ]; cbn; auto.
Qed.

(** *** Goroutines that are left *)

Lemma reaper_left es s s' : sp_killer s <> KlSelect -> sp_killer s <> KlStart -> sp_reaper s <> RpEnded -> stop_run es s = Some s' ->
  sp_reaper s' <> RpEnded.
Proof.
  revert s. induction es as [|e es IH]; cbn [stop_run]; intros s K1 K2 R E.
  - injection E as <-. exact R.
  - destruct (stop_step e s) as [s1|] eqn:S1; [ | discriminate E ].
    apply (IH s1); try exact E; destruct s as [alive others pending log copying ignoring k r]; cbn in K1, K2, R;
      destruct e; cbn in S1; unfold is_open in S1; cbn in S1;
      repeat match type of S1 with
      | context [match ?x with _ => _ end] => destruct x; try discriminate S1; try congruence
      end; injection S1 as <-; cbn; congruence.
Qed.

(** The full statement: once kill is back, and the program has done all it can
    do, the goroutine that waits for the process has ended. *)
Definition C71_goroutines_full : Prop := forall others pending log es s, stop_run es (stop_start others pending log) = Some s ->
  sp_killer s = KlBack -> (forall e, of_program e -> stop_step e s = None) -> sp_reaper s = RpNone \/ sp_reaper s = RpEnded.

(** It has not, ever, for a plugin that did not end in time: nothing receives
    from the channel any more. *)
Theorem C71_goroutine_left_refuted : exists es s, stop_run es (stop_start 0 [] []) = Some s /\
  sp_killer s = KlBack /\ sp_alive s = false /\ sp_reaper s = RpSend /\
  forall es' s', stop_run es' s = Some s' -> sp_reaper s' = RpSend.
Proof.
  exists [EvTermSent; EvTimeout; EvCopyEnd; EvIgnoreEnd; EvReturn; EvReaped]. eexists.
  split; [ reflexivity | ]. split; [ reflexivity | ]. split; [ reflexivity | ]. split; [ reflexivity | ].
  intros [|e es'] s' E; cbn [stop_run] in E; [ injection E as <-; reflexivity | ].
  destruct e; discriminate E.
Qed.
(** And that is so however it goes after the timeout. *)
Theorem C71_goroutine_left_always others pending log es es' s :
  stop_run (es ++ EvTimeout :: es') (stop_start others pending log) = Some s -> sp_reaper s <> RpEnded.
Proof.
  rewrite stop_run_app. destruct (stop_run es (stop_start others pending log)) as [s1|] eqn:E1; [ | discriminate ].
  assert (I : sp_killer s1 = KlStart \/ sp_killer s1 = KlSelect -> sp_reaper s1 <> RpEnded).
  { clear es' s. revert s1 E1.
    enough (G : forall es s0 s1, (sp_killer s0 = KlStart \/ sp_killer s0 = KlSelect -> sp_reaper s0 <> RpEnded) ->
      stop_run es s0 = Some s1 -> sp_killer s1 = KlStart \/ sp_killer s1 = KlSelect -> sp_reaper s1 <> RpEnded).
    { intros s1 E1. refine (G es _ _ _ E1). cbn. intros _. discriminate. }
    clear. induction es as [|e es IH]; cbn [stop_run]; intros s0 s1 I E.
    - injection E as <-. exact I.
    - destruct (stop_step e s0) as [s2|] eqn:S2; [ | discriminate E ]. apply (IH s2 s1); [ | exact E ].
      destruct s0 as [alive others pending log copying ignoring k r]; cbn in I;
      destruct e; cbn in S2; unfold is_open in S2; cbn in S2;
      repeat match type of S2 with
      | context [match ?x with _ => _ end] => destruct x; try discriminate S2
      end; injection S2 as <-; cbn; try exact I; try (intros [X|X]; discriminate X); intros _; try (apply I; auto); discriminate. }
  cbn [stop_run]. destruct (stop_step EvTimeout s1) as [s2|] eqn:S2; [ | discriminate ].
  intro E. eapply reaper_left; [ | | | exact E ];
    destruct s1 as [alive others' pending' log' copying ignoring k r]; cbn in S2; destruct k; try discriminate S2; injection S2 as <-; cbn; try discriminate.
  apply I. auto.
Qed.
Example C71_goroutine_left_ex : exists s,
  stop_run ([EvTermSent; EvWrite "late"] ++ EvTimeout :: [EvReaped; EvCopy; EvCopyEnd; EvIgnoreEnd; EvReturn]) (stop_start 0 [] []) = Some s /\
  sp_killer s = KlBack /\ sp_log s = ["late"].
Proof. eexists. split; [ reflexivity | ]. split; reflexivity. Qed.

(** *** Starting *)

(** A plugin whose meta data came is only known when awaitMetaData has ended, so
    that nothing but ignoreOut reads its stdout. *)
Theorem C71_meta es d : meta_run es (AwSelect, DcDecode) = Some (AwGot, d) -> d = DcEnded.
Proof.
  enough (G : forall es s s', (fst s = AwGot -> snd s = DcEnded) -> meta_run es s = Some s' -> fst s' = AwGot -> snd s' = DcEnded).
  { intro E. refine (G es (AwSelect, DcDecode) (AwGot, d) _ E eq_refl). cbn. discriminate. }
  clear. induction es as [|e es IH]; cbn [meta_run]; intros s s' I E.
  - injection E as <-. exact I.
  - destruct (meta_step e s) as [s1|] eqn:S1; [ | discriminate E ]. apply (IH s1 s'); [ | exact E ].
    destruct e, s as [[] []]; cbn in S1; try discriminate S1; injection S1 as <-; cbn; try discriminate; try reflexivity.
    intro X. discriminate (I X).
Qed.
Example C71_meta_ex : meta_run [MeDecoded; MePassed] (AwSelect, DcDecode) = Some (AwGot, DcEnded).
Proof. reflexivity. Qed.

(** The full statement: it also ends when the meta data did not come in time. *)
Definition C71_meta_full : Prop := forall es s, meta_run es (AwSelect, DcDecode) = Some s ->
  (forall e, meta_step e s = None) -> snd s = DcEnded.
(** It does not: the plugin is killed, Decode gives an error, and the error is
    sent to a channel that nothing receives from. *)
Theorem C71_meta_refuted : exists es s, meta_run es (AwSelect, DcDecode) = Some s /\ fst s = AwTimeout /\ snd s = DcSend /\
  forall es' s', meta_run es' s = Some s' -> s' = s.
Proof.
  exists [MeTimeout; MeDecoded]. eexists. split; [ reflexivity | ]. split; [ reflexivity | ]. split; [ reflexivity | ].
  intros [|[] es'] s' E; cbn in E; congruence.
Qed.
Print Assumptions C71_stopped.
Print Assumptions C71_returns_partial.
Print Assumptions C71_waits_refuted.
Print Assumptions C71_goroutine_left_refuted.
Print Assumptions C71_goroutine_left_always.
Print Assumptions C71_meta.
Print Assumptions C71_meta_refuted.

(** Exactly: awaitMetaData has ended if and only if what it sent was received,
    and after the timeout it never does. *)
Theorem C71_meta_exactly es s : meta_run es (AwSelect, DcDecode) = Some s ->
  (snd s = DcEnded <-> es = [MeDecoded; MePassed]) /\
  (In MeTimeout es <-> fst s = AwTimeout) /\
  (In MeTimeout es -> forall es' s', meta_run es' s = Some s' -> snd s' <> DcEnded).
Proof.
  assert (L : forall es d s, d <> DcEnded -> meta_run es (AwTimeout, d) = Some s -> fst s = AwTimeout /\ snd s <> DcEnded).
  { clear. induction es as [|e es IH]; cbn [meta_run]; intros d s N E; [ injection E as <-; auto | ].
    destruct e, d; cbn [meta_step] in E; try discriminate E.
    apply (IH DcSend s); [ discriminate | exact E ]. }
  intro E. destruct es as [|e1 es]; [ injection E as <-; cbn; intuition discriminate | ].
  destruct e1; cbn [meta_run meta_step] in E; [ | discriminate E | ].
  - destruct es as [|e2 es].
    { injection E as <-; cbn. intuition discriminate. }
    destruct e2; cbn [meta_run meta_step] in E; [ discriminate E | | ].
    + destruct es as [|e3 es]; [ | destruct e3; discriminate E ]. injection E as <-. cbn.
      intuition discriminate.
    + match type of E with meta_run ?l (AwTimeout, ?d) = _ => assert (N : d <> DcEnded) by discriminate; destruct (L l d s N E) as [F1 F2] end. split; [ | split ].
      * split; [ contradiction | discriminate ].
      * split; [ intros _; exact F1 | intros _; right; left; reflexivity ].
      * intros _ es' s' E'. destruct s as [a d]. cbn [fst snd] in *. subst a. apply (L es' d s' F2 E').
  - match type of E with meta_run ?l (AwTimeout, ?d) = _ => assert (N : d <> DcEnded) by discriminate; destruct (L l d s N E) as [F1 F2] end. split; [ | split ].
    + split; [ contradiction | discriminate ].
    + split; [ intros _; exact F1 | intros _; left; reflexivity ].
    + intros _ es' s' E'. destruct s as [a d]. cbn [fst snd] in *. subst a. apply (L es' d s' F2 E').
Qed.
Example C71_meta_exactly_ex : meta_run [MeDecoded; MeTimeout] (AwSelect, DcDecode) = Some (AwTimeout, DcSend) /\
  meta_run [MeTimeout; MeDecoded] (AwSelect, DcDecode) = Some (AwTimeout, DcSend) /\
  meta_run [MeTimeout] (AwSelect, DcDecode) = Some (AwTimeout, DcDecode).
Proof. repeat split. Qed.
Print Assumptions C71_meta_exactly.
