(** C88: blanks around an expression, a variable, its value or a default make no
    difference. *)

From Coq Require Import String Ascii List ZArith Bool Arith Lia.
From Verif Require Import Str Value Outcome Key Merge Config Ipl Explain State Engine Worlds Api
  SpecKey SpecIpl SpecInterp SpecApi SpecBlanks KeyFacts StrFacts IplFacts IplExact P_Command.
Import ListNotations.
Open Scope nat_scope.
Open Scope string_scope.
Open Scope list_scope.

Lemma is_space_blank c : is_space c = true <-> blank c.
Proof.
  unfold is_space, blank. rewrite orb_true_iff, andb_true_iff, !Nat.leb_le, Nat.eqb_eq. cbn [In].
  split; [ lia | ]. intros [H|[H|[H|[H|[H|[H|[]]]]]]]; lia.
Qed.
Lemma is_space_not c : is_space c = false <-> ~ blank c.
Proof. rewrite <- is_space_blank. destruct (is_space c); split; congruence. Qed.

Lemma blanks_app a b : blanks (a ++ b) <-> blanks a /\ blanks b.
Proof.
  induction a as [|c a IH]; cbn; split.
  - split; [ constructor | assumption ].
  - tauto.
  - intro H. inversion H as [|? ? Hc Hr]; subst. apply IH in Hr. destruct Hr. split; [ constructor; assumption | assumption ].
  - intros [H Hb]. inversion H as [|? ? Hc Hr]; subst. constructor; [ exact Hc | apply IH; auto ].
Qed.

Lemma trim_left_app a s : blanks a -> trim_left (a ++ s) = trim_left s.
Proof. induction 1 as [|c a Hc _ IH]; [ reflexivity | ]. cbn. apply is_space_blank in Hc. rewrite Hc. exact IH. Qed.
Lemma trim_left_bare s : (forall c r, s = String c r -> ~ blank c) -> trim_left s = s.
Proof. destruct s as [|c r]; [ reflexivity | ]. intro H. cbn. rewrite (proj2 (is_space_not c) (H c r eq_refl)). reflexivity. Qed.
Lemma trim_left_all s : exists a, s = (a ++ trim_left s)%string /\ blanks a /\ forall c r, trim_left s = String c r -> ~ blank c.
Proof.
  induction s as [|c s (a & E & Ha & Hn)]; [ exists ""; repeat split; [ constructor | discriminate ] | ]. cbn [trim_left].
  destruct (is_space c) eqn:Ec.
  - exists (String c a). split; [ cbn; rewrite <- E; reflexivity | ]. split; [ constructor; [ apply is_space_blank; exact Ec | exact Ha ] | exact Hn ].
  - exists "". split; [ reflexivity | ]. split; [ constructor | ]. intros c' r H. injection H as <- <-. apply is_space_not. exact Ec.
Qed.

Lemma trim_right_blanks b : blanks b -> trim_right b = "".
Proof. induction 1 as [|c b Hc _ IH]; [ reflexivity | ]. cbn. rewrite IH. apply is_space_blank in Hc. rewrite Hc. reflexivity. Qed.
Lemma trim_right_app s b : blanks b -> trim_right (s ++ b) = trim_right s.
Proof. intro H. induction s as [|c s IH]; [ apply trim_right_blanks; exact H | ]. cbn. rewrite IH. reflexivity. Qed.
Lemma trim_right_all s : exists b, s = (trim_right s ++ b)%string /\ blanks b /\ forall r c, trim_right s = (r ++ String c "")%string -> ~ blank c.
Proof.
  induction s as [|c s (b & E & Hb & Hn)].
  - exists "". split; [ reflexivity | ]. split; [ constructor | ]. intros [|? r] c H; discriminate H.
  - cbn [trim_right]. destruct (trim_right s) as [|d t] eqn:Et.
    + destruct (is_space c) eqn:Ec.
      * exists (String c b). split; [ cbn in *; rewrite <- E; reflexivity | ]. split; [ constructor; [ apply is_space_blank; exact Ec | exact Hb ] | ].
        intros [|? r] c' H; discriminate H.
      * exists b. split; [ cbn in *; rewrite <- E; reflexivity | ]. split; [ exact Hb | ]. intros [|e r] c' H; [ injection H as <-; apply is_space_not; exact Ec | ].
        injection H as _ H. destruct r; discriminate H.
    + exists b. split; [ change (String c s = String c (String d t ++ b)%string); rewrite <- E; reflexivity | ]. split; [ exact Hb | ].
      intros [|e r] c' H; [ discriminate H | ]. injection H as _ H. exact (Hn r c' H).
Qed.
Lemma last_char b : b = "" \/ exists r c, b = (r ++ String c "")%string.
Proof. induction b as [|c b [->|(r & d & ->)]]; [ left; reflexivity | right; exists "", c; reflexivity | right; exists (String c r), d; reflexivity ]. Qed.
Lemma trim_right_bare s : (forall r c, s = (r ++ String c "")%string -> ~ blank c) -> trim_right s = s.
Proof.
  intro H. destruct (trim_right_all s) as (b & E & Hb & _). destruct (last_char b) as [->|(r & c & ->)].
  - rewrite KeyFacts.app_nil_s in E. symmetry. exact E.
  - exfalso. apply blanks_app in Hb. destruct Hb as [_ Hb]. inversion Hb as [|? ? Hc _]; subst.
    apply (H (trim_right s ++ r)%string c); [ rewrite E at 1; symmetry; apply app_assoc_s | exact Hc ].
Qed.

(** ** C88, what trimming leaves *)
Theorem C88_trimmed : forall s t, trim_space s = t <-> trimmed s t.
Proof.
  intros s t. unfold trim_space. split.
  - intros <-. destruct (trim_left_all s) as (a & E & Ha & Hl). destruct (trim_right_all (trim_left s)) as (b & E' & Hb & Hr).
    exists a, b. split; [ rewrite E at 1; f_equal; exact E' | ]. split; [ exact Ha | ]. split; [ exact Hb | ]. split; [ | exact Hr ].
    intros c r H. rewrite H in E'. exact (Hl c (r ++ b)%string E').
  - intros (a & b & -> & Ha & Hb & Hl & Hr). rewrite trim_left_app by exact Ha. destruct t as [|c t].
    + cbn [append]. destruct (trim_left_all b) as (a' & E & _ & _). rewrite trim_right_blanks; [ reflexivity | ].
      rewrite E in Hb. apply blanks_app in Hb. tauto.
    + rewrite trim_left_bare; [ | intros c' r H; injection H as <- _; exact (Hl c t eq_refl) ]. rewrite trim_right_app by exact Hb. apply trim_right_bare. exact Hr.
Qed.
Print Assumptions C88_trimmed.

Lemma alike_trim s s' : alike s s' -> trim_space s = trim_space s'.
Proof.
  intros (t & a & b & a' & b' & -> & -> & Ha & Hb & Ha' & Hb'). destruct (proj1 (C88_trimmed t _) eq_refl) as (c & d & E & Hc & Hd & Ht).
  assert (K : forall a b, blanks a -> blanks b -> trim_space (a ++ t ++ b) = trim_space t).
  { intros x y Hx Hy. apply C88_trimmed. exists (x ++ c)%string, (d ++ y)%string.
    split; [ rewrite E at 1; rewrite !app_assoc_s; reflexivity | ]. split; [ apply blanks_app; auto | ]. split; [ apply blanks_app; auto | exact Ht ]. }
  rewrite (K a b Ha Hb), (K a' b' Ha' Hb'). reflexivity.
Qed.

(** ** C88, expressions *)
Definition padded (p p' : string * string) : Prop := fst p = fst p' /\ alike (snd p) (snd p').

Lemma Forall2_cons_inv {A B} (R : A -> B -> Prop) x y l l' : Forall2 R (x :: l) (y :: l') -> R x y /\ Forall2 R l l'.
Proof. intro H. inversion H; auto. Qed.
Lemma Forall2_nil_inv {A B} (R : A -> B -> Prop) l : Forall2 R [] l -> l = [].
Proof. intro H. inversion H; auto. Qed.
Lemma Forall2_impl' {A B} (R R' : A -> B -> Prop) l l' : (forall x y, R x y -> R' x y) -> Forall2 R l l' -> Forall2 R' l l'.
Proof. intros H F. induction F; constructor; auto. Qed.

Lemma padded_alone cut cut' last e e' : well_cut cut last -> well_cut cut' last -> Forall2 padded cut cut' ->
  (exists pre t post pre' t' post', cut = pre ++ (t, e) :: post /\ cut' = pre' ++ (t', e') :: post' /\ length pre = length pre') ->
  String.eqb ("%{" ++ e ++ "}") (assembled cut last) = String.eqb ("%{" ++ e' ++ "}") (assembled cut' last).
Proof.
  assert (K : forall cut cut' e e', well_cut cut last -> well_cut cut' last -> Forall2 padded cut cut' ->
    (exists pre t post pre' t' post', cut = pre ++ (t, e) :: post /\ cut' = pre' ++ (t', e') :: post' /\ length pre = length pre') ->
    ("%{" ++ e ++ "}")%string = assembled cut last -> ("%{" ++ e' ++ "}")%string = assembled cut' last).
  { clear. intros cut cut' e e' W W' F (pre & t & post & pre' & t' & post' & E1 & E2 & L) E.
    assert (Ne : ~ has "}" e). { destruct W as [W _]. rewrite Forall_forall in W. destruct (W (t, e)) as [_ X]; [ rewrite E1; apply in_or_app; right; left; reflexivity | exact X ]. }
    assert (W0 : well_cut [("", e)] "").
    { split; [ constructor; [ split; [ intros (x & y & H); destruct x; discriminate H | exact Ne ] | constructor ] | ].
      intros (x & y & z & H). destruct x; discriminate H. }
    destruct (cut_unique [("", e)] "" cut last W0 W) as [C L0]; [ cbn; exact E | ]. rewrite E1 in C.
    destruct pre as [|? pre]; [ | destruct pre; discriminate C ]. destruct pre' as [|? pre']; [ | discriminate L ]. cbn [app] in E1, E2, C. injection C as <- <-.
    rewrite E1, E2 in F. apply Forall2_cons_inv in F. destruct F as [[Hp _] F]. apply Forall2_nil_inv in F. cbn in Hp. subst t' post'. rewrite E2, <- L0. reflexivity. }
  intros W W' F Hin.
  destruct (String.eqb_spec ("%{" ++ e ++ "}") (assembled cut last)) as [E|N]; destruct (String.eqb_spec ("%{" ++ e' ++ "}") (assembled cut' last)) as [E'|N']; try reflexivity.
  - elim N'. exact (K cut cut' e e' W W' F Hin E).
  - elim N. apply (K cut' cut e' e W' W); [ | | exact E' ].
    + clear - F. induction F as [|x y l l' [H1 H2] _ IH]; constructor; [ | exact IH ]. split; [ auto | ].
      destruct H2 as (t & a & b & a' & b' & X1 & X2 & B1 & B2 & B3 & B4). exists t, a', b', a, b. repeat (split; [ assumption | ]). assumption.
    + destruct Hin as (pre & t & post & pre' & t' & post' & E1 & E2 & L). exists pre', t', post', pre, t, post. auto.
Qed.

Lemma bind_same {S A B} (m : M S A) (f g : A -> M S B) s : (forall a s', f a s' = g a s') -> bind m f s = bind m g s.
Proof. intro H. unfold bind. destruct (m s) as [[a|x| |] s']; [ apply H | reflexivity .. ]. Qed.
Lemma bind_same_l {S A B} (m m' : M S A) (f : A -> M S B) s : m s = m' s -> bind m f s = bind m' f s.
Proof. intro H. unfold bind. rewrite H. reflexivity. Qed.

Lemma loop_same w rec str str' allow last : forall r r',
  Forall2 (fun p p' => fst p = fst p' /\ trim_space (snd p) = trim_space (snd p') /\
                       String.eqb ("%{" ++ snd p ++ "}") str = String.eqb ("%{" ++ snd p' ++ "}") str') r r' ->
  forall acc m result s, istr_loop w rec str allow (toks r last) acc m result s = istr_loop w rec str' allow (toks r' last) acc m result s.
Proof.
  induction 1 as [|[t e] [t' e'] r r' (Ht & He & Hs) _ IH]; intros acc m result s; [ reflexivity | ]. cbn [fst snd] in Ht, He, Hs. subst t'.
  cbn [toks istr_loop]. rewrite He, Hs. destruct (empty_interpolation (trim_space e')); [ apply IH | ].
  apply bind_same. intros md s1.
  destruct (is_alias (fst md) && negb (String.eqb ("%{" ++ e' ++ "}") str')); [ reflexivity | ].
  destruct (fst md); repeat (apply bind_same; intros ? ?); apply IH.
Qed.

Lemma padded_split cut cut' : Forall2 padded cut cut' -> forall pre pre', length pre = length pre' ->
  Forall2 (fun p p' => exists a b a' b', pre ++ cut = a ++ p :: b /\ pre' ++ cut' = a' ++ p' :: b' /\ length a = length a' /\ padded p p') cut cut'.
Proof.
  induction 1 as [|p p' r r' P _ IH]; intros pre pre' L; constructor.
  - exists pre, r, pre', r'. auto.
  - specialize (IH (pre ++ [p]) (pre' ++ [p'])). rewrite !app_length in IH. specialize (IH ltac:(cbn; lia)). rewrite <- !app_assoc in IH. exact IH.
Qed.

Theorem C88_expressions : forall w n allow cut cut' last s,
  iv_expl (s_iv s) = false -> well_cut cut last -> well_cut cut' last -> Forall2 padded cut cut' ->
  run w (S n) (RStr (assembled cut last) allow) s = run w (S n) (RStr (assembled cut' last) allow) s.
Proof.
  intros w n allow cut cut' last s Off W W' F. cbn [run body]. unfold istr.
  destruct F as [|[t e] [t' e'] r r' P F]; [ reflexivity | ].
  assert (C : forall r0 t0 e0, contains "%{" (assembled ((t0, e0) :: r0) last) = true).
  { intros. apply contains_has. cbn. apply has_app_r. apply (has_self "%{" ""). }
  rewrite !C. cbn [negb].
  apply bind_same_l. rewrite !node_off by exact Off. rewrite !tokens_cut by assumption. apply bind_same_l.
  rewrite (loop_same w (run w n) _ (assembled ((t', e') :: r') last) allow last ((t, e) :: r) ((t', e') :: r')); [ reflexivity | ].
  assert (F0 : Forall2 padded ((t, e) :: r) ((t', e') :: r')) by (constructor; assumption).
  eapply Forall2_impl'; [ | exact (padded_split _ _ F0 [] [] eq_refl) ].
  intros [t1 e1] [t2 e2] (a & b & a' & b' & E1 & E2 & L & Pt & Pe). cbn [fst snd app] in *. split; [ exact Pt | ]. split; [ apply alike_trim; exact Pe | ].
  apply (padded_alone _ _ last e1 e2 W W' F0). exists a, t1, b, a', t2, b'. auto.
Qed.
Print Assumptions C88_expressions.

(** ** C88, variables and defaults of the command *)

(** Two definitions of a variable that differ in blanks around the name and around
    the value. *)
Definition same_definition (a a' : string) : Prop :=
  a = a' \/ no_newline a /\ no_newline a' /\ exists k v k' v', first_split a k v /\ first_split a' k' v' /\ alike k k' /\ alike v v'.

(** Two commands that differ in nothing but such blanks. *)
Record same_command (o o' : command_options) : Prop := mk_same_command {
  sc_variables : Forall2 same_definition (co_variables o) (co_variables o');
  sc_default : co_default o = co_default o' \/ exists d d', co_default o = Some d /\ co_default o' = Some d' /\ alike d d';
  sc_others : o' = mk_command (co_type o) (co_merge o) (co_default o') (co_fact_paths o) (co_var_paths o) (co_variables o') (co_render_as o)
                     (co_explain_data o) (co_explain_options o) (co_lookup_all o)
}.

Lemma value_same parse v v' : alike v v' -> parse_command_line_value parse v = parse_command_line_value parse v'.
Proof. intro H. unfold parse_command_line_value. rewrite (alike_trim v v' H). reflexivity. Qed.

Lemma variables_same parse l l' : Forall2 same_definition l l' -> forall m, add_variables parse l m = add_variables parse l' m.
Proof.
  induction 1 as [|a a' l l' H _ IH]; intro m; [ reflexivity | ]. cbn [add_variables]. destruct H as [<-|(N & N' & k & v & k' & v' & S & S' & Hk & Hv)].
  - destruct (var_split a) as [[k v]|]; [ | reflexivity ]. destruct (parse_command_line_value parse v); cbn [obind]; [ apply IH | reflexivity .. ].
  - apply (C46_split_partial a k v N) in S. apply (C46_split_partial a' k' v' N') in S'. rewrite S, S', (value_same parse v v' Hv), (alike_trim k k' Hk).
    destruct (parse_command_line_value parse v'); cbn [obind]; [ apply IH | reflexivity .. ].
Qed.

Lemma default_value parse d d' : alike d d' ->
  (if String.eqb d "" then Ok (Some (VStr "")) else omap Some (parse_command_line_value parse d)) =
  (if String.eqb d' "" then Ok (Some (VStr "")) else omap Some (parse_command_line_value parse d')).
Proof.
  intro H.
  assert (K : forall x, (if String.eqb x "" then Ok (Some (VStr "")) else omap Some (parse_command_line_value parse x)) = omap Some (parse_command_line_value parse x)).
  { intro x. destruct (String.eqb_spec x "") as [->|N]; reflexivity. }
  rewrite !K, (value_same parse d d' H). reflexivity.
Qed.

Theorem C88_command : forall (S T : Type) inst conv (any : T) parse_type struct_of parse file stdin invoke ask_with render render_explainer o o' args (s : S),
  same_command o o' ->
  lookup_and_render inst conv any parse_type struct_of parse file stdin invoke ask_with render render_explainer o args s =
  lookup_and_render inst conv any parse_type struct_of parse file stdin invoke ask_with render render_explainer o' args s.
Proof.
  intros S T inst conv any parse_type struct_of parse file stdin invoke ask_with render render_explainer o o' args s [Hv Hd Ho].
  assert (D : match co_default o with None => Ok None | Some s => if String.eqb s "" then Ok (Some (VStr "")) else omap Some (parse_command_line_value parse s) end =
              match co_default o' with None => Ok None | Some s => if String.eqb s "" then Ok (Some (VStr "")) else omap Some (parse_command_line_value parse s) end).
  { destruct Hd as [->|(d & d' & -> & -> & H)]; [ reflexivity | apply default_value; exact H ]. }
  assert (C : create_scope parse file (co_variables o) (co_var_paths o) (co_fact_paths o) stdin = create_scope parse file (co_variables o') (co_var_paths o) (co_fact_paths o) stdin).
  { unfold create_scope. rewrite (variables_same parse _ _ Hv []). reflexivity. }
  rewrite Ho. unfold lookup_and_render. cbn [co_type co_merge co_default co_fact_paths co_var_paths co_variables co_render_as co_explain_data co_explain_options co_lookup_all].
  rewrite D, C. reflexivity.
Qed.
Print Assumptions C88_command.

(** ** Examples *)
Example C88_trimmed_ex : trimmed (String c_nl "  a b	 ") "a b" /\ trim_space (String c_nl "  a b	 ") = "a b".
Proof. split; [ apply C88_trimmed; reflexivity | reflexivity ]. Qed.

Lemma alike_by s s' t a b a' b' : s = (a ++ t ++ b)%string -> s' = (a' ++ t ++ b')%string -> Forall (fun x => trim_space x = "") [a; b; a'; b'] -> alike s s'.
Proof.
  intros E E' F. exists t, a, b, a', b'. split; [ exact E | ]. split; [ exact E' | ].
  assert (K : forall x, trim_space x = "" -> blanks x). { intros x H. apply C88_trimmed in H. destruct H as (u & v & -> & Hu & Hv & _). cbn. apply blanks_app. auto. }
  inversion F as [|? ? H1 F1]; subst. inversion F1 as [|? ? H2 F2]; subst. inversion F2 as [|? ? H3 F3]; subst. inversion F3 as [|? ? H4 F4]; subst. auto 6.
Qed.

(** An alias alone, and a text with two expressions. *)
Example C88_expressions_ex : forall w n s, iv_expl (s_iv s) = false ->
  run w (S n) (RStr "%{alias('a')}" true) s = run w (S n) (RStr "%{  alias('a') }" true) s /\
  run w (S n) (RStr "x %{env} y %{lookup('b') }" true) s = run w (S n) (RStr "x %{ env	} y %{ lookup('b')}" true) s.
Proof.
  intros w n s Off. split.
  - apply (C88_expressions w n true [("", "alias('a')")] [("", "  alias('a') ")] "" s Off); try (apply cut_by_tokens; vm_compute; reflexivity).
    constructor; [ | constructor ]. split; [ reflexivity | ]. apply (alike_by _ _ "alias('a')" "" "" "  " " "); repeat constructor.
  - apply (C88_expressions w n true [("x ", "env"); (" y ", "lookup('b') ")] [("x ", " env	"); (" y ", " lookup('b')")] "" s Off);
      try (apply cut_by_tokens; vm_compute; reflexivity).
    constructor; [ | constructor; [ | constructor ] ]; (split; [ reflexivity | ]).
    + apply (alike_by _ _ "env" "" "" " " "	"); repeat constructor.
    + apply (alike_by _ _ "lookup('b')" "" " " " " ""); repeat constructor.
Qed.

Example C88_command_ex : same_command (mk_command "" "first" (Some "[1]") [] [] ["env=prod"; "b=2"] "json" false false false)
                                      (mk_command "" "first" (Some " [1] ") [] [] ["env = prod"; "b=2"] "json" false false false).
Proof.
  constructor; [ | right; exists "[1]", " [1] "; split; [ reflexivity | ]; split; [ reflexivity | ] | reflexivity ].
  - constructor; [ right | constructor; [ left; reflexivity | constructor ] ].
    assert (N : no_newline "env=prod" /\ no_newline "env = prod") by (cbn; repeat split; discriminate). destruct N as [N N'].
    split; [ exact N | ]. split; [ exact N' | ]. exists "env", "prod", "env ", " prod". split; [ apply (C46_split_partial _ _ _ N); reflexivity | ].
    split; [ apply (C46_split_partial _ _ _ N'); reflexivity | ].
    split; [ apply (alike_by _ _ "env" "" "" "" " "); repeat constructor | apply (alike_by _ _ "prod" "" "" " " ""); repeat constructor ].
  - apply (alike_by _ _ "[1]" "" "" " " " "); repeat constructor.
Qed.
