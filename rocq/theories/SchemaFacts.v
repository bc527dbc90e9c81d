(** The schema of the configuration file, and what creating a configuration
    gives. *)

From Coq Require Import String Ascii List ZArith Bool Arith Lia.
From Verif Require Import Str Value Outcome Fpath Config SpecKey SpecSchema KeyFacts ValueFacts StrFacts.
Import ListNotations.
Open Scope nat_scope.
Open Scope string_scope.
Open Scope list_scope.

(** ** The schema *)

Lemma in_chars c l : existsb (Ascii.eqb c) l = true <-> In c l.
Proof.
  rewrite existsb_exists. split.
  - intros (x & Hx & E). apply Ascii.eqb_eq in E. subst. exact Hx.
  - intro H. exists c. split; [ exact H | apply Ascii.eqb_refl ].
Qed.

Lemma alpha_letter c : is_alpha c = true <-> letter c.
Proof.
  unfold letter. rewrite <- in_chars.
  assert (E : is_alpha c = existsb (Ascii.eqb c) (list_ascii_of_string "ABCDEFGHIJKLMNOPQRSTUVWXYZabcdefghijklmnopqrstuvwxyz"))
    by (destruct c as [[] [] [] [] [] [] [] []]; reflexivity).
  rewrite E. reflexivity.
Qed.

Lemma digit_digit c : is_digit c = true <-> digit c.
Proof.
  unfold digit. rewrite <- in_chars.
  assert (E : is_digit c = existsb (Ascii.eqb c) (list_ascii_of_string "0123456789"))
    by (destruct c as [[] [] [] [] [] [] [] []]; reflexivity).
  rewrite E. reflexivity.
Qed.

Lemma alnum_spec c : is_alnum c = true <-> letter c \/ digit c.
Proof. unfold is_alnum. rewrite orb_true_iff, alpha_letter, digit_digit. reflexivity. Qed.
Lemma opt_char_spec c : is_opt_char c = true <-> letter c \/ digit c \/ c = "_"%char \/ c = "-"%char.
Proof. unfold is_opt_char. rewrite !orb_true_iff, alnum_spec. unfold ceq. rewrite !Ascii.eqb_eq. tauto. Qed.

Lemma opt_key_rest_spec s : opt_key_rest s = true <->
  exists body last, s = (body ++ str1 last)%string /\ (letter last \/ digit last) /\
    forall x, occurs x body -> letter x \/ digit x \/ x = "_"%char \/ x = "-"%char.
Proof.
  induction s as [|c r IH].
  - split; [ discriminate | ]. intros (b & l & E & _). destruct b; discriminate.
  - destruct r as [|d r].
    + cbn [opt_key_rest]. rewrite alnum_spec. split.
      * intro H. exists "", c. split; [ reflexivity | ]. split; [ exact H | intros x []].
      * intros (b & l & E & H & _). destruct b as [|x b]; [ injection E as ->; exact H | ].
        destruct b; discriminate.
    + change (opt_key_rest (String c (String d r))) with (is_opt_char c && opt_key_rest (String d r)).
      rewrite andb_true_iff, IH, opt_char_spec. split.
      * intros [Hc (b & l & E & H1 & H2)]. exists (String c b), l. rewrite E. split; [ reflexivity | ]. split; [ exact H1 | ].
        cbn [occurs]. intros x [<-|Hx]; [ exact Hc | exact (H2 x Hx) ].
      * intros (b & l & E & H1 & H2). destruct b as [|x b]; [ discriminate | ]. injection E as <- E. split.
        -- apply H2. left. reflexivity.
        -- exists b, l. split; [ exact E | ]. split; [ exact H1 | ]. intros y Hy. apply H2. right. exact Hy.
Qed.

Lemma opt_key_spec t : opt_key_ok t = true <-> option_name t.
Proof.
  unfold option_name. destruct t as [|c r].
  - split; [ discriminate | ]. intros (c & r & E & _). discriminate.
  - destruct r as [|d r].
    + cbn [opt_key_ok]. rewrite alpha_letter. split.
      * intro H. exists c, "". auto.
      * intros (x & y & E & H & _). injection E as <- <-. exact H.
    + change (opt_key_ok (String c (String d r)))
        with (is_alpha c && (opt_key_rest (String d r) || (ceq d c_colon && opt_key_rest r)))%bool.
      rewrite andb_true_iff, orb_true_iff, andb_true_iff, alpha_letter, !opt_key_rest_spec.
      unfold ceq. rewrite Ascii.eqb_eq. split.
      * intros [Hc [(b & l & E & H1 & H2)|[-> (b & l & E & H1 & H2)]]]; exists c; eexists; (split; [ reflexivity | ]); (split; [ exact Hc | ]); right.
        -- exists "", b, l. split; [ left; reflexivity | ]. split; [ exact E | split; assumption ].
        -- exists ":", b, l. split; [ right; reflexivity | ]. split; [ rewrite E; reflexivity | split; assumption ].
      * intros (x & y & E & Hc & H). injection E as <- <-. split; [ exact Hc | ].
        destruct H as [H|(co & b & l & Hco & E & H1 & H2)]; [ discriminate | ].
        destruct Hco as [-> | ->]; cbn [String.append] in E.
        -- left. exists b, l. auto.
        -- right. injection E as -> E. split; [ reflexivity | ]. exists b, l. auto.
Qed.

Lemma is_str_spec v : is_str v = true <-> exists t, v = VStr t.
Proof. destruct v; split; try discriminate; try (intros [t E]; discriminate); eauto. Qed.

Lemma is_data_spec : forall v, is_data v = true <-> plain_data v.
Proof.
  fix IH 1. intros [|b|z|z|t|l|m|v]; cbn [is_data]; try (split; [ intros _; constructor | reflexivity ]).
  - assert (E : forallb is_data l = true <-> Forall plain_data l).
    { induction l as [|x l IHl]; cbn [forallb]; [ split; [ constructor | reflexivity ] | ].
      rewrite andb_true_iff, IHl, (IH x). split; [ intros [A B]; constructor; assumption | intro H; inversion H; auto ]. }
    rewrite E. split; [ apply pd_arr | intro H; inversion H; assumption ].
  - assert (E : forallb (fun e => is_str (fst e) && is_data (snd e)) m = true <->
                Forall (fun e => (exists t, fst e = VStr t) /\ plain_data (snd e)) m).
    { induction m as [|[k x] m IHm]; cbn [forallb fst snd]; [ split; [ constructor | reflexivity ] | ].
      rewrite !andb_true_iff, IHm, (IH x), is_str_spec.
      split; [ intros [[A B] C]; constructor; auto | intro H; inversion H; subst; cbn [fst snd] in *; tauto ]. }
    rewrite E. split; [ apply pd_map | intro H; inversion H; assumption ].
  - split; [ discriminate | intro H; inversion H ].
Qed.

Lemma rstring_spec v : rstring v = true <-> text v.
Proof.
  unfold text. destruct v; cbn [rstring]; try (split; [ discriminate | intros (t & E & _); discriminate ]).
  rewrite negb_true_iff, String.eqb_neq. split; [ eauto | ]. intros (t & E & H). injection E as ->. exact H.
Qed.

Lemma options_spec v : options_type v = true <-> options_map v.
Proof.
  unfold options_map. destruct v; cbn [options_type]; try (split; [ discriminate | intros (? & ?E & _); discriminate ]).
  rewrite forallb_forall. split.
  - intro H. exists m. split; [ reflexivity | ]. intros k x Hi. specialize (H _ Hi). cbn [fst snd] in H.
    apply andb_true_iff in H as [A B]. split; [ | apply is_data_spec; exact B ].
    destruct k; try discriminate A. exists s. split; [ reflexivity | ]. apply opt_key_spec. exact A.
  - intros (m' & E & H) [k x] Hi. injection E as <-. destruct (H k x Hi) as [(t & -> & A) B]. cbn [fst snd].
    apply andb_true_iff. split; [ apply opt_key_spec; exact A | apply is_data_spec; exact B ].
Qed.

Lemma rstrings_spec v : rstrings (Nat.leb 1) v = true <-> texts v.
Proof.
  unfold texts. destruct v; cbn [rstrings]; try (split; [ discriminate | intros (? & ?E & _); discriminate ]).
  rewrite andb_true_iff, forallb_forall. split.
  - intros [A B]. exists l. split; [ reflexivity | ]. split; [ intros ->; discriminate A | ].
    apply Forall_forall. intros x Hx. apply rstring_spec. auto.
  - intros (l' & E & A & B). injection E as <-. split; [ destruct l; [ destruct (A eq_refl) | reflexivity ] | ].
    intros x Hx. apply rstring_spec. exact (proj1 (Forall_forall _ _) B x Hx).
Qed.

Lemma three_spec v : rstrings (Nat.eqb 3) v = true <-> three_texts v.
Proof.
  unfold three_texts. destruct v; cbn [rstrings]; try (split; [ discriminate | intros (? & ? & ? & ?E & _); discriminate ]).
  rewrite andb_true_iff. split.
  - intros [A B]. destruct l as [|a [|b [|c [|d l]]]]; try discriminate A. exists a, b, c.
    cbn [forallb] in B. rewrite !andb_true_iff, !rstring_spec in B. tauto.
  - intros (a & b & c & E & H). injection E as ->. split; [ reflexivity | ]. cbn [forallb]. rewrite !andb_true_iff, !rstring_spec. tauto.
Qed.

(** A struct type. *)
Definition field_ok (m : entries) (f : string * (bool * (value -> bool))) : bool :=
  match mgets (fst f) m with Some x => snd (snd f) x | None => negb (fst (snd f)) end.

Lemma struct_spec fields v : struct_type fields v = true <->
  exists m, v = VMap m /\ Forall (fun f => field_ok m f = true) fields /\ only_keys (map fst fields) m.
Proof.
  destruct v; cbn [struct_type]; try (split; [ discriminate | intros (? & ?E & _); discriminate ]).
  change (fun f : string * (bool * (value -> bool)) => match mgets (fst f) m with Some x => snd (snd f) x | None => negb (fst (snd f)) end)
    with (field_ok m).
  rewrite andb_true_iff, !forallb_forall. split.
  - intros [A B]. exists m. split; [ reflexivity | ]. split; [ apply Forall_forall; exact A | ].
    intros k x Hi. specialize (B _ Hi). cbn [fst] in B. destruct k; try discriminate B. exists s. split; [ reflexivity | ].
    unfold contains_string in B. apply existsb_exists in B as (y & Hy & E). apply String.eqb_eq in E. subst. exact Hy.
  - intros (m' & E & A & B). injection E as <-. split; [ apply Forall_forall; exact A | ].
    intros [k x] Hi. destruct (B k x Hi) as (t & -> & Ht). cbn [fst]. unfold contains_string. apply existsb_exists.
    exists t. split; [ exact Ht | apply String.eqb_refl ].
Qed.

Lemma may_field m k b (P : value -> Prop) : (forall v, b v = true <-> P v) -> (field_ok m (k, (false, b)) = true <-> may_have k P m).
Proof.
  intro H. unfold field_ok, may_have. cbn [fst snd negb]. destruct (mgets k m) as [x|].
  - rewrite H. split; [ intros Hx v E; injection E as <-; exact Hx | auto ].
  - split; [ discriminate | reflexivity ].
Qed.
Lemma must_field m k b (P : value -> Prop) : (forall v, b v = true <-> P v) -> (field_ok m (k, (true, b)) = true <-> must_have k P m).
Proof.
  intro H. unfold field_ok, must_have. cbn [fst snd negb]. destruct (mgets k m) as [x|].
  - rewrite H. split; [ eauto | intros (v & E & Hv); injection E as <-; exact Hv ].
  - split; [ discriminate | intros (v & E & _); discriminate ].
Qed.

Ltac fields_to H :=
  repeat match type of H with Forall _ (_ :: _) => inversion_clear H as [|? ? ?F ?R]; rename R into H end; clear H.

Lemma defaults_spec v : defaults_type v = true <-> exists m, v = VMap m /\ defaults_section m.
Proof.
  unfold defaults_type. rewrite struct_spec. cbn [map fst]. split.
  - intros (m & -> & A & B). exists m. split; [ reflexivity | ].
    rewrite !Forall_cons_iff in A. destruct A as (A1 & A2 & A3 & A4 & A5 & A6 & _).
    constructor; [ exact B | .. ];
      first [ exact (proj1 (may_field _ _ _ _ options_spec) A1) | eapply (proj1 (may_field _ _ _ _ rstring_spec)); assumption ].
  - intros (m & -> & [B A1 A2 A3 A4 A5 A6]). exists m. split; [ reflexivity | ]. split; [ | exact B ].
    rewrite !Forall_cons_iff.
    repeat split; first [ exact (proj2 (may_field _ _ _ _ options_spec) A1) | eapply (proj2 (may_field _ _ _ _ rstring_spec)); assumption | constructor ].
Qed.

Lemma entry_spec v : entry_type v = true <-> exists m, v = VMap m /\ entry_section m.
Proof.
  unfold entry_type. rewrite struct_spec. cbn [map fst]. split.
  - intros (m & -> & A & B). exists m. split; [ reflexivity | ].
    rewrite !Forall_cons_iff in A. destruct A as (A1 & A2 & A3 & A4 & A5 & A6 & A7 & A8 & A9 & A10 & A11 & A12 & A13 & A14 & A15 & _).
    constructor; [ exact B | .. ];
      first [ exact (proj1 (must_field _ _ _ _ rstring_spec) A1)
            | exact (proj1 (may_field _ _ _ _ options_spec) A2)
            | exact (proj1 (may_field _ _ _ _ three_spec) A15)
            | eapply (proj1 (may_field _ _ _ _ rstring_spec)); assumption
            | eapply (proj1 (may_field _ _ _ _ rstrings_spec)); assumption ].
  - intros (m & -> & [B A1 A2 A3 A4 A5 A6 A7 A8 A9 A10 A11 A12 A13 A14 A15]). exists m. split; [ reflexivity | ]. split; [ | exact B ].
    rewrite !Forall_cons_iff.
    repeat split; first [ exact (proj2 (must_field _ _ _ _ rstring_spec) A1)
            | exact (proj2 (may_field _ _ _ _ options_spec) A2)
            | exact (proj2 (may_field _ _ _ _ three_spec) A15)
            | eapply (proj2 (may_field _ _ _ _ rstring_spec)); assumption
            | eapply (proj2 (may_field _ _ _ _ rstrings_spec)); assumption | constructor ].
Qed.

Lemma hierarchy_spec v : hierarchy_type v = true <-> hierarchy_section v.
Proof.
  unfold hierarchy_section. destruct v; cbn [hierarchy_type]; try (split; [ discriminate | intros (? & ?E & _); discriminate ]).
  rewrite forallb_forall. split.
  - intro H. exists l. split; [ reflexivity | ]. apply Forall_forall. intros x Hx. apply entry_spec. auto.
  - intros (l' & E & H) x Hx. injection E as <-. apply entry_spec. exact (proj1 (Forall_forall _ _) H x Hx).
Qed.

Lemma cfg_spec m : cfg_type (VMap m) = true <-> conforms m.
Proof.
  unfold cfg_type. rewrite struct_spec. cbn [map fst]. 
  assert (V : forall v, veq (VInt 5) v = true <-> v = VInt 5) by (intro; apply veq_int_l).
  split.
  - intros (m' & E & A & B). injection E as <-. rewrite !Forall_cons_iff in A. destruct A as (A1 & A2 & A3 & A4 & _).
    apply (proj1 (must_field _ _ _ _ V)) in A1. destruct A1 as (v & E & ->).
    constructor; [ exact B | exact E | .. ].
    + exact (proj1 (may_field _ _ _ _ defaults_spec) A2).
    + exact (proj1 (may_field _ _ _ _ hierarchy_spec) A3).
    + exact (proj1 (may_field _ _ _ _ hierarchy_spec) A4).
  - intros [B A1 A2 A3 A4]. exists m. split; [ reflexivity | ]. split; [ | exact B ]. rewrite !Forall_cons_iff. repeat split.
    + apply (proj2 (must_field _ _ _ _ V)). exists (VInt 5). auto.
    + exact (proj2 (may_field _ _ _ _ defaults_spec) A2).
    + exact (proj2 (may_field _ _ _ _ hierarchy_spec) A3).
    + exact (proj2 (may_field _ _ _ _ hierarchy_spec) A4).
    + constructor.
Qed.

(** ** Entries *)

(** The entries of a map with one of some keys. *)
Definition having (ks : list string) (m : entries) : entries :=
  filter (fun e => match fst e with VStr k => contains_string ks k | _ => false end) m.

Lemma contains_in ks k : contains_string ks k = true <-> In k ks.
Proof.
  unfold contains_string. rewrite existsb_exists. split.
  - intros (x & Hx & E). apply String.eqb_eq in E. subst. exact Hx.
  - intro H. exists k. split; [ exact H | apply String.eqb_refl ].
Qed.
Lemma contains_out ks k : contains_string ks k = false <-> ~ In k ks.
Proof. rewrite <- contains_in. destruct (contains_string ks k); split; congruence. Qed.

Lemma mgets_in k m v : mgets k m = Some v -> In (VStr k, v) m.
Proof. intro H. apply mgets_str in H as (m1 & m2 & -> & _). apply in_or_app. right. left. reflexivity. Qed.
Lemma in_mgets k m v : wfm m -> In (VStr k, v) m -> mgets k m = Some v.
Proof. intros W H. exact (mget_self _ _ _ W H). Qed.
Lemma mgets_none k m : mgets k m = None <-> forall v, ~ In (VStr k, v) m.
Proof.
  unfold mgets. rewrite mget_none. split.
  - intros H v Hi. specialize (H _ Hi). cbn [fst veq] in H. rewrite String.eqb_refl in H. discriminate.
  - intros H [k' v] Hi. cbn [fst]. destruct (veq (VStr k) k') eqn:E; [ | reflexivity ]. apply veq_str_l in E. subst. destruct (H v Hi).
Qed.

Lemma having_in ks m k v : In (VStr k, v) (having ks m) <-> In (VStr k, v) m /\ In k ks.
Proof. unfold having. rewrite filter_In. cbn [fst]. rewrite contains_in. reflexivity. Qed.

Lemma having_one ks m : wfm m -> (at_most_one ks m <-> List.length (having ks m) <= 1).
Proof.
  intro W. split.
  - intro H. destruct (having ks m) as [|[k x] [|[k' y] r]] eqn:E; cbn; try lia. exfalso.
    assert (P : forall e, In e (having ks m) -> exists t, fst e = VStr t).
    { intros [a b] He. unfold having in He. apply filter_In in He as [_ He]. cbn [fst] in He. destruct a as [| | | |t| | |]; try discriminate. exists t. reflexivity. }
    destruct (P (k, x)) as [t Et]; [ rewrite E; simpl; auto | ]. destruct (P (k', y)) as [t' Et']; [ rewrite E; simpl; auto | ].
    cbn [fst] in *. subst k k'.
    assert (A : In (VStr t, x) (having ks m)) by (rewrite E; simpl; auto).
    assert (B : In (VStr t', y) (having ks m)) by (rewrite E; simpl; auto).
    apply having_in in A as [A1 A2]. apply having_in in B as [B1 B2].
    assert (C : t = t') by (eapply H; eauto using in_mgets). subst t'.
    apply wf_map in W as [W _]. clear - W E. induction m as [|[k z] m IH]; [ discriminate | ].
    inversion W as [|? ? W1 W2]; subst. cbn [having filter fst] in E.
    destruct (match k with VStr k => contains_string ks k | _ => false end) eqn:Ek.
    + injection E as -> -> E. rewrite Forall_forall in W1.
      assert (Hi : In (VStr t, y) m) by (apply (having_in ks m t y); unfold having; rewrite E; simpl; auto).
      destruct (W1 _ Hi) as [D _]. cbn [fst veq] in D. rewrite String.eqb_refl in D. discriminate.
    + exact (IH W2 E).
  - intros H a b x y Ha Hb Ga Gb. apply mgets_in in Ga, Gb.
    assert (A : In (VStr a, x) (having ks m)) by (apply having_in; auto).
    assert (B : In (VStr b, y) (having ks m)) by (apply having_in; auto).
    destruct (having ks m) as [|e [|e' r]]; [ destruct A | | cbn in H; lia ].
    destruct A as [->|[]]. destruct B as [B|[]]. injection B as -> _. reflexivity.
Qed.

Definition free (o : entries) : Prop := mgets "path" o = None /\ mgets "uri" o = None.

Lemma free_dec o : free o \/ ~ free o.
Proof.
  unfold free. destruct (mgets "path" o), (mgets "uri" o); try (left; auto; fail); right; intros [A B]; discriminate.
Qed.

Definition str_keys (m : entries) : Prop := forall k x, In (k, x) m -> exists t, k = VStr t.

Lemma reserved_cases name o : str_keys o ->
  free o /\ check_reserved name o = Ok tt \/ ~ free o /\ exists e, check_reserved name o = Panic e.
Proof.
  unfold free. induction o as [|[k x] o IH]; intro H; [ left; auto | ].
  destruct (H k x (in_eq _ _)) as [t ->]. specialize (IH (fun k x Hi => H k x (in_cons _ _ _ Hi))).
  cbn [check_reserved as_string obind]. destruct (contains_string reserved_keys t) eqn:E.
  - right. split; [ | eexists; reflexivity ]. apply contains_in in E. rewrite !mgets_none.
    intros [A B]. destruct E as [<-|[<-|[]]]; [ destruct (A x) | destruct (B x) ]; left; reflexivity.
  - apply contains_out in E.
    assert (Q : mgets "path" ((VStr t, x) :: o) = mgets "path" o /\ mgets "uri" ((VStr t, x) :: o) = mgets "uri" o).
    { unfold mgets. cbn [mget veq]. split.
      - destruct (String.eqb_spec "path" t); [ subst; destruct E; simpl; auto | reflexivity ].
      - destruct (String.eqb_spec "uri" t); [ subst; destruct E; simpl; auto | reflexivity ]. }
    destruct Q as [-> ->]. exact IH.
Qed.

(** What the schema says about an entry, in the form used below. *)
Record typed (m : entries) : Prop := mk_typed {
  ty_keys : str_keys m;
  ty_options : forall v, In (VStr "options", v) m -> exists o, v = VMap o /\ str_keys o;
  ty_functions : forall k v, In (VStr k, v) m -> In k function_keys -> exists n, v = VStr n;
  ty_dirs : forall k v, In (VStr k, v) m -> In k ["datadir"; "plugindir"; "pluginfile"] -> exists n, v = VStr n;
  ty_locations : forall k v, In (VStr k, v) m -> In k location_keys -> exists ls, make_locations k v = Ok ls;
  ty_mapped : forall v, In (VStr "mapped_paths", v) m -> exists a b c, v = VArr [VStr a; VStr b; VStr c]
}.

Lemma typed_tail e m : typed (e :: m) -> typed m.
Proof.
  intros [A B C D E F]. constructor; intros.
  - intros k x Hi. exact (A k x (in_cons _ _ _ Hi)).
  - apply B. right. assumption.
  - eapply C; [ right; eassumption | assumption ].
  - eapply D; [ right; eassumption | assumption ].
  - eapply E; [ right; eassumption | assumption ].
  - apply F. right. assumption.
Qed.

Definition options_of (m : entries) (d : option entries) : option entries :=
  match mgets "options" m with Some (VMap o) => Some o | _ => d end.
Definition fun_of (m : entries) (d : option fdef) : option fdef :=
  match having function_keys m with (VStr k, VStr n) :: _ => Some (mk_fdef (kind_of k) n) | _ => d end.
Definition opt_count {A} (o : option A) : nat := match o with Some _ => 1 | None => 0 end.

Definition init_fine (m : entries) (e : entry) : Prop :=
  (forall o, mgets "options" m = Some (VMap o) -> free o) /\
  opt_count (e_function e) + List.length (having function_keys m) <= 1.

Lemma init_cases name m : wfm m -> typed m -> forall e,
  init_fine m e /\ initialize name m e = Ok (set_function (fun_of m (e_function e)) (set_options (options_of m (e_options e)) e)) \/
  ~ init_fine m e /\ exists x, initialize name m e = Panic x.
Proof.
  unfold init_fine. induction m as [|[k v] m IH]; intros W T e.
  - destruct (e_function e) eqn:E.
    + left. cbn. split; [ split; [ discriminate | lia ] | ]. unfold fun_of, options_of. cbn. rewrite <- E. destruct e; reflexivity.
    + left. cbn. split; [ split; [ discriminate | lia ] | ]. unfold fun_of, options_of. cbn. rewrite <- E. destruct e; reflexivity.
  - destruct (ty_keys _ T k v (in_eq _ _)) as [t ->].
    apply wfm_cons in W as (_ & _ & W & Hd). pose proof (typed_tail _ _ T) as T'. specialize (IH W T').
    cbn [initialize as_string obind]. destruct (String.eqb_spec t "options") as [->|Ho].
    + destruct (ty_options _ T v (in_eq _ _)) as (o & -> & Hs).
      assert (N : mgets "options" m = None).
      { apply mgets_none. intros x Hx. destruct (Hd _ Hx) as [C _]. cbn in C. discriminate. }
      assert (E1 : mgets "options" ((VStr "options", VMap o) :: m) = Some (VMap o)) by reflexivity.
      assert (E2 : having function_keys ((VStr "options", VMap o) :: m) = having function_keys m) by reflexivity.
      unfold fun_of, options_of. rewrite E1, E2.
      destruct (reserved_cases name o Hs) as [[F ->]|[F [x ->]]]; cbn [obind].
      * destruct (IH (set_options (Some o) e)) as [[[_ H2] ->]|[H [x ->]]].
        -- left. split; [ split; [ intros o' [= <-]; exact F | exact H2 ] | ].
           unfold fun_of, options_of. rewrite N. destruct e; reflexivity.
        -- right. split; [ | eauto ]. intros [_ H2]. apply H. rewrite N. split; [ discriminate | exact H2 ].
      * right. split; [ | eauto ]. intros [H _]. apply F. exact (H o eq_refl).
    + assert (E1 : mgets "options" ((VStr t, v) :: m) = mgets "options" m).
      { unfold mgets. cbn [mget veq]. destruct (String.eqb_spec "options" t); [ congruence | reflexivity ]. }
      unfold options_of. rewrite E1.
      destruct (contains_string function_keys t) eqn:Ef.
      * assert (E2 : having function_keys ((VStr t, v) :: m) = (VStr t, v) :: having function_keys m)
          by (unfold having; cbn [filter fst]; rewrite Ef; reflexivity).
        unfold fun_of. rewrite E2. cbn [List.length].
        destruct (e_function e) as [f|] eqn:Ee.
        -- right. split; [ cbn; lia | eauto ].
        -- destruct (ty_functions _ T t v (in_eq _ _)) as [n ->]; [ apply contains_in; exact Ef | ].
           cbn [as_string obind].
           destruct (IH (set_function (Some (mk_fdef (kind_of t) n)) e)) as [[[H1 H2] ->]|[H [x ->]]].
           ++ left. cbn [set_function e_function opt_count] in H2.
              split; [ split; [ exact H1 | cbn [opt_count]; lia ] | ].
              unfold fun_of, options_of. destruct (having function_keys m); [ | cbn in H2; lia ].
              destruct e; reflexivity.
           ++ right. split; [ | eauto ]. intros [H1 H2]. apply H. split; [ exact H1 | cbn [set_function e_function opt_count] in *; lia ].
      * assert (E2 : having function_keys ((VStr t, v) :: m) = having function_keys m)
          by (unfold having; cbn [filter fst]; rewrite Ef; reflexivity).
        unfold fun_of. rewrite E2. exact (IH e).
Qed.

Definition text_at (k : string) (m : entries) (d : string) : string :=
  match mgets k m with Some (VStr t) => t | _ => d end.
Definition locs_of (m : entries) (d : option (list location)) : option (list location) :=
  match having location_keys m with
  | (VStr k, v) :: _ => match make_locations k v with Ok ls => Some ls | _ => d end
  | _ => d
  end.

Lemma text_at_other k t v m d : k <> t -> text_at k ((VStr t, v) :: m) d = text_at k m d.
Proof. intro H. unfold text_at, mgets. cbn [mget veq]. destruct (String.eqb_spec k t); [ contradiction | reflexivity ]. Qed.

Lemma fields_cases name m : wfm m -> typed m -> forall e,
  opt_count (e_locations e) + List.length (having location_keys m) <= 1 /\
  entry_fields name m e = Ok (mk_entry (text_at "datadir" m (e_datadir e)) (text_at "plugindir" m (e_plugindir e))
                                (text_at "pluginfile" m (e_pluginfile e)) (e_options e) (e_function e) (e_name e)
                                (locs_of m (e_locations e))) \/
  1 < opt_count (e_locations e) + List.length (having location_keys m) /\ exists x, entry_fields name m e = Panic x.
Proof.
  induction m as [|[k v] m IH]; intros W T e.
  - left. split; [ destruct (e_locations e); cbn; lia | ]. destruct e; reflexivity.
  - destruct (ty_keys _ T k v (in_eq _ _)) as [t ->].
    apply wfm_cons in W as (_ & _ & W & Hd). pose proof (typed_tail _ _ T) as T'. specialize (IH W T').
    assert (N : forall d, text_at t m d = d).
    { intro d. unfold text_at. replace (mgets t m) with (@None value); [ reflexivity | ]. symmetry. apply mgets_none.
      intros x Hx. destruct (Hd _ Hx) as [C _]. cbn in C. rewrite String.eqb_refl in C. discriminate. }
    cbn [entry_fields as_string obind].
    destruct (String.eqb_spec t "datadir") as [->|H1].
    { destruct (ty_dirs _ T _ v (in_eq _ _)) as [n ->]; [ simpl; auto | ]. cbn [as_string obind].
      rewrite (text_at_other "plugindir" "datadir"), (text_at_other "pluginfile" "datadir") by discriminate.
      change (text_at "datadir" ((VStr "datadir", VStr n) :: m) (e_datadir e)) with n.
      change (having location_keys ((VStr "datadir", VStr n) :: m)) with (having location_keys m).
      specialize (IH (set_datadir n e)). cbn [set_datadir e_datadir e_plugindir e_pluginfile e_options e_function e_name e_locations] in IH.
      rewrite N in IH. exact IH. }
    destruct (String.eqb_spec t "plugindir") as [->|H2].
    { destruct (ty_dirs _ T _ v (in_eq _ _)) as [n ->]; [ simpl; auto | ]. cbn [as_string obind].
      rewrite (text_at_other "datadir" "plugindir"), (text_at_other "pluginfile" "plugindir") by discriminate.
      change (text_at "plugindir" ((VStr "plugindir", VStr n) :: m) (e_plugindir e)) with n.
      change (having location_keys ((VStr "plugindir", VStr n) :: m)) with (having location_keys m).
      specialize (IH (set_plugindir n e)). cbn [set_plugindir e_datadir e_plugindir e_pluginfile e_options e_function e_name e_locations] in IH.
      rewrite N in IH. exact IH. }
    destruct (String.eqb_spec t "pluginfile") as [->|H3].
    { destruct (ty_dirs _ T _ v (in_eq _ _)) as [n ->]; [ simpl; auto | ]. cbn [as_string obind].
      rewrite (text_at_other "datadir" "pluginfile"), (text_at_other "plugindir" "pluginfile") by discriminate.
      change (text_at "pluginfile" ((VStr "pluginfile", VStr n) :: m) (e_pluginfile e)) with n.
      change (having location_keys ((VStr "pluginfile", VStr n) :: m)) with (having location_keys m).
      specialize (IH (set_pluginfile n e)). cbn [set_pluginfile e_datadir e_plugindir e_pluginfile e_options e_function e_name e_locations] in IH.
      rewrite N in IH. exact IH. }
    rewrite !text_at_other by congruence.
    destruct (contains_string location_keys t) eqn:El.
    + assert (E2 : having location_keys ((VStr t, v) :: m) = (VStr t, v) :: having location_keys m)
        by (unfold having; cbn [filter fst]; rewrite El; reflexivity).
      unfold locs_of. rewrite E2. cbn [List.length].
      destruct (e_locations e) as [l|] eqn:Ee.
      * right. split; [ cbn; lia | eauto ].
      * destruct (ty_locations _ T t v (in_eq _ _)) as [ls El']; [ apply contains_in; exact El | ]. rewrite El'. cbn [obind].
        specialize (IH (set_locations (Some ls) e)).
        cbn [set_locations e_datadir e_plugindir e_pluginfile e_options e_function e_name e_locations opt_count] in IH.
        destruct IH as [[Hl ->]|[Hl [x ->]]].
        -- left. split; [ cbn; lia | ]. unfold locs_of. destruct (having location_keys m); [ reflexivity | cbn in Hl; lia ].
        -- right. split; [ cbn; lia | eauto ].
    + assert (E2 : having location_keys ((VStr t, v) :: m) = having location_keys m)
        by (unfold having; cbn [filter fst]; rewrite El; reflexivity).
      unfold locs_of. rewrite E2. exact (IH e).
Qed.

(** The helpers agree with the description. *)
Lemma text_at_of k m : (forall v, In (VStr k, v) m -> exists n, v = VStr n) -> text_of_key k m (text_at k m "").
Proof.
  intro H. unfold text_of_key, text_at. destruct (mgets k m) as [v|] eqn:E; [ | auto ].
  destruct (H v (mgets_in _ _ _ E)) as [n ->]. left. reflexivity.
Qed.

Lemma having_head ks m e r : wfm m -> having ks m = e :: r -> exists k, fst e = VStr k /\ In k ks /\ mgets k m = Some (snd e).
Proof.
  intros W E. assert (H : In e (having ks m)) by (rewrite E; left; reflexivity).
  destruct e as [k v]. pose proof H as H'. unfold having in H'. apply filter_In in H' as [Hi Hk]. cbn [fst] in Hk.
  destruct k; try discriminate. exists s. split; [ reflexivity | ]. apply contains_in in Hk. split; [ exact Hk | ].
  exact (in_mgets _ _ _ W Hi).
Qed.
Lemma having_nil ks m k : having ks m = [] -> In k ks -> mgets k m = None.
Proof.
  intros E Hk. apply mgets_none. intros v Hv. assert (H : In (VStr k, v) (having ks m)) by (apply having_in; auto).
  rewrite E in H. destruct H.
Qed.

Lemma fun_of_spec m : wfm m -> typed m -> function_of m (fun_of m None).
Proof.
  intros W T. unfold fun_of. destruct (having function_keys m) as [|e r] eqn:E.
  - apply fo_none; apply (having_nil function_keys); auto; simpl; auto.
  - destruct (having_head _ _ _ _ W E) as (k & Ek & Hk & G). destruct e as [k' v]. cbn [fst snd] in *. subst k'.
    destruct (ty_functions _ T k v (mgets_in _ _ _ G) Hk) as [n ->].
    destruct Hk as [<-|[<-|[<-|[]]]]; [ apply fo_dig | apply fo_hash | apply fo_key ]; exact G.
Qed.

Lemma strings_of_spec l ts : strings_of l = Ok ts -> l = map VStr ts.
Proof.
  revert ts. induction l as [|x l IH]; cbn [strings_of]; intros ts H.
  - injection H as <-. reflexivity.
  - destruct x; try discriminate H. cbn [as_string obind] in H. destruct (strings_of l) as [ss|x| |]; try discriminate H.
    injection H as <-. cbn [map]. rewrite (IH _ eq_refl). reflexivity.
Qed.

Lemma locs_of_spec m : wfm m -> typed m -> locations_of m (locs_of m None).
Proof.
  intros W T. unfold locs_of. destruct (having location_keys m) as [|e r] eqn:E.
  - apply lo_none. intros k Hk. exact (having_nil location_keys _ _ E Hk).
  - destruct (having_head _ _ _ _ W E) as (k & Ek & Hk & G). destruct e as [k' v]. cbn [fst snd] in *. subst k'.
    destruct (ty_locations _ T k v (mgets_in _ _ _ G) Hk) as [ls El]. rewrite El.
    assert (A : forall f (ls : list location), omap (map f) (array_strings v) = Ok ls -> exists ts, v = VArr (map VStr ts) /\ ls = map f ts).
    { intros f ls0 H. destruct v as [| | | | |l| | ]; try discriminate H. cbn [array_strings] in H.
      destruct (strings_of l) as [ts| | |] eqn:Es; try discriminate H. injection H as <-. exists ts.
      rewrite (strings_of_spec _ _ Es). auto. }
    assert (B : forall (f : string -> list location) ls, omap f (as_string v) = Ok ls -> exists t, v = VStr t /\ ls = f t).
    { intros f ls0 H. destruct v; try discriminate H. injection H as <-. eauto. }
    destruct Hk as [<-|[<-|[<-|[<-|[<-|[<-|[<-|[]]]]]]]]; cbn [make_locations String.eqb Ascii.eqb Bool.eqb] in El.
    + apply B in El as (t & -> & ->). apply lo_path. exact G.
    + apply A in El as (t & -> & ->). apply lo_paths. exact G.
    + apply B in El as (t & -> & ->). apply lo_glob. exact G.
    + apply A in El as (t & -> & ->). apply lo_globs. exact G.
    + apply B in El as (t & -> & ->). apply lo_uri. exact G.
    + apply A in El as (t & -> & ->). apply lo_uris. exact G.
    + destruct (ty_mapped _ T v (mgets_in _ _ _ G)) as (a & b & c & ->). cbn in El. injection El as <-. apply lo_mapped. exact G.
Qed.

Lemma text_value v : text v -> exists n, v = VStr n.
Proof. intros (t & -> & _). eauto. Qed.
Lemma texts_strings v : texts v -> exists ts, array_strings v = Ok ts.
Proof.
  intros (l & -> & _ & H). cbn [array_strings]. induction H as [|x l Hx _ [ts IH]]; [ eexists; reflexivity | ].
  destruct Hx as (t & -> & _). exists (t :: ts). cbn [strings_of as_string obind]. rewrite IH. reflexivity.
Qed.

Lemma entry_typed m : wfm m -> entry_section m -> typed m.
Proof.
  intros W [K Hn Ho H1 H2 H3 H4 H5 H6 L1 L2 L3 L4 L5 L6 L7].
  assert (G : forall k v, In (VStr k, v) m -> mgets k m = Some v) by (intros; apply in_mgets; assumption).
  constructor.
  - intros k x Hi. destruct (K k x Hi) as (t & -> & _). eauto.
  - intros v Hv. destruct (Ho v (G _ _ Hv)) as (o & -> & H). exists o. split; [ reflexivity | ].
    intros k x Hi. destruct (H k x Hi) as [(t & -> & _) _]. eauto.
  - intros k v Hv Hk. apply G in Hv. apply text_value.
    destruct Hk as [<-|[<-|[<-|[]]]]; [ exact (H1 v Hv) | exact (H2 v Hv) | exact (H3 v Hv) ].
  - intros k v Hv Hk. apply G in Hv. apply text_value.
    destruct Hk as [<-|[<-|[<-|[]]]]; [ exact (H4 v Hv) | exact (H5 v Hv) | exact (H6 v Hv) ].
  - intros k v Hv Hk. apply G in Hv.
    assert (A : text v -> exists t, as_string v = Ok t) by (intros (t & -> & _); eexists; reflexivity).
    destruct Hk as [<-|[<-|[<-|[<-|[<-|[<-|[<-|[]]]]]]]]; cbn [make_locations String.eqb Ascii.eqb Bool.eqb].
    + destruct (A (L1 v Hv)) as [t ->]. eexists; reflexivity.
    + destruct (texts_strings v (L2 v Hv)) as [t ->]. eexists; reflexivity.
    + destruct (A (L3 v Hv)) as [t ->]. eexists; reflexivity.
    + destruct (texts_strings v (L4 v Hv)) as [t ->]. eexists; reflexivity.
    + destruct (A (L5 v Hv)) as [t ->]. eexists; reflexivity.
    + destruct (texts_strings v (L6 v Hv)) as [t ->]. eexists; reflexivity.
    + destruct (L7 v Hv) as (a & b & c & -> & (ta & -> & _) & (tb & -> & _) & (tc & -> & _)). eexists; reflexivity.
  - intros v Hv. apply G in Hv. destruct (L7 v Hv) as (a & b & c & -> & (ta & -> & _) & (tb & -> & _) & (tc & -> & _)). eauto.
Qed.

Lemma defaults_typed m : wfm m -> defaults_section m -> typed m.
Proof.
  intros W [K Ho H1 H2 H3 H4 H5].
  assert (G : forall k v, In (VStr k, v) m -> mgets k m = Some v) by (intros; apply in_mgets; assumption).
  assert (X : forall k v, In (VStr k, v) m -> ~ In k ["pluginfile"; "path"; "paths"; "glob"; "globs"; "uri"; "uris"; "mapped_paths"]).
  { intros k v Hv Hk. destruct (K _ _ Hv) as (t & E & Ht). injection E as <-. simpl in Hk, Ht.
    repeat (destruct Hk as [<-|Hk]); try (repeat (destruct Ht as [Ht|Ht]; [ discriminate | ]); exact Ht). exact Hk. }
  constructor.
  - intros k x Hi. destruct (K k x Hi) as (t & -> & _). eauto.
  - intros v Hv. destruct (Ho v (G _ _ Hv)) as (o & -> & H). exists o. split; [ reflexivity | ].
    intros k x Hi. destruct (H k x Hi) as [(t & -> & _) _]. eauto.
  - intros k v Hv Hk. apply G in Hv. apply text_value.
    destruct Hk as [<-|[<-|[<-|[]]]]; [ exact (H1 v Hv) | exact (H2 v Hv) | exact (H3 v Hv) ].
  - intros k v Hv Hk. pose proof (X _ _ Hv) as N. apply G in Hv. apply text_value.
    destruct Hk as [<-|[<-|[<-|[]]]]; [ exact (H4 v Hv) | exact (H5 v Hv) | destruct N; simpl; auto ].
  - intros k v Hv Hk. destruct (X _ _ Hv). right. exact Hk.
  - intros v Hv. destruct (X _ _ Hv). simpl. tauto.
Qed.

(** ** createEntry *)

Lemma entry_fine_iff m : wfm m -> typed m ->
  (entry_fine m <-> init_fine m (mk_entry "" "" "" None None "" None) /\ List.length (having location_keys m) <= 1).
Proof.
  intros W T. unfold init_fine. cbn [e_function opt_count Nat.add]. split.
  - intros [A B C]. split; [ split; [ exact C | apply having_one; assumption ] | apply having_one; assumption ].
  - intros [[A B] C]. constructor; [ apply having_one; assumption | apply having_one; assumption | exact A ].
Qed.

Lemma create_entry_cases name m : wfm m -> typed m ->
  entry_fine m /\ (exists e, create_entry name m = Ok e /\ entry_of name m e) \/
  ~ entry_fine m /\ exists x, create_entry name m = Panic x.
Proof.
  intros W T. unfold create_entry. pose proof (entry_fine_iff m W T) as I. unfold init_fine in I.
  cbn [e_function opt_count Nat.add] in I.
  destruct (init_cases name m W T (mk_entry "" "" "" None None name None)) as [[A ->]|[A [x ->]]];
    unfold init_fine in A; cbn [e_function opt_count Nat.add] in A; cbn [obind].
  - cbn [e_function e_options].
    match goal with |- context [entry_fields name m ?e] => destruct (fields_cases name m W T e) as [[B ->]|[B [x ->]]] end;
      cbn [set_function set_options e_locations e_datadir e_plugindir e_pluginfile e_options e_function e_name opt_count Nat.add] in *.
    + left. split; [ apply I; auto | ]. eexists. split; [ reflexivity | ]. constructor; cbn.
      * reflexivity.
      * apply text_at_of. intros v Hv. exact (ty_dirs _ T _ v Hv ltac:(simpl; auto)).
      * apply text_at_of. intros v Hv. exact (ty_dirs _ T _ v Hv ltac:(simpl; auto)).
      * apply text_at_of. intros v Hv. exact (ty_dirs _ T _ v Hv ltac:(simpl; auto)).
      * unfold options_of. destruct (mgets "options" m) as [[]|]; reflexivity.
      * apply fun_of_spec; assumption.
      * apply locs_of_spec; assumption.
    + right. split; [ | eauto ]. intro C. apply I in C. lia.
  - right. split; [ | eauto ]. intro C. apply A. apply I in C. apply C.
Qed.

(** ** createHierarchy *)

Definition section_ok (x : value) : Prop := exists m, x = VMap m /\ wfm m /\ entry_section m.

Lemma hierarchy_cases : forall l ns, Forall section_ok l ->
  ((forall m, In (VMap m) l -> entry_fine m) /\ exists ms, Forall2 named l ms /\ NoDup ms /\ forall n, In n ms -> ~ In n ns) /\
  (exists es, create_hierarchy ns l = Ok es /\ entries_of l es) \/
  ~ ((forall m, In (VMap m) l -> entry_fine m) /\ exists ms, Forall2 named l ms /\ NoDup ms /\ forall n, In n ms -> ~ In n ns) /\
  exists x, create_hierarchy ns l = Panic x.
Proof.
  induction l as [|x l IH]; intros ns H.
  - left. split; [ | exists []; split; [ reflexivity | constructor ] ]. split; [ intros m [] | ]. exists []. repeat constructor. intros n [].
  - inversion H as [|? ? (m & -> & W & S) Hl]; subst. cbn [create_hierarchy].
    destruct (es_name _ S) as (nv & En & n & -> & Hn). rewrite En. cbn [as_string obind].
    destruct (contains_string ns n) eqn:Ec.
    + right. split; [ | eauto ]. intros [_ (ms & A & _ & B)]. inversion A as [|? n' ? ms' (m' & Em & En') A']; subst.
      injection Em as <-. rewrite En in En'. injection En' as <-. apply contains_in in Ec. exact (B n (in_eq _ _) Ec).
    + apply contains_out in Ec.
      destruct (create_entry_cases n m W (entry_typed m W S)) as [[F (e & -> & He)]|[F [x ->]]]; cbn [obind].
      * destruct (IH (n :: ns) Hl) as [[[A (ms & B & C & D)] (es & -> & E)]|[A [x ->]]]; cbn [obind].
        -- left. split.
           ++ split; [ intros m' [E'|Hm]; [ injection E' as <-; exact F | exact (A m' Hm) ] | ].
              exists (n :: ms). split; [ constructor; [ exists m; auto | exact B ] | ]. split.
              ** constructor; [ | exact C ]. intro Hi. apply (D n Hi). left. reflexivity.
              ** intros n' [<-|Hi]; [ exact Ec | ]. intro Hj. apply (D n' Hi). right. exact Hj.
           ++ exists (e :: es). split; [ reflexivity | ]. constructor; [ exists m, n; auto | exact E ].
        -- right. split; [ | eauto ]. intros [B (ms & C & D & E)]. apply A. split; [ intros m' Hm; apply B; right; exact Hm | ].
           inversion C as [|? n' ? ms' (m' & Em & En') C']; subst. injection Em as <-. rewrite En in En'. injection En' as <-.
           inversion D as [|? ? D1 D2]; subst. exists ms'. split; [ exact C' | ]. split; [ exact D2 | ].
           intros n' Hi [<-|Hj]; [ exact (D1 Hi) | exact (E n' (in_cons _ _ _ Hi) Hj) ].
      * right. split; [ | eauto ]. intros [B _]. apply F. apply B. left. reflexivity.
Qed.

Lemma hierarchy_cases' l : Forall section_ok l ->
  hierarchy_fine l /\ (exists es, create_hierarchy [] l = Ok es /\ entries_of l es) \/
  ~ hierarchy_fine l /\ exists x, create_hierarchy [] l = Panic x.
Proof.
  intro H. unfold hierarchy_fine. destruct (hierarchy_cases l [] H) as [[[A (ms & B & C & _)] D]|[A D]].
  - left. split; [ | exact D ]. split; [ exact A | ]. exists ms. auto.
  - right. split; [ | exact D ]. intros [B (ms & C & E)]. apply A. split; [ exact B | ]. exists ms. auto.
Qed.

Lemma hierarchy_sections m k l : wfm m -> may_have k hierarchy_section m -> mgets k m = Some (VArr l) -> Forall section_ok l.
Proof.
  intros W H G. destruct (H _ G) as (l' & E & F). injection E as <-. pose proof (mget_wf _ _ _ W G) as Wl. apply wf_arr in Wl.
  apply Forall_forall. intros x Hx. destruct (proj1 (Forall_forall _ _) F x Hx) as (mx & -> & S). exists mx.
  split; [ reflexivity | ]. split; [ exact (proj1 (Forall_forall _ _) Wl _ Hx) | exact S ].
Qed.

(** ** createConfig *)

Lemma create_config_cases env path m : wfm m -> conforms m ->
  config_fine m /\ (exists c, create_config env path m = Ok c /\ config_of env path m c) \/
  ~ config_fine m /\ exists x, create_config env path m = Panic x.
Proof.
  intros W [K V D H H']. unfold create_config.
  (* the defaults *)
  assert (QD : ((forall d, mgets "defaults" m = Some (VMap d) -> entry_fine d) /\ exists e,
                 match mgets "defaults" m with Some (VMap d) => create_entry "defaults" d | Some _ => Panic bad_assert
                 | None => Ok (default_config env) end = Ok e /\
                 match mgets "defaults" m with
                 | Some (VMap d) => entry_of "defaults" d e
                 | _ => exists dd pd, env_or env "HIERA_DATADIR" "data" dd /\ env_or env "HIERA_PLUGINDIR" "plugin" pd /\
                       e = mk_entry dd pd "" None (Some (mk_fdef KDataHash "yaml_data")) "" None
                 end) \/
               (~ (forall d, mgets "defaults" m = Some (VMap d) -> entry_fine d) /\ exists x,
                 match mgets "defaults" m with Some (VMap d) => create_entry "defaults" d | Some _ => Panic bad_assert
                 | None => Ok (default_config env) end = Panic x)).
  { destruct (mgets "defaults" m) as [v|] eqn:E.
    - destruct (D v E) as (d & -> & S). pose proof (mget_wf _ _ _ W E) as Wd.
      destruct (create_entry_cases "defaults" d Wd (defaults_typed d Wd S)) as [[F (e & -> & He)]|[F [x ->]]].
      + left. split; [ intros d' [= <-]; exact F | eauto ].
      + right. split; [ | eauto ]. intro C. exact (F (C d eq_refl)).
    - left. split; [ discriminate | ]. eexists. split; [ reflexivity | ].
      exists (default_datadir env), (default_plugindir env).
      split; [ | split; [ | reflexivity ] ]; unfold env_or, default_datadir, default_plugindir.
      + destruct (lookup_env env "HIERA_DATADIR"); reflexivity.
      + destruct (lookup_env env "HIERA_PLUGINDIR"); reflexivity. }
  (* a hierarchy *)
  assert (QH : forall k dflt, may_have k hierarchy_section m ->
               ((forall l, mgets k m = Some (VArr l) -> hierarchy_fine l) /\ exists es,
                 match mgets k m with Some (VArr l) => create_hierarchy [] l | Some _ => Panic bad_assert | None => Ok dflt end = Ok es /\
                 match mgets k m with Some (VArr l) => entries_of l es | _ => es = dflt end) \/
               (~ (forall l, mgets k m = Some (VArr l) -> hierarchy_fine l) /\ exists x,
                 match mgets k m with Some (VArr l) => create_hierarchy [] l | Some _ => Panic bad_assert | None => Ok dflt end = Panic x)).
  { intros k dflt Hk. destruct (mgets k m) as [v|] eqn:E.
    - destruct (Hk v E) as (l & -> & _). pose proof (hierarchy_sections m k l W Hk E) as S.
      destruct (hierarchy_cases' l S) as [[F (es & -> & He)]|[F [x ->]]].
      + left. split; [ intros l' [= <-]; exact F | eauto ].
      + right. split; [ | eauto ]. intro C. exact (F (C l eq_refl)).
    - left. split; [ discriminate | eauto ]. }
  destruct QD as [[FD (e & -> & De)]|[FD [x ->]]]; cbn [obind];
    [ | right; split; [ intros [C _ _]; exact (FD C) | eauto ] ].
  destruct (QH "hierarchy" default_hierarchy H) as [[FH (es & -> & Hes)]|[FH [x ->]]]; cbn [obind];
    [ | right; split; [ intros [_ C _]; exact (FH C) | eauto ] ].
  destruct (QH "default_hierarchy" [] H') as [[FH' (es' & -> & Hes')]|[FH' [x ->]]]; cbn [obind];
    [ | right; split; [ intros [_ _ C]; exact (FH' C) | eauto ] ].
  left. split; [ constructor; assumption | ]. eexists. split; [ reflexivity | ]. constructor; try reflexivity; assumption.
Qed.
