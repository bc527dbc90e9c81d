(** Property C20: exactly when the variables that a text mentions come to an
    end. *)

From Coq Require Import String Ascii List ZArith Bool Arith Lia.
From Verif Require Import Str Value Outcome Key Merge Fpath Config Ipl Explain State Engine Session Worlds
  SpecKey SpecIpl SpecInterp KeyFacts ValueFacts StrFacts IplFacts InterpFacts IplExact Fuel Meta ExLevels P_Resolve.
Import ListNotations.
Open Scope nat_scope.
Open Scope string_scope.
Open Scope list_scope.

(** The variable [y] is mentioned in the value of the variable [x]. *)
Definition refers (sc : scope) (allow : bool) (y x : string) : Prop :=
  exists v, scope_get sc x = Some v /\ mentions allow v y.

Lemma back_run w n r s a s' : run w n r s = (Ok a, s') -> iv_scope (s_iv s') = iv_scope (s_iv s).
Proof. exact (c_run w scope_back (full_closed w _ scope_back_full) n r s a s'). Qed.

Section Cycles.
  Variables (w : world) (sc : scope) (allow : bool).

  Lemma back_interp n v s a s' : do_interp (run w n) allow v s = (Ok a, s') -> iv_scope (s_iv s') = iv_scope (s_iv s).
  Proof.
    refine (c_do_interp w scope_back (full_closed w _ scope_back_full) (run w n) (run w n) _ allow v s a s').
    intro r. exact (c_run w scope_back (full_closed w _ scope_back_full) n r).
  Qed.
  Lemma back_in_scope n d s a s' : in_scope (run w n) allow d s = (Ok a, s') -> iv_scope (s_iv s') = iv_scope (s_iv s).
  Proof.
    refine (c_in_scope w scope_back (full_closed w _ scope_back_full) (run w n) (run w n) _ allow d s a s').
    intro r. exact (c_run w scope_back (full_closed w _ scope_back_full) n r).
  Qed.

  (** ** A text that gets a value *)

  (** A text is interpolated with a value for it. *)
  Definition done (n : nat) (t : string) : Prop :=
    exists s a s', iv_scope (s_iv s) = sc /\ run w n (RStr t allow) s = (Ok a, s').

  Lemma interp_done n : forall v s a s', iv_scope (s_iv s) = sc -> do_interp (run w n) allow v s = (Ok a, s') ->
    forall t, inside t v -> done n t.
  Proof.
    intro v. induction v using value_ind2; intros s0 a s' Hs E t Ht; try (inversion Ht; fail).
    - inversion Ht; subst. exists s0, a, s'. auto.
    - rewrite do_interp_arr in E. apply bind_ok in E as (r & s1 & E & _). inversion Ht as [|l' x Hx Hi| |]; subst. clear Ht.
      revert s0 r s1 Hs E. induction H as [|y l Hy _ IH]; intros s0 r s1 Hs E; [ destruct Hx | ].
      cbn [each_arr] in E. apply bind_ok in E as (p & s2 & E1 & E). apply bind_ok in E as (q & s3 & E2 & _).
      destruct Hx as [->|Hx]; [ exact (Hy _ _ _ Hs E1 t Hi) | ].
      refine (IH Hx s2 q s3 _ E2). rewrite (back_interp _ _ _ _ _ E1). exact Hs.
    - rewrite do_interp_map in E. apply bind_ok in E as (r & s1 & E & _).
      assert (Hx : exists k v, In (k, v) m /\ (inside t k \/ inside t v)).
      { inversion Ht as [| |m' k v Hin Hi|m' k v Hin Hi]; subst; eauto. }
      destruct Hx as (k & v & Hx & Hi). clear Ht. revert E. generalize (@nil (value * value)). revert s0 r s1 Hs.
      induction H as [|[k1 v1] m [Hk Hv] _ IH]; intros s0 r s1 Hs cp E; [ destruct Hx | ].
      cbn [each_map fst snd] in *. apply bind_ok in E as (p & s2 & E1 & E). apply bind_ok in E as (q & s3 & E2 & E).
      apply bind_ok in E as (r2 & s4 & E3 & _).
      assert (Hs2 : iv_scope (s_iv s2) = sc) by (rewrite (back_interp _ _ _ _ _ E1); exact Hs).
      assert (Hs3 : iv_scope (s_iv s3) = sc) by (rewrite (back_interp _ _ _ _ _ E2); exact Hs2).
      destruct Hx as [Hx|Hx]; [ | exact (IH Hx s3 r2 s4 Hs3 _ E3) ].
      injection Hx as -> ->. destruct Hi as [Hi|Hi]; [ exact (Hk _ _ _ Hs E1 t Hi) | exact (Hv _ _ _ Hs2 E2 t Hi) ].
  Qed.

  Lemma loop_done n str : forall cut last acc m result s x s', iv_scope (s_iv s) = sc ->
    istr_loop w (run w n) str allow (toks cut last) acc m result s = (Ok x, s') ->
    forall text e d, In (text, e) cut -> empty_interpolation (trim_space e) = false ->
    method_and_data (trim_space e) allow = Ok (MScope, d) ->
    exists s1 r s2, iv_scope (s_iv s1) = sc /\ in_scope (run w n) allow d s1 = (Ok r, s2).
  Proof.
    induction cut as [|[t0 e0] cut IH]; intros last acc m result s x s' Hs E text e d Hin He Hd; [ destruct Hin | ].
    cbn [toks istr_loop] in E. destruct Hin as [Hin|Hin].
    - injection Hin as -> ->. rewrite He in E. apply bind_ok in E as (md & s1 & E1 & E). unfold lift in E1. rewrite Hd in E1.
      injection E1 as <- <-. cbn [fst snd is_alias andb] in E. apply bind_ok in E as (v & s2 & E2 & _). eauto.
    - destruct (empty_interpolation (trim_space e0)); [ exact (IH _ _ _ _ _ _ _ Hs E text e d Hin He Hd) | ].
      apply bind_ok in E as (md & s1 & E1 & E). unfold lift in E1. destruct (method_and_data (trim_space e0) allow) as [md'| | |]; try discriminate.
      injection E1 as <- <-. destruct (is_alias (fst md') && negb (String.eqb ("%{" ++ e0 ++ "}") str))%bool; [ discriminate | ].
      destruct (fst md').
      + apply bind_ok in E as (v & s2 & E2 & E). refine (IH _ _ _ _ _ _ _ _ E text e d Hin He Hd). rewrite (back_in_scope _ _ _ _ _ E2). exact Hs.
      + apply bind_ok in E as (k & s2 & E2 & E). unfold lift in E2. destruct (new_key (snd md')); try discriminate. injection E2 as <- <-.
        apply bind_ok in E as (v & s3 & E3 & E). refine (IH _ _ _ _ _ _ _ _ E text e d Hin He Hd). rewrite (back_run _ _ _ _ _ _ E3). exact Hs.
      + apply bind_ok in E as (k & s2 & E2 & E). unfold lift in E2. destruct (new_key (snd md')); try discriminate. injection E2 as <- <-.
        apply bind_ok in E as (v & s3 & E3 & E). refine (IH _ _ _ _ _ _ _ _ E text e d Hin He Hd). rewrite (back_run _ _ _ _ _ _ E3). exact Hs.
      + apply bind_ok in E as (k & s2 & E2 & E). unfold lift in E2. destruct (new_key (snd md')); try discriminate. injection E2 as <- <-.
        apply bind_ok in E as (v & s3 & E3 & E). refine (IH _ _ _ _ _ _ _ _ E text e d Hin He Hd). rewrite (back_run _ _ _ _ _ _ E3). exact Hs.
      + exact (IH _ _ _ _ _ _ _ Hs E text e d Hin He Hd).
  Qed.

  Lemma done_ends : forall n t, done n t -> forall x, mentions allow (VStr t) x -> Acc (refers sc allow) x.
  Proof.
    induction n as [|n IH]; intros t (s & a & s' & Hs & E) x Hx; [ discriminate | ].
    destruct Hx as (t' & e & arg & ps & Ht & (cut & last & text & Hw & Et & Hin) & He & Ha & Hk).
    assert (Q : t' = t) by (inversion Ht; congruence). rewrite Q in Et. clear Q Ht t'.
    cbn [run body] in E. unfold istr in E.
    assert (C : contains "%{" t = true).
    { destruct (contains "%{" t) eqn:C; [ reflexivity | ]. rewrite (ResolveFacts.contains_nil t C cut last Et) in Hin. destruct Hin. }
    rewrite C in E. cbn [negb] in E. apply bind_ok in E as (v & s1 & E & _).
    assert (L : exists s2 y s3, iv_scope (s_iv s2) = sc /\ istr_loop w (run w n) t allow (toks cut last) "" MScope None s2 = (Ok y, s3)).
    { rewrite <- (tokens_cut _ _ Hw), <- Et. unfold run_scoped in E. destruct (iv_expl (s_iv s)).
      - destruct (xpush (NInterpolate t) "" (s_ex s)) as [x'|]; [ | discriminate ].
        destruct (bind _ _ (with_ex x' s)) as [o s4] eqn:B. injection E as -> _.
        apply bind_ok in B as (y & s5 & B & _). exists (with_ex x' s), y, s5. split; [ exact Hs | exact B ].
      - apply bind_ok in E as (y & s5 & B & _). exists s, y, s5. auto. }
    destruct L as (s2 & y & s3 & Hs2 & L).
    apply empty_interpolation_out in He.
    destruct (loop_done n t cut last _ _ _ s2 y s3 Hs2 L text e arg Hin He (asks_scope_md _ _ _ Ha)) as (s4 & r & s5 & Hs4 & F).
    unfold in_scope in F. apply bind_ok in F as (k & s6 & F1 & F). unfold lift in F1. rewrite (written_key_new _ _ Hk) in F1. injection F1 as <- <-.
    apply bind_ok in F as (r' & s6 & F1 & F). injection F1 as <- <-. apply bind_ok in F as (sc' & s6 & F1 & F). injection F1 as <- <-.
    rewrite Hs4 in F. constructor. intros z (v0 & G & Hz). rewrite G in F.
    apply bind_ok in F as (b & s6 & F & _). destruct Hz as (t' & e' & arg' & ps' & Ht' & R).
    apply (IH t'); [ exact (interp_done n v0 s4 b s6 Hs4 F t' Ht') | ].
    exists t', e', arg', ps'. split; [ constructor | exact R ].
  Qed.

  (** ** Variables that come to an end *)

  Hypothesis Hlocal : forall x v, scope_get sc x = Some v -> no_lookups v.

  Definition ends_at_last {A} (m : nat -> M st A) : Prop := exists N, forall n, N <= n -> ends sc (m n).

  Lemma last_bind A B (m : nat -> M st A) (f : nat -> A -> M st B) : ends_at_last m ->
    (exists N, forall n, N <= n -> forall a, ends sc (f n a)) -> ends_at_last (fun n => bind (m n) (f n)).
  Proof.
    intros (N1 & H1) (N2 & H2). exists (N1 + N2). intros n Hn. apply ends_bind; [ apply H1; lia | apply H2; lia ].
  Qed.
  Lemma last_always A (m : nat -> M st A) : (forall n, ends sc (m n)) -> ends_at_last m.
  Proof. intro H. exists 0. intros n _. apply H. Qed.

  Lemma last_interp : forall v, (forall t, inside t v -> ends_at_last (fun n => run w n (RStr t allow))) ->
    ends_at_last (fun n => do_interp (run w n) allow v).
  Proof.
    intro v. induction v using value_ind2; intro Hv; try (apply last_always; intro; apply ends_ret).
    - apply Hv. constructor.
    - assert (G : ends_at_last (fun n => each_arr (run w n) allow l)).
      { assert (Hl : forall x, In x l -> forall t, inside t x -> ends_at_last (fun n => run w n (RStr t allow)))
          by (intros x Hx t Ht; apply Hv; exact (inside_arr t l x Hx Ht)).
        clear Hv. induction H as [|x l Hx _ IH]; [ apply last_always; intro; apply ends_ret | ].
        destruct (Hx (Hl x (or_introl eq_refl))) as (N1 & G1). destruct (IH (fun y Hy => Hl y (or_intror Hy))) as (N2 & G2).
        exists (N1 + N2). intros n Hn. cbn [each_arr]. apply ends_bind; [ apply G1; lia | intro ].
        apply ends_bind; [ apply G2; lia | intro; apply ends_ret ]. }
      destruct G as (N & G). exists N. intros n Hn. rewrite do_interp_arr. apply ends_bind; [ exact (G n Hn) | intro; apply ends_ret ].
    - assert (G : exists N, forall n, N <= n -> forall cp, ends sc (each_map (run w n) allow m cp)).
      { assert (Hl : forall k v, In (k, v) m -> forall t, inside t k \/ inside t v -> ends_at_last (fun n => run w n (RStr t allow))).
        { intros k v Hx t [Ht|Ht]; apply Hv; [ exact (inside_key t m k v Hx Ht) | exact (inside_val t m k v Hx Ht) ]. }
        clear Hv. induction H as [|[k v] m [Hk Hx] _ IH]; [ exists 0; intros; apply ends_ret | ]. cbn [fst snd] in *.
        destruct (Hk (fun t Ht => Hl k v (or_introl eq_refl) t (or_introl Ht))) as (N1 & G1).
        destruct (Hx (fun t Ht => Hl k v (or_introl eq_refl) t (or_intror Ht))) as (N2 & G2).
        destruct (IH (fun k v Hy => Hl k v (or_intror Hy))) as (N3 & G3).
        exists (N1 + N2 + N3). intros n Hn cp. cbn [each_map]. apply ends_bind; [ apply G1; lia | intro ].
        apply ends_bind; [ apply G2; lia | intro ]. apply ends_bind; [ apply G3; lia | intro; apply ends_ret ]. }
      destruct G as (N & G). exists N. intros n Hn. rewrite do_interp_map. apply ends_bind; [ exact (G n Hn []) | intro; apply ends_ret ].
  Qed.

  Lemma last_loop str last : forall cut,
    (forall text e name arg, In (text, e) cut -> calls (trim_space e) name arg ->
       ~ In name ["lookup"; "hiera"; "alias"; "strict_alias"]) ->
    (forall text e arg x ps, In (text, e) cut ->
       ~ In (trim_space e) [""; "::"; """"""; "''"; """::"""; "'::'"] ->
       asks_scope allow (trim_space e) arg -> written_key arg (PStr x :: ps) ->
       forall v, scope_get sc x = Some v -> ends_at_last (fun n => do_interp (run w n) allow v)) ->
    exists N, forall n, N <= n -> forall acc m result, ends sc (istr_loop w (run w n) str allow (toks cut last) acc m result).
  Proof.
    induction cut as [|[t e] cut IH]; intros H1 H2.
    - exists 0. intros n _ acc m result. cbn [toks istr_loop]. apply ends_ret.
    - destruct IH as (N1 & G1).
      { intros text e' name arg Hin. apply (H1 text). right. exact Hin. }
      { intros text e' arg x ps Hin. apply (H2 text). right. exact Hin. }
      destruct (empty_interpolation (trim_space e)) eqn:Ee.
      { exists N1. intros n Hn acc m result. cbn [toks istr_loop]. rewrite Ee. apply G1. exact Hn. }
      apply empty_interpolation_not_in in Ee.
      destruct (method_and_data (trim_space e) allow) as [[md d]|x| |] eqn:Em.
      2: { exists 0. intros n _ acc m result. cbn [toks istr_loop]. apply empty_interpolation_out in Ee. rewrite Ee, Em. exact (ends_panic sc _ x). }
      2, 3: unfold method_and_data in Em; destruct (method_match (trim_space e)) as [[nm a]|]; [ | discriminate ];
           repeat match type of Em with (if ?b then _ else _) = _ => destruct b; try discriminate end.
      pose proof Em as Em'. apply method_and_data_ok in Em'.
      destruct md.
      + assert (Ha : asks_scope allow (trim_space e) d).
        { destruct Em' as [(_ & -> & Hc)|[-> Hc]]; [ right; auto | left; auto ]. }
        assert (G : ends_at_last (fun n => in_scope (run w n) allow d)).
        { destruct (new_key_total d) as [[k Hk]|[x [Hk _]]].
          - pose proof Hk as Hk'. apply new_key_written in Hk' as (ps & -> & Hw).
            pose proof Hw as (segs & W1 & W2 & W3 & x & rest & ->).
            assert (E : forall n s, iv_scope (s_iv s) = sc -> in_scope (run w n) allow d s =
                 match scope_get sc x with
                 | Some v => bind (do_interp (run w n) allow v) (fun y => dig_in (mk_key d (PStr x :: rest)) (fst y)) s
                 | None => (Ok None, s)
                 end).
            { intros n s0 H0. unfold in_scope, bind, lift. rewrite Hk. cbn [root k_parts].
              unfold run_op. rewrite H0. destruct (scope_get sc x); reflexivity. }
            destruct (scope_get sc x) as [v|] eqn:Eg.
            + destruct (H2 t e d x rest (or_introl eq_refl) Ee Ha Hw v Eg) as (N2 & G2). exists N2. intros n Hn s Hs.
              rewrite (E n s Hs). exact (ends_bind sc _ _ _ _ (G2 n Hn) (fun a => ends_dig_in sc _ _) s Hs).
            + exists 0. intros n _ s Hs. rewrite (E n s Hs). exact (ends_ret sc _ None s Hs).
          - exists 0. intros n _ s Hs. unfold in_scope, bind at 1, lift. rewrite Hk. exact (ends_panic sc _ x s Hs). }
        destruct G as (N2 & G2). exists (N1 + N2). intros n Hn acc m result. cbn [toks istr_loop].
        apply empty_interpolation_out in Ee. rewrite Ee, Em. unfold lift.
        intros s Hs. unfold bind at 1. cbn [fst snd is_alias andb].
        apply (ends_bind sc _ _ (in_scope (run w n) allow d)); [ apply G2; lia | intro; apply G1; lia | exact Hs ].
      + destruct Em' as [(C & _)|[_ C]]; [ discriminate | ].
        exfalso. apply (H1 t e _ _ (or_introl eq_refl) C). simpl. auto.
      + destruct Em' as [(C & _)|[_ C]]; [ discriminate | ].
        exfalso. apply (H1 t e _ _ (or_introl eq_refl) C). simpl. auto.
      + destruct Em' as [(C & _)|[_ C]]; [ discriminate | ].
        destruct C as [C|C]; exfalso; apply (H1 t e _ _ (or_introl eq_refl) C); simpl; auto.
      + exists N1. intros n Hn acc m result. cbn [toks istr_loop]. apply empty_interpolation_out in Ee. rewrite Ee, Em.
        intros s Hs. unfold lift, bind at 1. cbn [fst snd is_alias andb]. exact (G1 n Hn _ _ _ s Hs).
  Qed.

  Lemma last_string t : no_lookups (VStr t) ->
    (forall x v, mentions allow (VStr t) x -> scope_get sc x = Some v -> ends_at_last (fun n => do_interp (run w n) allow v)) ->
    ends_at_last (fun n => run w n (RStr t allow)).
  Proof.
    intros H1 H2. destruct (cut_exists t) as (cut & last & Hw & E).
    assert (Hx : forall text e, In (text, e) cut -> expression_of t e).
    { intros text e Hin. exists cut, last, text. auto. }
    destruct (last_loop t last cut) as (N & G).
    - intros text e name arg Hin C. exact (H1 t e name arg (inside_str t) (Hx _ _ Hin) C).
    - intros text e arg x ps Hin He Ha Hk v Hv. apply (H2 x v); [ | exact Hv ]. exists t, e, arg, ps.
      split; [ constructor | ]. split; [ exact (Hx _ _ Hin) | auto ].
    - exists (S N). intros [|n] Hn; [ lia | ]. cbn [run body]. unfold istr.
      destruct (negb (contains "%{" t)); [ apply ends_ret | ].
      apply ends_bind; [ | intro; apply ends_ret ]. apply ends_node.
      rewrite <- E at 2. rewrite (tokens_cut _ _ Hw).
      apply ends_bind; [ apply G; lia | intros [[? ?] ?]; apply ends_ret ].
  Qed.

  Lemma last_variable x : Acc (refers sc allow) x -> forall v, scope_get sc x = Some v ->
    ends_at_last (fun n => do_interp (run w n) allow v).
  Proof.
    induction 1 as [x _ IH]. intros v Hv. apply last_interp. intros t Ht. apply last_string.
    - intros t' e name arg Ht'. inversion Ht'; subst. apply (Hlocal x v Hv). exact Ht.
    - intros y v' (t' & e & arg & ps & Ht' & R) Hv'. inversion Ht'; subst t'. apply (IH y); [ | exact Hv' ].
      exists v. split; [ exact Hv | ]. exists t, e, arg, ps. split; [ exact Ht | exact R ].
  Qed.
End Cycles.

(** ** C20 *)

(** A text that gets a value mentions no variable from which mentions of variables
    in the values of variables go on without end, whatever else is in it. *)
Theorem C20_value_without_cycles : forall w sc allow n t a s,
  iv_scope (s_iv s) = sc -> fst (run w n (RStr t allow) s) = Ok a ->
  forall x, mentions allow (VStr t) x -> Acc (refers sc allow) x.
Proof.
  intros w sc allow n t a s Hs E. apply (done_ends w sc allow n). exists s, a, (snd (run w n (RStr t allow) s)).
  split; [ exact Hs | ]. rewrite <- E. destruct (run w n (RStr t allow) s). reflexivity.
Qed.
Print Assumptions C20_value_without_cycles.

(** So variables that go on without end never give a value. *)
Theorem C20_chains_never_end : forall w sc allow (chain : nat -> string) t n s a,
  mentions allow (VStr t) (chain 0) ->
  (forall i, exists v, scope_get sc (chain i) = Some v /\ mentions allow v (chain (S i))) ->
  iv_scope (s_iv s) = sc -> fst (run w n (RStr t allow) s) <> Ok a.
Proof.
  intros w sc allow chain t n s a H0 H Hs E.
  pose proof (C20_value_without_cycles w sc allow n t a s Hs E (chain 0) H0) as A.
  clear - A H. remember (chain 0) as x eqn:Ex. assert (G : exists i, x = chain i) by eauto. clear Ex.
  induction A as [x _ IH]. destruct G as (i & ->). destruct (H i) as (v & Hv & Hm).
  apply (IH (chain (S i))); [ exists v; auto | eauto ].
Qed.
Print Assumptions C20_chains_never_end.

(** Without such a variable, and without lookups, there is a number of nested
    calls that is always enough.  It does not depend on the state. *)
Theorem C20_without_cycles_ends : forall w sc allow t,
  (forall x v, scope_get sc x = Some v -> no_lookups v) -> no_lookups (VStr t) ->
  (forall x, mentions allow (VStr t) x -> Acc (refers sc allow) x) ->
  exists N, forall n s, N <= n -> iv_scope (s_iv s) = sc -> fst (run w n (RStr t allow) s) <> NoFuel.
Proof.
  intros w sc allow t Hl Ht Ha. destruct (last_string w sc allow t Ht) as (N & G).
  - intros x v Hx Hv. exact (last_variable w sc allow Hl x (Ha x Hx) v Hv).
  - exists N. intros n s Hn Hs. exact (proj1 (G n Hn s Hs)).
Qed.
Print Assumptions C20_without_cycles_ends.

(** Two variables that mention each other, one of them inside of a map, and one
    that ends. *)
Definition cyc_scope : scope :=
  ScMap [(VStr "a", VMap [(VStr "k", VArr [VStr "<%{ b.x }>"])]); (VStr "b", VStr "%{a.k}"); (VStr "c", VStr "C")].

Lemma cyc_b v : inside "<%{ b.x }>" v -> mentions false v "b".
Proof.
  intro H. exists "<%{ b.x }>", " b.x ", "b.x", [PStr "x"]. split; [ exact H | ]. split; [ | split; [ | split ] ].
  - exists [("<", " b.x ")], ">", "<". split; [ | split; [ reflexivity | left; reflexivity ] ]. apply cut_by_tokens. reflexivity.
  - vm_compute. intros G. repeat (destruct G as [G|G]; [ discriminate | ]). exact G.
  - right. split; [ reflexivity | ]. apply method_match_none. reflexivity.
  - exact (written_by "b.x" [PStr "b"; PStr "x"] eq_refl).
Qed.
Lemma cyc_a : mentions false (VStr "%{a.k}") "a".
Proof.
  exists "%{a.k}", "a.k", "a.k", [PStr "k"]. split; [ constructor | ]. split; [ | split; [ | split ] ].
  - exists [("", "a.k")], "", "". split; [ | split; [ reflexivity | left; reflexivity ] ]. apply cut_by_tokens. reflexivity.
  - vm_compute. intros G. repeat (destruct G as [G|G]; [ discriminate | ]). exact G.
  - right. split; [ reflexivity | ]. apply method_match_none. reflexivity.
  - exact (written_by "a.k" [PStr "a"; PStr "k"] eq_refl).
Qed.

Example C20_chains_ex : forall w n s a, iv_scope (s_iv s) = cyc_scope ->
  fst (run w n (RStr "<%{ b.x }>" false) s) <> Ok a.
Proof.
  intros w n s a. apply (C20_chains_never_end w cyc_scope false (fun i => if Nat.even i then "b" else "a")).
  - apply cyc_b. constructor.
  - intro i. rewrite Nat.even_succ, <- Nat.negb_even. destruct (Nat.even i); cbn [negb].
    + exists (VStr "%{a.k}"). split; [ reflexivity | exact cyc_a ].
    + exists (VMap [(VStr "k", VArr [VStr "<%{ b.x }>"])]). split; [ reflexivity | ]. apply cyc_b.
      eapply inside_val; [ left; reflexivity | ]. eapply inside_arr; [ left; reflexivity | constructor ].
Qed.

(** A text with a value, and the same text in any state. *)
Definition line_scope : scope := ScMap [(VStr "a", VStr "<%{b}>"); (VStr "b", VStr "%{c}"); (VStr "c", VInt 1)].

Example C20_without_cycles_ex :
  fst (run (file_world [] []) 4 (RStr "%{a}-%{b}" false) (init_st line_scope None)) = Ok (Some (VStr "<1>-1"), true) /\
  (forall x, mentions false (VStr "%{a}-%{b}") x -> Acc (refers line_scope false) x) /\
  exists N, forall n s, N <= n -> iv_scope (s_iv s) = line_scope -> fst (run (file_world [] []) n (RStr "%{a}-%{b}" false) s) <> NoFuel.
Proof.
  assert (E : fst (run (file_world [] []) 4 (RStr "%{a}-%{b}" false) (init_st line_scope None)) = Ok (Some (VStr "<1>-1"), true))
    by (vm_compute; reflexivity).
  pose proof (C20_value_without_cycles (file_world [] []) line_scope false 4 "%{a}-%{b}" _ (init_st line_scope None) eq_refl E) as A.
  split; [ exact E | ]. split; [ exact A | ].
  assert (L : forall t, (forall e, In (TExpr e) (tokens t) -> method_match (trim_space e) = None) -> no_lookups (VStr t)).
  { intros t H t' e name arg Ht (cut & last & text & Hw & Et & Hin) Hc.
    assert (Q : t' = t) by (inversion Ht; congruence). rewrite Q in Et. clear Q Ht t'.
    assert (G : In (TExpr e) (tokens t)).
    { rewrite Et, (tokens_cut _ _ Hw). clear - Hin. induction cut as [|[a b] cut IH]; [ destruct Hin | ]. cbn [toks].
      destruct Hin as [Hin|Hin]; [ injection Hin as -> ->; right; left; reflexivity | right; right; exact (IH Hin) ]. }
    specialize (H e G). apply method_match_spec in Hc. congruence. }
  apply C20_without_cycles_ends; [ | | exact A ].
  - intros x v Hv. unfold line_scope, scope_get, mgets in Hv. cbn [mget] in Hv.
    destruct (veq (VStr x) (VStr "a")); [ injection Hv as <-; apply L; intros e He; vm_compute in He; repeat (destruct He as [He|He]; [ try discriminate; injection He as <-; reflexivity | ]); destruct He | ].
    destruct (veq (VStr x) (VStr "b")); [ injection Hv as <-; apply L; intros e He; vm_compute in He; repeat (destruct He as [He|He]; [ try discriminate; injection He as <-; reflexivity | ]); destruct He | ].
    destruct (veq (VStr x) (VStr "c")); [ injection Hv as <-; intros t e name arg Ht; inversion Ht | discriminate ].
  - apply L; intros e He; vm_compute in He; repeat (destruct He as [He|He]; [ try discriminate; injection He as <-; reflexivity | ]); destruct He.
Qed.
