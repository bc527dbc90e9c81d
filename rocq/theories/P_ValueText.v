(** C14, continued: the text that a variable is replaced by. *)

From Coq Require Import String Ascii List ZArith Bool Arith Lia Decimal DecimalString DecimalZ.
From Verif Require Import Str Value Outcome Key Ipl State Engine Session Worlds
  SpecKey SpecIpl SpecInterp SpecRestArgs StrFacts IplFacts KeyFacts IplExact InterpFacts P_RestArgs.
Import ListNotations.
Open Scope nat_scope.
Open Scope string_scope.
Open Scope list_scope.

(** A number without leading zeros and without a minus before zero. *)
Definition shortest (t : string) : Prop :=
  t = "0" \/ exists sign c r, (t = sign ++ String c r)%string /\ (sign = "" \/ sign = "-") /\ c <> "0"%char /\ c <> "-"%char.

(** The text of a value: a string as it is, a boolean as true or false, a number
    in decimal notation.  The text of other values is not said here. *)
Inductive reads : value -> string -> Prop :=
| rd_str : forall t, reads (VStr t) t
| rd_true : reads (VBool true) "true"
| rd_false : reads (VBool false) "false"
| rd_int : forall z t, decimal z t -> shortest t -> reads (VInt z) t.

(** The variable, with the path below it, that an expression asks for. *)
Definition asks_value (sc : scope) (allow : bool) (e : string) (y : value) : Prop :=
  ~ In (trim_space e) [""; "::"; """"""; "''"; """::"""; "'::'"] /\
  exists arg x ps v, asks_scope allow (trim_space e) arg /\ written_key arg (PStr x :: ps) /\
    scope_get sc x = Some v /\ settled v /\ path v ps y.

Definition simple (y : value) : Prop :=
  match y with VStr _ | VBool _ | VInt _ => True | _ => False end.

Lemma shortest_digits u : unorm u = u -> u <> Nil ->
  NilZero.string_of_uint u = "0" \/
  exists c r, NilZero.string_of_uint u = String c r /\ c <> "0"%char /\ c <> "-"%char.
Proof.
  destruct u; intros Hn Hu; try contradiction;
    try (right; eexists _, _; split; [ reflexivity | split; discriminate ]).
  left. unfold unorm in Hn. cbn [nzhead] in Hn. destruct (nzhead u) eqn:E; try discriminate.
  - now injection Hn as <-.
  - exfalso. revert E. clear. revert u0. induction u; intros u0 E; cbn [nzhead] in E; try discriminate. eapply IHu; exact E.
Qed.

Lemma show_shortest z : shortest (show_int z).
Proof.
  unfold show_int. assert (N : norm (Z.to_int z) = Z.to_int z) by (rewrite <- DecimalZ.to_of, DecimalZ.of_to; reflexivity).
  destruct (Z.to_int z) as [u|u] eqn:E; cbn [norm] in N; cbn [NilZero.string_of_int].
  - injection N as N. destruct (shortest_digits u N) as [H|(c & r & H & H1 & H2)].
    + intros ->. cbv in N. discriminate N.
    + left. exact H.
    + right. exists "", c, r. split; [ exact H | auto ].
  - right. destruct (nzhead u) eqn:K; try discriminate N; injection N as N.
    all: exists "-"; destruct u; cbn [nzhead] in K; try discriminate K; try discriminate N;
      try (eexists _, _; split; [ reflexivity | split; [ right; reflexivity | split; discriminate ] ]).
    all: exfalso; clear -K; match goal with H : nzhead ?a = D0 ?b |- _ => revert b H; induction a; intros b H; cbn [nzhead] in H; try discriminate; eauto end.
Qed.

Lemma reads_string w y : simple y -> reads y (vstring w y).
Proof.
  destruct y as [|[|]|z|z|t|l|m|v]; intro H; try contradiction; cbn [vstring]; constructor; [ apply decimal_shown | apply show_shortest ].
Qed.

(** Expressions that ask for strings, booleans and numbers are replaced by their
    texts; what is around them stays. *)
Theorem C14_value_text : forall w n allow cut ys last s,
  iv_expl (s_iv s) = false -> cut <> [] -> well_cut cut last -> Forall simple ys ->
  Forall2 (fun p y => asks_value (iv_scope (s_iv s)) allow (snd p) y) cut ys ->
  exists rs, Forall2 reads ys rs /\
    run w (S (S n)) (RStr (assembled cut last) allow) s = (Ok (Some (VStr (filled cut rs last)), true), s).
Proof.
  intros w n allow cut ys last s Hx Hc Hw Hs H. exists (map (vstring w) ys). split.
  - clear H. induction Hs; constructor; [ apply reads_string; assumption | assumption ].
  - apply string_known; [ exact Hx | exact Hc | exact Hw | ]. clear Hc Hw Hs.
    induction H as [|[t e] y cut ys (H1 & arg & x & ps & v & H2 & H3 & H4 & H5 & H6) _ IH]; constructor; [ | exact IH ].
    eapply sf_value; eassumption.
Qed.
Print Assumptions C14_value_text.

Definition txt_scope : scope := ScMap [(VStr "a", vmap [("b", VBool false); ("n", VInt (-120))]); (VStr "s", VStr "x")].
Example C14_value_text_ex :
  let cut := [("b=", "a.b"); (" n=", "a.n"); (" s=", "s")] in
  Forall simple [VBool false; VInt (-120); VStr "x"] /\
  Forall2 (fun p y => asks_value txt_scope false (snd p) y) cut [VBool false; VInt (-120); VStr "x"] /\
  Forall2 reads [VBool false; VInt (-120); VStr "x"] ["false"; "-120"; "x"] /\
  fst (run (file_world [] []) 2 (RStr "b=%{a.b} n=%{a.n} s=%{s}." false) (init_st txt_scope None))
  = Ok (Some (VStr "b=false n=-120 s=x."), true).
Proof.
  cbv zeta. split; [ repeat constructor | ]. split; [ | split; [ | vm_compute; reflexivity ] ].
  - assert (G : forall e x ps v y, new_key e = Ok (mk_key e (PStr x :: ps)) -> trim_space e = e -> empty_interpolation e = false ->
      method_match e = None -> scope_get txt_scope x = Some v -> settled v -> path v ps y -> asks_value txt_scope false e y).
    { intros e x ps v y Hk Ht He Hm Hg Hs Hp. split; [ rewrite Ht; now apply empty_interpolation_not_in | ].
      apply new_key_written in Hk as (ps' & E & Hk). injection E as <-.
      exists e, x, ps, v. split; [ | auto ]. right. split; [ symmetry; exact Ht | ].
      intros name a K. apply method_match_spec in K. rewrite Ht in K. congruence. }
    constructor; [ | constructor; [ | constructor; [ | constructor ] ] ]; cbn [snd].
    + eapply (G "a.b" "a" [PStr "b"]); try reflexivity; [ apply settled_by; reflexivity | ].
      econstructor; [ refine (step_str_key _ [] _ _ _ eq_refl _); intros y [] | constructor ].
    + eapply (G "a.n" "a" [PStr "n"]); try reflexivity; [ apply settled_by; reflexivity | ].
      econstructor; [ refine (step_str_key _ [(VStr "b", VBool false)] _ _ _ eq_refl _) | constructor ].
      intros y [K|[]]. discriminate K.
    + eapply (G "s" "s" []); try reflexivity; [ apply settled_by; reflexivity | ]. constructor.
  - constructor; [ constructor | constructor; [ | constructor; [ constructor | constructor ] ] ].
    change "-120" with (show_int (-120)). constructor; [ apply decimal_shown | apply show_shortest ].
Qed.
