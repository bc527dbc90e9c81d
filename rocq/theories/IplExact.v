(** Interpolation computed exactly: without an explainer, when only literals and
    settled variables are involved; aliases; termination. *)

From Coq Require Import String Ascii List ZArith Bool Arith Lia.
From Verif Require Import Str Value Outcome Key Merge Fpath Config Ipl Explain State Engine Meta
  SpecKey SpecIpl SpecInterp KeyFacts ValueFacts MergeFacts StrFacts IplFacts InterpFacts.
Import ListNotations.
Open Scope nat_scope.
Open Scope string_scope.
Open Scope list_scope.

(** ** Without an explainer *)

Definition off (s : st) : Prop := iv_expl (s_iv s) = false.

Lemma node_off A k i (m : M st A) s : off s -> run_scoped (SNode k i) m s = m s.
Proof. unfold off, run_scoped. intros ->. reflexivity. Qed.

Lemma report_off r s : off s -> run_op (OReport r) s = (Ok tt, s).
Proof. unfold off, run_op. intros ->. reflexivity. Qed.

Lemma dig_step_off p v s : off s ->
  dig_step p v s = (Ok (match v with Some x => dig_part p x | None => None end), s).
Proof.
  intro H. unfold dig_step. rewrite node_off by exact H.
  destruct (match v with Some x => dig_part p x | None => None end); unfold bind; rewrite report_off by exact H; reflexivity.
Qed.

Lemma dig_loop_off : forall ps v s, off s -> dig_loop ps (Some v) s = (Ok (dig_parts ps v), s).
Proof.
  induction ps as [|p ps IH]; intros v s H; [ reflexivity | ].
  cbn [dig_loop dig_parts]. unfold bind. rewrite dig_step_off by exact H.
  destruct (dig_part p v); [ apply IH; exact H | reflexivity ].
Qed.

Lemma dig_in_off k v s : off s -> dig_in k (Some v) s = (Ok (dig k v), s).
Proof.
  intro H. unfold dig_in, dig. destruct (tl (k_parts k)) as [|p ps] eqn:E; [ reflexivity | ].
  rewrite node_off by exact H. apply dig_loop_off. exact H.
Qed.

Lemma dig_in_none k s : off s -> dig_in k None s = (Ok None, s).
Proof.
  intro H. unfold dig_in. destruct (tl (k_parts k)) as [|p ps]; [ reflexivity | ].
  rewrite node_off by exact H. cbn [dig_loop]. unfold bind. rewrite dig_step_off by exact H. reflexivity.
Qed.

Lemma written_key_new arg ps : written_key arg ps -> new_key arg = Ok (mk_key arg ps).
Proof. intro H. apply new_key_written. eauto. Qed.

(** ** Expressions *)

Lemma in_scope_unset rec allow arg x ps s :
  written_key arg (PStr x :: ps) -> scope_get (iv_scope (s_iv s)) x = None ->
  in_scope rec allow arg s = (Ok None, s).
Proof.
  intros Hk Hg. unfold in_scope, bind, lift. rewrite (written_key_new _ _ Hk). cbn [root k_parts].
  unfold run_op. rewrite Hg. reflexivity.
Qed.

Lemma in_scope_set w n allow arg x ps v s : off s ->
  written_key arg (PStr x :: ps) -> scope_get (iv_scope (s_iv s)) x = Some v -> settled v ->
  in_scope (run w (S n)) allow arg s = (Ok (dig_parts ps v), s).
Proof.
  intros Ho Hk Hg Hv. unfold in_scope, bind, lift. rewrite (written_key_new _ _ Hk). cbn [root k_parts].
  unfold run_op. rewrite Hg.
  rewrite (settled_interp (run w (S n)) allow (fun t s => run_plain w n t allow s) v s Hv).
  cbn [fst]. rewrite dig_in_off by exact Ho. reflexivity.
Qed.

Lemma empty_interpolation_out e : ~ In e [""; "::"; """"""; "''"; """::"""; "'::'"] ->
  empty_interpolation e = false.
Proof.
  intro H. destruct (empty_interpolation e) eqn:E; [ | reflexivity ].
  apply empty_interpolation_in in E. contradiction.
Qed.

Lemma empty_interpolation_is e : In e [""; "::"; """"""; "''"; """::"""; "'::'"] ->
  empty_interpolation e = true.
Proof.
  intro H. destruct (empty_interpolation e) eqn:E; [ reflexivity | ].
  apply empty_interpolation_not_in in E. contradiction.
Qed.

Lemma asks_scope_md allow e arg : asks_scope allow e arg -> method_and_data e allow = Ok (MScope, arg).
Proof.
  unfold asks_scope, method_and_data. intros [[-> H]|[-> H]].
  - apply method_match_spec in H. rewrite H. reflexivity.
  - apply method_match_none in H. rewrite H. reflexivity.
Qed.

Lemma calls_md e name arg : calls e name arg ->
  method_and_data e true =
  (if String.eqb name "alias" then Ok (MAlias, arg)
   else if String.eqb name "strict_alias" then Ok (MStrictAlias, arg)
   else if (String.eqb name "hiera" || String.eqb name "lookup")%bool then Ok (MLookup, arg)
   else if String.eqb name "literal" then Ok (MLiteral, arg)
   else if String.eqb name "scope" then Ok (MScope, arg)
   else Panic (EErr ("unknown interpolation method '" ++ name ++ "'"))).
Proof. intro H. apply method_match_spec in H. unfold method_and_data. rewrite H. reflexivity. Qed.

Lemma calls_nonempty e name arg : calls e name arg -> empty_interpolation e = false.
Proof.
  intro H. destruct (empty_interpolation e) eqn:E; [ | reflexivity ].
  apply empty_interpolation_in in E. apply method_match_spec in H.
  repeat (destruct E as [E|E]; [ subst e; discriminate H | ]). destruct E.
Qed.

(** One known expression in the loop. *)
Lemma loop_known w n str allow e r rest acc m result s :
  off s -> stands_for w (iv_scope (s_iv s)) allow e r -> m <> MStrictAlias ->
  exists m', m' <> MStrictAlias /\
  istr_loop w (run w (S n)) str allow (TExpr e :: rest) acc m result s =
  istr_loop w (run w (S n)) str allow rest (acc ++ r) m' result s.
Proof.
  intros Ho H Hm. cbn [istr_loop].
  inversion H as [He|arg Ha Hc|arg x ps Hn Ha Hk Hg|arg x ps v y Hn Ha Hk Hg Hv Hp|arg x ps v Hn Ha Hk Hg Hv Hp]; subst.
  - rewrite (empty_interpolation_is _ He). exists m. rewrite app_nil_s. auto.
  - rewrite (calls_nonempty _ _ _ Hc). unfold bind, lift. rewrite (calls_md _ _ _ Hc). exists MLiteral.
    split; [ discriminate | reflexivity ].
  - rewrite (empty_interpolation_out _ Hn). unfold bind, lift. rewrite (asks_scope_md _ _ _ Ha). cbn [fst snd is_alias andb].
    rewrite (in_scope_unset _ _ _ _ _ _ Hk Hg). exists MScope. split; [ discriminate | reflexivity ].
  - rewrite (empty_interpolation_out _ Hn). unfold bind, lift. rewrite (asks_scope_md _ _ _ Ha). cbn [fst snd is_alias andb].
    rewrite (in_scope_set _ _ _ _ _ _ _ _ Ho Hk Hg Hv). apply dig_parts_path in Hp. rewrite Hp.
    exists MScope. split; [ discriminate | reflexivity ].
  - rewrite (empty_interpolation_out _ Hn). unfold bind, lift. rewrite (asks_scope_md _ _ _ Ha). cbn [fst snd is_alias andb].
    rewrite (in_scope_set _ _ _ _ _ _ _ _ Ho Hk Hg Hv).
    destruct (dig_parts ps v) as [y|] eqn:E; [ apply dig_parts_path in E; destruct (Hp _ E) | ].
    exists MScope. split; [ discriminate | reflexivity ].
Qed.

Lemma loop_all_known w n str allow s : off s -> forall cut rs last acc m result,
  m <> MStrictAlias ->
  Forall2 (fun p r => stands_for w (iv_scope (s_iv s)) allow (snd p) r) cut rs ->
  exists m', m' <> MStrictAlias /\
  istr_loop w (run w (S n)) str allow (toks cut last) acc m result s =
  (Ok ((acc ++ filled cut rs last)%string, m', result), s).
Proof.
  intros Ho cut. induction cut as [|[t e] cut IH]; intros rs last acc m result Hm H.
  - exists m. split; [ exact Hm | reflexivity ].
  - inversion H as [|? r ? rs' H1 H2]; subst. cbn [snd] in H1. cbn [toks]. cbn [istr_loop].
    destruct (loop_known w n str allow e r (toks cut last) (acc ++ t)%string m result s Ho H1 Hm) as (m1 & Hm1 & E).
    cbn [istr_loop] in E. rewrite E.
    destruct (IH rs' last ((acc ++ t) ++ r)%string m1 result Hm1 H2) as (m2 & Hm2 & E2).
    exists m2. split; [ exact Hm2 | ]. rewrite E2. cbn [filled]. rewrite !app_assoc_s. reflexivity.
Qed.

(** A string with known expressions only. *)
Lemma string_known w n allow cut rs last s :
  off s -> cut <> [] -> well_cut cut last ->
  Forall2 (fun p r => stands_for w (iv_scope (s_iv s)) allow (snd p) r) cut rs ->
  run w (S (S n)) (RStr (assembled cut last) allow) s = (Ok (Some (VStr (filled cut rs last)), true), s).
Proof.
  intros Ho Hc Hw H. change (run w (S (S n))) with (body w (run w (S n))). cbn [body]. unfold istr.
  assert (Ec : contains "%{" (assembled cut last) = true).
  { destruct cut as [|[t e] cut]; [ congruence | ]. apply contains_has.
    exists t, (e ++ "}" ++ assembled cut last)%string. reflexivity. }
  rewrite Ec. cbn [negb]. unfold bind at 1. rewrite node_off by exact Ho. rewrite (tokens_cut _ _ Hw).
  destruct (loop_all_known w n (assembled cut last) allow s Ho cut rs last "" MScope None) as (m & Hm & E);
    [ discriminate | exact H | ].
  unfold bind at 1. rewrite E. cbn. destruct m; try reflexivity. congruence.
Qed.

(** ** Aliases *)

Lemma alone_cut e : ~ has "}" e -> well_cut [("", e)] "" /\ assembled [("", e)] "" = ("%{" ++ e ++ "}")%string.
Proof.
  intro H. split; [ | reflexivity ]. split.
  - constructor; [ | constructor ]. split; [ | exact H ].
    intros ([|? ?] & b & E); discriminate E.
  - intros ([|? ?] & b & c & E); discriminate E.
Qed.

Definition alias_value (strict : bool) (v : option value) : option value :=
  match v with
  | Some v => Some v
  | None => if strict then None else Some (VStr "")
  end.

Definition alias_name (strict : bool) : string := if strict then "strict_alias" else "alias".

Lemma alias_md e strict arg : calls e (alias_name strict) arg ->
  method_and_data e true = Ok (if strict then MStrictAlias else MAlias, arg).
Proof. intro H. rewrite (calls_md _ _ _ H). destruct strict; reflexivity. Qed.

Lemma alias_whole w n e strict arg k s :
  off s -> ~ has "}" e -> calls (trim_space e) (alias_name strict) arg -> new_key arg = Ok k ->
  run w (S n) (RStr ("%{" ++ e ++ "}") true) s =
  match run w n (RLookup k None) s with
  | (Ok v, s') => (Ok (alias_value strict (fst v), true), s')
  | (Panic x, s') => (Panic x, s')
  | (Hang, s') => (Hang, s')
  | (NoFuel, s') => (NoFuel, s')
  end.
Proof.
  intros Ho Hb Hc Hk. destruct (alone_cut e Hb) as [Hw Ha]. rewrite <- Ha.
  cbn [run body]. unfold istr.
  assert (Ec : contains "%{" (assembled [("", e)] "") = true).
  { apply contains_has. exists "", (e ++ "}")%string. exact Ha. }
  rewrite Ec. cbn [negb]. unfold bind at 1. rewrite node_off by exact Ho. rewrite (tokens_cut _ _ Hw).
  unfold bind at 1. cbn [toks istr_loop]. rewrite (calls_nonempty _ _ _ Hc).
  unfold bind at 1, lift. rewrite (alias_md _ _ _ Hc). cbn [fst snd].
  rewrite Ha. rewrite String.eqb_refl. cbn [negb]. rewrite andb_false_r.
  destruct strict; (cbn [fst]; unfold bind, lift; rewrite Hk;
    destruct (run w n (RLookup k None) s) as [[v|x| |] s'] eqn:E; try reflexivity;
    cbn; destruct (fst v); reflexivity).
Qed.

(** An alias that is a part of a string. *)
Lemma loop_misplaced w n str : forall cut last t e strict arg acc m result s,
  In (t, e) cut -> calls (trim_space e) (alias_name strict) arg -> str <> ("%{" ++ e ++ "}")%string ->
  forall r s', istr_loop w (run w n) str true (toks cut last) acc m result s <> (Ok r, s').
Proof.
  induction cut as [|[t0 e0] cut IH]; intros last t e strict arg acc m result s Hin Hc Hne r s' H; [ destruct Hin | ].
  cbn [toks istr_loop] in H. destruct Hin as [E|Hin].
  - injection E as -> ->. rewrite (calls_nonempty _ _ _ Hc) in H. unfold bind, lift in H.
    rewrite (alias_md _ _ _ Hc) in H. cbn [fst snd] in H.
    apply String.eqb_neq in Hne. rewrite String.eqb_sym in Hne. rewrite Hne in H.
    destruct strict; discriminate H.
  - destruct (empty_interpolation (trim_space e0)); [ exact (IH _ _ _ _ _ _ _ _ _ Hin Hc Hne _ _ H) | ].
    unfold bind, lift in H. destruct (method_and_data (trim_space e0) true) as [[md d]|x| |]; try discriminate.
    cbn [fst snd] in H. destruct (is_alias md && _)%bool; [ discriminate | ].
    destruct md.
    + destruct (in_scope (run w n) true d s) as [[v|x| |] s1]; try discriminate. exact (IH _ _ _ _ _ _ _ _ _ Hin Hc Hne _ _ H).
    + destruct (new_key d) as [k|x| |]; try discriminate.
      destruct (run w n (RLookup k None) s) as [[v|x| |] s1]; try discriminate. exact (IH _ _ _ _ _ _ _ _ _ Hin Hc Hne _ _ H).
    + destruct (new_key d) as [k|x| |]; try discriminate.
      destruct (run w n (RLookup k None) s) as [[v|x| |] s1]; try discriminate. exact (IH _ _ _ _ _ _ _ _ _ Hin Hc Hne _ _ H).
    + destruct (new_key d) as [k|x| |]; try discriminate.
      destruct (run w n (RLookup k None) s) as [[v|x| |] s1]; try discriminate. exact (IH _ _ _ _ _ _ _ _ _ Hin Hc Hne _ _ H).
    + exact (IH _ _ _ _ _ _ _ _ _ Hin Hc Hne _ _ H).
Qed.

Lemma alias_part w n t e strict arg s :
  expression_of t e -> calls (trim_space e) (alias_name strict) arg -> t <> ("%{" ++ e ++ "}")%string ->
  forall v s', run w n (RStr t true) s <> (Ok v, s').
Proof.
  intros (cut & last & text & Hw & -> & Hin) Hc Hne v s' H. destruct n as [|n]; [ discriminate | ].
  cbn [run body] in H. unfold istr in H.
  destruct (contains "%{" (assembled cut last)) eqn:Ec; cbn [negb] in H.
  - apply bind_ok in H as (x & s1 & H1 & _). apply node_ok in H1 as (s2 & s3 & H1).
    apply bind_ok in H1 as (r & s4 & H3 & _). rewrite (tokens_cut _ _ Hw) in H3.
    exact (loop_misplaced _ _ _ _ _ _ _ _ _ _ _ _ _ Hin Hc Hne _ _ H3).
  - apply contains_not in Ec. apply Ec. clear -Hin. induction cut as [|[a b] cut IH]; [ destruct Hin | ].
    exists a, (b ++ "}" ++ assembled cut last)%string. reflexivity.
Qed.

(** With known expressions before it, the panic is the one about aliases. *)
Lemma alias_part_panic w n cut rs t e rest last strict arg s :
  off s -> well_cut (cut ++ (t, e) :: rest) last ->
  Forall2 (fun p r => stands_for w (iv_scope (s_iv s)) true (snd p) r) cut rs ->
  calls (trim_space e) (alias_name strict) arg ->
  assembled (cut ++ (t, e) :: rest) last <> ("%{" ++ e ++ "}")%string ->
  run w (S (S n)) (RStr (assembled (cut ++ (t, e) :: rest) last) true) s = (Panic alias_misplaced, s).
Proof.
  intros Ho Hw Hk Hc Hne. set (str := assembled (cut ++ (t, e) :: rest) last) in *.
  change (run w (S (S n))) with (body w (run w (S n))). cbn [body]. unfold istr.
  assert (Ec : contains "%{" str = true).
  { apply contains_has. subst str. destruct cut as [|[a b] cut].
    - exists t, (e ++ "}" ++ assembled rest last)%string. reflexivity.
    - exists a, (b ++ "}" ++ assembled (cut ++ (t, e) :: rest) last)%string. reflexivity. }
  rewrite Ec. cbn [negb]. unfold bind at 1. rewrite node_off by exact Ho.
  unfold str at 2. rewrite (tokens_cut _ _ Hw). unfold bind at 1.
  assert (L : forall acc m result, m <> MStrictAlias ->
    istr_loop w (run w (S n)) str true (toks (cut ++ (t, e) :: rest) last) acc m result s = (Panic alias_misplaced, s)).
  { clear Ec Hw. generalize dependent str. intros str Hne. revert rs Hk.
    induction cut as [|[a b] cut IH]; intros rs Hk acc m result Hm.
    - cbn [app toks istr_loop]. rewrite (calls_nonempty _ _ _ Hc). unfold bind, lift. rewrite (alias_md _ _ _ Hc). cbn [fst snd].
      apply String.eqb_neq in Hne. rewrite String.eqb_sym in Hne. rewrite Hne. destruct strict; reflexivity.
    - inversion Hk as [|? r ? rs' H1 H2]; subst. cbn [snd] in H1. cbn [app toks]. 
      destruct (loop_known w n str true b r (toks (cut ++ (t, e) :: rest) last) (acc ++ a)%string m result s Ho H1 Hm)
        as (m1 & Hm1 & E).
      cbn [istr_loop] in *. rewrite E. apply (IH _ H2). exact Hm1. }
  rewrite L; [ reflexivity | discriminate ].
Qed.

(** ** No methods in configurations *)

Lemma methods_refused w n t e name arg s :
  expression_of t e -> calls (trim_space e) name arg ->
  forall v s', run w n (RStr t false) s <> (Ok v, s').
Proof.
  intros (cut & last & text & Hw & -> & Hin) Hc v s' H. destruct n as [|n]; [ discriminate | ].
  cbn [run body] in H. unfold istr in H.
  destruct (contains "%{" (assembled cut last)) eqn:Ec; cbn [negb] in H.
  - apply bind_ok in H as (x & s1 & H1 & _). apply node_ok in H1 as (s2 & s3 & H1).
    apply bind_ok in H1 as (r & s4 & H3 & _). rewrite (tokens_cut _ _ Hw) in H3.
    clear Hw Ec s1 s3. set (str := assembled cut last) in *. clearbody str. revert H3.
    generalize ("" : string) MScope (@None value) s2 r. clear s2 r.
    induction cut as [|[t0 e0] cut IH]; intros acc m result s2 r H; [ destruct Hin | ].
    cbn [toks istr_loop] in H. destruct Hin as [E|Hin].
    + injection E as -> ->. rewrite (calls_nonempty _ _ _ Hc) in H. unfold bind, lift in H.
      apply method_match_spec in Hc. unfold method_and_data in H. rewrite Hc in H. discriminate H.
    + destruct (empty_interpolation (trim_space e0)); [ exact (IH Hin _ _ _ _ _ H) | ].
      unfold bind, lift in H. destruct (method_and_data (trim_space e0) false) as [[md d]|y| |] eqn:Em; try discriminate.
      apply no_methods in Em as [-> ->]. cbn [fst snd is_alias andb] in H.
      destruct (in_scope (run w n) false (trim_space e0) s2) as [[u|y| |] s5]; try discriminate.
      exact (IH Hin _ _ _ _ _ H).
  - apply contains_not in Ec. apply Ec. clear -Hin. destruct cut as [|[a b] cut]; [ destruct Hin | ].
    exists a, (b ++ "}" ++ assembled cut last)%string. reflexivity.
Qed.

Definition no_methods_here : err := EErr "interpolation using method syntax is not allowed in this context".

Lemma methods_panic w n cut rs t e rest last name arg s :
  off s -> well_cut (cut ++ (t, e) :: rest) last ->
  Forall2 (fun p r => stands_for w (iv_scope (s_iv s)) false (snd p) r) cut rs ->
  calls (trim_space e) name arg ->
  run w (S (S n)) (RStr (assembled (cut ++ (t, e) :: rest) last) false) s = (Panic no_methods_here, s).
Proof.
  intros Ho Hw Hk Hc. set (str := assembled (cut ++ (t, e) :: rest) last) in *.
  change (run w (S (S n))) with (body w (run w (S n))). cbn [body]. unfold istr.
  assert (Ec : contains "%{" str = true).
  { apply contains_has. subst str. destruct cut as [|[a b] cut].
    - exists t, (e ++ "}" ++ assembled rest last)%string. reflexivity.
    - exists a, (b ++ "}" ++ assembled (cut ++ (t, e) :: rest) last)%string. reflexivity. }
  rewrite Ec. cbn [negb]. unfold bind at 1. rewrite node_off by exact Ho.
  unfold str at 2. rewrite (tokens_cut _ _ Hw). unfold bind at 1.
  assert (L : forall acc m result, m <> MStrictAlias ->
    istr_loop w (run w (S n)) str false (toks (cut ++ (t, e) :: rest) last) acc m result s = (Panic no_methods_here, s)).
  { clear Ec Hw. clearbody str. revert rs Hk.
    induction cut as [|[a b] cut IH]; intros rs Hk acc m result Hm.
    - cbn [app toks istr_loop]. rewrite (calls_nonempty _ _ _ Hc). unfold bind, lift.
      apply method_match_spec in Hc. unfold method_and_data. rewrite Hc. reflexivity.
    - inversion Hk as [|? r ? rs' H1 H2]; subst. cbn [snd] in H1. cbn [app toks].
      destruct (loop_known w n str false b r (toks (cut ++ (t, e) :: rest) last) (acc ++ a)%string m result s Ho H1 Hm)
        as (m1 & Hm1 & E).
      cbn [istr_loop] in *. rewrite E. apply (IH _ H2). exact Hm1. }
  rewrite L; [ reflexivity | discriminate ].
Qed.

(** ** Termination with an acyclic scope *)

Section Acyclic.
  Variables (w : world) (sc : scope) (allow : bool) (rank : string -> nat).
  Hypothesis Hrank : forall x v y, scope_get sc x = Some v -> mentions allow v y -> rank y < rank x.
  Hypothesis Hlocal : forall x v, scope_get sc x = Some v -> no_lookups v.

  (** Code that ends, and keeps the scope if it ends well. *)
  Definition ends {A} (m : M st A) : Prop := forall s, iv_scope (s_iv s) = sc ->
    fst (m s) <> NoFuel /\ (forall a s', m s = (Ok a, s') -> iv_scope (s_iv s') = sc).

  Lemma ends_ret A (a : A) : ends (ret a).
  Proof. intros s H. split; [ discriminate | ]. intros b s' E. injection E as _ <-. exact H. Qed.
  Lemma ends_panic A e : ends (@panic st A e).
  Proof. intros s H. split; [ discriminate | ]. intros b s' E. discriminate. Qed.
  Lemma ends_report r : ends (run_op (OReport r)).
  Proof.
    intros s H. unfold run_op. destruct (iv_expl (s_iv s)).
    - destruct (xaccept r (s_ex s)) as [x|]; (split; [ discriminate | ]).
      + intros b s' E. injection E as _ <-. exact H.
      + intros b s' E. discriminate.
    - split; [ discriminate | ]. intros b s' E. injection E as _ <-. exact H.
  Qed.
  Lemma ends_bind A B (m : M st A) (f : A -> M st B) : ends m -> (forall a, ends (f a)) -> ends (bind m f).
  Proof.
    intros Hm Hf s Hs. unfold bind. destruct (Hm s Hs) as [H1 H2]. destruct (m s) as [[a|e| |] s1]; cbn in *.
    - apply Hf. exact (H2 a s1 eq_refl).
    - split; discriminate.
    - split; discriminate.
    - congruence.
  Qed.
  Lemma ends_node A k i (m : M st A) : ends m -> ends (run_scoped (SNode k i) m).
  Proof.
    intros Hm s Hs. unfold run_scoped. destruct (iv_expl (s_iv s)); [ | exact (Hm s Hs) ].
    destruct (xpush k i (s_ex s)) as [x|]; [ | split; discriminate ].
    destruct (Hm (with_ex x s) Hs) as [H1 H2]. destruct (m (with_ex x s)) as [o t]. split; [ exact H1 | ].
    intros a s' E. injection E as -> <-. exact (H2 a t eq_refl).
  Qed.

  Lemma ends_dig_loop : forall ps v, ends (dig_loop ps v).
  Proof.
    induction ps as [|p ps IH]; intro v; [ apply ends_ret | ]. cbn [dig_loop]. apply ends_bind.
    - unfold dig_step. apply ends_node. destruct (match v with Some x => dig_part p x | None => None end);
        (apply ends_bind; [ apply ends_report | intro; apply ends_ret ]).
    - intros [x|]; [ apply IH | apply ends_ret ].
  Qed.

  Lemma ends_dig_in k v : ends (dig_in k v).
  Proof.
    unfold dig_in. destruct (tl (k_parts k)); [ apply ends_ret | ]. apply ends_node. apply ends_dig_loop.
  Qed.

  Definition bounded (N : nat) (v : value) : Prop := no_lookups v /\ forall y, mentions allow v y -> rank y < N.

  Lemma bounded_sub N v v' : (forall t, inside t v' -> inside t v) -> bounded N v -> bounded N v'.
  Proof.
    intros H [H1 H2]. split.
    - intros t e name arg Ht. apply H1. exact (H _ Ht).
    - intros y (t & e & arg & ps & Ht & R). apply H2. exists t, e, arg, ps. split; [ exact (H _ Ht) | exact R ].
  Qed.

  Lemma ends_do_interp rec N :
    (forall t, bounded N (VStr t) -> ends (rec (RStr t allow))) ->
    forall v, bounded N v -> ends (do_interp rec allow v).
  Proof.
    intro Hr. fix IH 1. intros v H. destruct v as [|b|z|z|t|l|m|v]; try apply ends_ret.
    - apply Hr. exact H.
    - rewrite do_interp_arr. apply ends_bind; [ | intro; apply ends_ret ].
      assert (Hl : forall x, In x l -> bounded N x).
      { intros x Hx. refine (bounded_sub _ _ _ _ H). intros t Ht. exact (inside_arr t l x Hx Ht). }
      clear H. induction l as [|x l IHl]; [ apply ends_ret | ]. cbn [each_arr].
      apply ends_bind; [ apply IH; apply Hl; left; reflexivity | intro p ].
      apply ends_bind; [ apply IHl; intros y Hy; apply Hl; right; exact Hy | intro q; apply ends_ret ].
    - rewrite do_interp_map. apply ends_bind; [ | intro; apply ends_ret ].
      assert (Hl : forall k v, In (k, v) m -> bounded N k /\ bounded N v).
      { intros k v Hx. split; refine (bounded_sub _ _ _ _ H); intros t Ht;
          [ exact (inside_key t m k v Hx Ht) | exact (inside_val t m k v Hx Ht) ]. }
      clear H. generalize (@nil (value * value)). induction m as [|[k v] m IHm]; intro cp; [ apply ends_ret | ].
      cbn [each_map]. destruct (Hl k v (or_introl eq_refl)) as [Hk Hv].
      apply ends_bind; [ apply IH; exact Hk | intro p ].
      apply ends_bind; [ apply IH; exact Hv | intro q ].
      apply ends_bind; [ apply IHm; intros; apply Hl; right; assumption | intro; apply ends_ret ].
  Qed.

  Lemma ends_in_scope rec arg x ps :
    written_key arg (PStr x :: ps) ->
    (forall t, bounded (rank x) (VStr t) -> ends (rec (RStr t allow))) ->
    ends (in_scope rec allow arg).
  Proof.
    intros Hk Hr s Hs. unfold in_scope.
    assert (E : forall s, iv_scope (s_iv s) = sc -> in_scope rec allow arg s =
             match scope_get sc x with
             | Some v => bind (do_interp rec allow v) (fun y => dig_in (mk_key arg (PStr x :: ps)) (fst y)) s
             | None => (Ok None, s)
             end).
    { intros s0 H0. unfold in_scope, bind, lift. rewrite (written_key_new _ _ Hk). cbn [root k_parts].
      unfold run_op. rewrite H0. destruct (scope_get sc x); reflexivity. }
    unfold in_scope in E. rewrite (E s Hs). destruct (scope_get sc x) as [v|] eqn:Eg.
    - apply (ends_bind _ _ (do_interp rec allow v)); [ | intro; apply ends_dig_in | exact Hs ].
      apply (ends_do_interp _ (rank x) Hr). split; [ exact (Hlocal x v Eg) | ].
      intros y Hy. exact (Hrank x v y Eg Hy).
    - exact (ends_ret _ None s Hs).
  Qed.

  Lemma ends_loop rec str N :
    (forall t M, M < N -> bounded M (VStr t) -> ends (rec (RStr t allow))) ->
    forall cut last acc m result,
    (forall text e name arg, In (text, e) cut -> calls (trim_space e) name arg ->
       ~ In name ["lookup"; "hiera"; "alias"; "strict_alias"]) ->
    (forall text e arg x ps, In (text, e) cut ->
       ~ In (trim_space e) [""; "::"; """"""; "''"; """::"""; "'::'"] ->
       asks_scope allow (trim_space e) arg -> written_key arg (PStr x :: ps) -> rank x < N) ->
    ends (istr_loop w rec str allow (toks cut last) acc m result).
  Proof.
    intro Hr. induction cut as [|[t e] cut IH]; intros last acc m result H1 H2.
    - cbn [toks istr_loop]. apply ends_ret.
    - assert (Hrec : forall acc m, ends (istr_loop w rec str allow (toks cut last) acc m result)).
      { intros. apply IH; [ intros text e' name arg Hin; apply (H1 text); right; exact Hin | ].
        intros text e' arg x ps Hin. apply (H2 text). right. exact Hin. }
      cbn [toks istr_loop]. destruct (empty_interpolation (trim_space e)) eqn:Ee; [ apply Hrec | ].
      apply empty_interpolation_not_in in Ee.
      intros s Hs. unfold bind at 1. unfold bind at 1. unfold lift.
      destruct (method_and_data (trim_space e) allow) as [[md d]|x| |] eqn:Em; try (split; discriminate).
      2: unfold method_and_data in Em; destruct (method_match (trim_space e)) as [[nm a]|]; [ | discriminate ];
           repeat match type of Em with (if ?b then _ else _) = _ => destruct b; try discriminate end.
      apply method_and_data_ok in Em. cbn [fst snd].
      destruct md; cbn [is_alias andb].
      + assert (Ha : asks_scope allow (trim_space e) d).
        { destruct Em as [(_ & -> & Hc)|[-> Hc]]; [ right; auto | left; auto ]. }
        destruct (new_key_total d) as [[k Hk]|[x [Hk _]]].
        * pose proof Hk as Hk'. apply new_key_written in Hk' as (ps & -> & Hw).
          destruct Hw as (segs & W1 & W2 & W3 & x & rest & ->).
          assert (Hw : written_key d (PStr x :: rest)) by (exists segs; split; [ exact W1 | split; [ exact W2 | split; [ exact W3 | eauto ] ] ]).
          apply (ends_bind _ _ (in_scope rec allow d)); [ | intro; apply Hrec | exact Hs ].
          apply (ends_in_scope _ _ _ _ Hw).
          intros t0 Ht0. apply (Hr t0 (rank x)); [ | exact Ht0 ].
          exact (H2 t e d x rest (or_introl eq_refl) Ee Ha Hw).
        * apply (ends_bind _ _ (in_scope rec allow d)); [ | intro; apply Hrec | exact Hs ].
          intros s0 H0. unfold in_scope, bind, lift. rewrite Hk. exact (ends_panic _ x s0 H0).
      + destruct Em as [(C & _)|[_ C]]; [ discriminate | ].
        exfalso. apply (H1 t e _ _ (or_introl eq_refl) C). simpl. auto.
      + destruct Em as [(C & _)|[_ C]]; [ discriminate | ].
        exfalso. apply (H1 t e _ _ (or_introl eq_refl) C). simpl. auto.
      + destruct Em as [(C & _)|[_ C]]; [ discriminate | ].
        destruct C as [C|C]; exfalso; apply (H1 t e _ _ (or_introl eq_refl) C); simpl; auto.
      + apply (Hrec _ _ s Hs).
  Qed.

  Lemma ends_string : forall N t, bounded N (VStr t) -> ends (run w (S N) (RStr t allow)).
  Proof.
    induction N as [N IHN] using lt_wf_ind. intros t H. cbn [run body]. unfold istr.
    destruct (negb (contains "%{" t)); [ apply ends_ret | ].
    apply ends_bind; [ | intro; apply ends_ret ]. apply ends_node.
    destruct (cut_exists t) as (cut & last & Hw & E). rewrite <- E at 2. rewrite (tokens_cut _ _ Hw).
    apply ends_bind; [ | intros [[? ?] ?]; apply ends_ret ].
    destruct H as [H1 H2].
    assert (Hx : forall text e, In (text, e) cut -> expression_of t e).
    { intros text e Hin. exists cut, last, text. auto. }
    apply (ends_loop _ _ N).
    - intros t0 M HM Hb. destruct N as [|N]; [ lia | ].
      apply (IHN N); [ lia | ]. destruct Hb as [B1 B2]. split; [ exact B1 | ]. intros y Hy. apply B2 in Hy. lia.
    - intros text e name arg Hin C. exact (H1 t e name arg (inside_str t) (Hx _ _ Hin) C).
    - intros text e arg x ps Hin He Ha Hk. apply H2. exists t, e, arg, ps.
      split; [ constructor | ]. split; [ exact (Hx _ _ Hin) | auto ].
  Qed.
End Acyclic.
