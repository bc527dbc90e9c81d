(** Properties C13 to C18 and C20: interpolation. *)

From Coq Require Import String Ascii List ZArith Bool Arith Lia.
From Verif Require Import Str Value Outcome Key Merge Fpath Config Ipl Explain State Engine Meta
  SpecKey SpecIpl SpecInterp KeyFacts ValueFacts MergeFacts StrFacts IplFacts InterpFacts IplExact ConfigOnly Worlds.
Import ListNotations.
Open Scope nat_scope.
Open Scope string_scope.
Open Scope list_scope.

(** ** C13 *)

(** A value without %{ is given back as it is, and nothing happens: no question
    is asked, no provider called, no explanation recorded. *)
Theorem C13_nothing_to_interpolate : forall w n allow v s,
  settled v -> interpolate (run w (S n)) allow v s = (Ok (Some v), s).
Proof. exact interpolate_settled. Qed.
Print Assumptions C13_nothing_to_interpolate.

(** Numbers, booleans, null and sensitive values, whatever they hold. *)
Theorem C13_scalars : forall w n allow v s,
  (forall t, v <> VStr t) -> (forall l, v <> VArr l) -> (forall m, v <> VMap m) ->
  interpolate (run w n) allow v s = (Ok (Some v), s).
Proof.
  intros w n allow v s H1 H2 H3. destruct v as [|b|z|z|t|l|m|v]; try reflexivity.
  - destruct (H1 t eq_refl).
  - destruct (H2 l eq_refl).
  - destruct (H3 m eq_refl).
Qed.
Print Assumptions C13_scalars.

Definition ex_plain : value :=
  vmap [("100%", VArr [VStr "{x}"; VInt 3; VSens (VStr "%{x}")]); ("}%", VStr "% {x}")].

Example C13_ex : settled ex_plain /\
  fst (interpolate (run (file_world [] []) 1) true ex_plain (init_st (ScMap [(VStr "x", VStr "v")]) None)) = Ok (Some ex_plain).
Proof.
  split; [ | vm_compute; reflexivity ].
  apply settled_by. reflexivity.
Qed.

(** ** C14 *)

(** Every string can be cut into texts and expressions, in one way only. *)
Theorem C14_one_cut : forall t,
  exists cut last, (well_cut cut last /\ assembled cut last = t) /\
  forall cut' last', well_cut cut' last' /\ assembled cut' last' = t -> cut' = cut /\ last' = last.
Proof.
  intro t. destruct (cut_exists t) as (cut & last & H & E). exists cut, last. split; [ auto | ].
  intros cut' last' [H' E']. apply cut_unique; try assumption. congruence.
Qed.
Print Assumptions C14_one_cut.

(** Whatever happens while the expressions are evaluated, a result has the texts
    in place, with for each expression the value it stands for. *)
Theorem C14_text_preserved : forall w n allow cut last s v b s',
  well_cut cut last ->
  (forall text e arg, In (text, e) cut ->
     ~ calls (trim_space e) "alias" arg /\ ~ calls (trim_space e) "strict_alias" arg) ->
  run w (S n) (RStr (assembled cut last) allow) s = (Ok (v, b), s') ->
  exists rs, v = Some (VStr (filled cut rs last)) /\
             Forall2 (fun p r => replacement w n allow (snd p) r) cut rs.
Proof.
  intros w n allow cut last s v b s' Hw Ha. apply string_text; [ exact Hw | ].
  apply Forall_forall. intros [t e] Hin arg. exact (Ha t e arg Hin).
Qed.
Print Assumptions C14_text_preserved.

(** With literals and settled variables the result is known exactly; the texts
    put in are not looked at again. *)
Theorem C14_exact : forall w n allow cut rs last s,
  iv_expl (s_iv s) = false -> cut <> [] -> well_cut cut last ->
  Forall2 (fun p r => stands_for w (iv_scope (s_iv s)) allow (snd p) r) cut rs ->
  run w (S (S n)) (RStr (assembled cut last) allow) s = (Ok (Some (VStr (filled cut rs last)), true), s).
Proof. exact string_known. Qed.
Print Assumptions C14_exact.

(** Two expressions, one giving a text with %{ when joined with what follows,
    and an expression that is never closed. *)
Definition ex_scope : scope := ScMap [(VStr "a", vmap [("b", VArr [VStr "p"; VStr "q"])])].

Example C14_ex :
  let cut := [("x ", " a.b.1 "); ("-", "literal('%')")] in
  let last := "{a} %{open" in
  well_cut cut last /\
  Forall2 (fun p r => stands_for (file_world [] []) ex_scope true (snd p) r) cut ["q"; "%"] /\
  assembled cut last = "x %{ a.b.1 }-%{literal('%')}{a} %{open" /\
  filled cut ["q"; "%"] last = "x q-%{a} %{open" /\
  fst (run (file_world [] []) 2 (RStr (assembled cut last) true) (init_st ex_scope None))
  = Ok (Some (VStr "x q-%{a} %{open"), true).
Proof.
  assert (K : new_key "a.b.1" = Ok (mk_key "a.b.1" [PStr "a"; PStr "b"; PInt 1])) by reflexivity.
  apply new_key_written in K as (ps & E & Hk). injection E as <-.
  split; [ apply cut_by_tokens; reflexivity | ]. split; [ | repeat split ].
  - constructor; [ | constructor; [ | constructor ] ]; cbn [snd].
    + refine (sf_value (file_world [] []) ex_scope true _ "a.b.1" "a" [PStr "b"; PInt 1] _ (VStr "q") _ _ Hk eq_refl _ _).
      * intros H. repeat (destruct H as [H|H]; [ discriminate H | ]). exact H.
      * right. split; [ reflexivity | ]. apply method_match_none. reflexivity.
      * apply settled_by. reflexivity.
      * apply dig_parts_path. reflexivity.
    + apply sf_literal; [ reflexivity | ]. apply method_match_spec. reflexivity.
Qed.

(** ** C15 *)

(** Any value: the result is the value with its strings replaced, one by one. *)
Theorem C15_shape_preserved : forall w n allow v s o s',
  wf v = true -> interpolate (run w n) allow v s = (Ok o, s') -> same_shape w n allow v (nil_to_null o).
Proof. exact interpolate_shape. Qed.
Print Assumptions C15_shape_preserved.

Theorem C15_arrays : forall w n allow l s o s',
  wf (VArr l) = true -> interpolate (run w n) allow (VArr l) s = (Ok o, s') ->
  exists l', o = Some (VArr l') /\ List.length l' = List.length l /\ Forall2 (same_shape w n allow) l l'.
Proof. exact interpolate_arr. Qed.
Print Assumptions C15_arrays.

Theorem C15_maps : forall w n allow m s o s',
  wf (VMap m) = true -> interpolate (run w n) allow (VMap m) s = (Ok o, s') ->
  exists m', o = Some (VMap (mputall [] m')) /\
    Forall2 (fun e e' => same_shape w n allow (fst e) (fst e') /\ same_shape w n allow (snd e) (snd e')) m m'.
Proof. exact interpolate_map. Qed.
Print Assumptions C15_maps.

Example C15_ex :
  let v := vmap [("k%{a.b.0}", VArr [VInt 1; VStr "%{a.b.1}"; VNil; VSens (VStr "%{a}")]); ("z", VBool true)] in
  wf v = true /\
  fst (interpolate (run (file_world [] []) 3) true v (init_st ex_scope None))
  = Ok (Some (vmap [("kp", VArr [VInt 1; VStr "q"; VNil; VSens (VStr "%{a}")]); ("z", VBool true)])).
Proof. vm_compute. auto. Qed.

(** ** C16 *)

(** Making the providers of a configuration, which interpolates all of its
    hierarchy, asks the world only whether files exist and what globs match,
    and leaves every cache and every existing provider as it was. *)
Theorem C16_only_asks_about_files : forall w n c es s,
  only_files s (snd (create_providers w (run w n) c es s)).
Proof. intros w n c es s. exact (k_all w w confined (confined_closed w w) eq_refl eq_refl n c es s). Qed.
Print Assumptions C16_only_asks_about_files.

(** Everything but the existing files, the matches of globs, the environment
    and the text of values is irrelevant: data, functions, plugins, modules and
    the top provider can be any other. *)
Theorem C16_data_is_irrelevant : forall w w' n c es s,
  (forall t p, w_stat w t p = w_stat w' t p) -> (forall t p, w_glob w t p = w_glob w' t p) ->
  w_env w = w_env w' -> w_show w = w_show w' ->
  create_providers w (run w n) c es s = create_providers w' (run w' n) c es s.
Proof.
  intros w w' n c es s H1 H2 H3 H4. exact (k_all w w' same_run (same_run_closed w w' H1 H2) H4 H3 n c es s).
Qed.
Print Assumptions C16_data_is_irrelevant.

(** Method syntax never gives a result. *)
Theorem C16_methods_refused : forall w n t e name arg s,
  expression_of t e -> calls (trim_space e) name arg ->
  forall v s', run w n (RStr t false) s <> (Ok v, s').
Proof. exact methods_refused. Qed.
Print Assumptions C16_methods_refused.

(** It is the documented panic when what comes before it is known. *)
Theorem C16_methods_panic : forall w n cut rs t e rest last name arg s,
  iv_expl (s_iv s) = false -> well_cut (cut ++ (t, e) :: rest) last ->
  Forall2 (fun p r => stands_for w (iv_scope (s_iv s)) false (snd p) r) cut rs ->
  calls (trim_space e) name arg ->
  run w (S (S n)) (RStr (assembled (cut ++ (t, e) :: rest) last) false) s
  = (Panic (EErr "interpolation using method syntax is not allowed in this context"), s).
Proof. exact methods_panic. Qed.
Print Assumptions C16_methods_panic.

(** A configuration with interpolated paths, resolved in a world with data for
    the very names used, and one that uses a method. *)
Definition ex_config (p : string) : config :=
  match config_new [] "/h/hiera.yaml" (CfYaml (vmap [("version", VInt 5);
     ("hierarchy", VArr [vmap [("name", VStr "one"); ("path", VStr p)]])])) with
  | Ok c => c
  | _ => mk_config "" "" (mk_entry "" "" "" None None "" None) [] []
  end.
Definition ex_paths (o : outcome (list provider)) : outcome (list (option (list location))) :=
  omap (map (fun p => e_locations (p_entry p))) o.

Example C16_ex :
  let w := file_world [] [("/h/data/x-q.yaml", vmap [("a", VStr "data")])] in
  let c := ex_config "x-%{a.b.1}.yaml" in
  let r := create_providers w (run w 3) c (c_hierarchy c) (init_st ex_scope None) in
  ex_paths (fst r) = Ok [Some [LPath "x-%{a.b.1}.yaml" "/h/data/x-q.yaml" true]] /\
  s_trace (snd r) = [EvStat "/h/data/x-q.yaml"] /\
  let c := ex_config "x-%{lookup('a')}.yaml" in
  fst (create_providers w (run w 3) c (c_hierarchy c) (init_st ex_scope None))
  = Panic (EErr "interpolation using method syntax is not allowed in this context").
Proof. vm_compute. auto. Qed.

(** ** C17 *)

(** A string that is one alias is what the lookup of its key gives. *)
Theorem C17_alias_is_lookup : forall w n e arg k s,
  iv_expl (s_iv s) = false -> ~ has "}" e -> calls (trim_space e) "alias" arg -> new_key arg = Ok k ->
  run w (S n) (RStr ("%{" ++ e ++ "}") true) s =
  match run w n (RLookup k None) s with
  | (Ok (Some v, _), s') => (Ok (Some v, true), s')
  | (Ok (None, _), s') => (Ok (Some (VStr ""), true), s')
  | (Panic x, s') => (Panic x, s')
  | (Hang, s') => (Hang, s')
  | (NoFuel, s') => (NoFuel, s')
  end.
Proof.
  intros w n e arg k s Ho Hb Hc Hk. rewrite (alias_whole w n e false arg k s Ho Hb Hc Hk).
  destruct (run w n (RLookup k None) s) as [[[[v|] b]|x| |] s']; reflexivity.
Qed.
Print Assumptions C17_alias_is_lookup.

Theorem C17_strict_alias_is_lookup : forall w n e arg k s,
  iv_expl (s_iv s) = false -> ~ has "}" e -> calls (trim_space e) "strict_alias" arg -> new_key arg = Ok k ->
  run w (S n) (RStr ("%{" ++ e ++ "}") true) s =
  match run w n (RLookup k None) s with
  | (Ok (v, _), s') => (Ok (v, true), s')
  | (Panic x, s') => (Panic x, s')
  | (Hang, s') => (Hang, s')
  | (NoFuel, s') => (NoFuel, s')
  end.
Proof.
  intros w n e arg k s Ho Hb Hc Hk. rewrite (alias_whole w n e true arg k s Ho Hb Hc Hk).
  destruct (run w n (RLookup k None) s) as [[[[v|] b]|x| |] s']; reflexivity.
Qed.
Print Assumptions C17_strict_alias_is_lookup.

(** As a part of a string it never gives a result. *)
Theorem C17_part_fails : forall w n t e name arg s,
  name = "alias" \/ name = "strict_alias" ->
  expression_of t e -> calls (trim_space e) name arg -> t <> ("%{" ++ e ++ "}")%string ->
  forall v s', run w n (RStr t true) s <> (Ok v, s').
Proof.
  intros w n t e name arg s Hn Ht Hc Hne.
  destruct Hn as [->| ->]; [ exact (alias_part w n t e false arg s Ht Hc Hne) | exact (alias_part w n t e true arg s Ht Hc Hne) ].
Qed.
Print Assumptions C17_part_fails.

(** It is the documented panic when what comes before it is known. *)
Theorem C17_part_panics : forall w n cut rs t e rest last name arg s,
  name = "alias" \/ name = "strict_alias" ->
  iv_expl (s_iv s) = false -> well_cut (cut ++ (t, e) :: rest) last ->
  Forall2 (fun p r => stands_for w (iv_scope (s_iv s)) true (snd p) r) cut rs ->
  calls (trim_space e) name arg ->
  assembled (cut ++ (t, e) :: rest) last <> ("%{" ++ e ++ "}")%string ->
  run w (S (S n)) (RStr (assembled (cut ++ (t, e) :: rest) last) true) s = (Panic alias_misplaced, s).
Proof.
  intros w n cut rs t e rest last name arg s Hn Ho Hw Hk Hc Hne.
  destruct Hn as [->| ->];
    [ exact (alias_part_panic w n cut rs t e rest last false arg s Ho Hw Hk Hc Hne)
    | exact (alias_part_panic w n cut rs t e rest last true arg s Ho Hw Hk Hc Hne) ].
Qed.
Print Assumptions C17_part_panics.

(** Data with aliases: the type is kept; a missing key gives the empty string,
    or for strict_alias makes the value not found, so that the next level is
    used; inside an array it gives null; in a longer string it panics. *)
Definition alias_world : world :=
  file_world [("/h/hiera.yaml", levels ["node"; "common"])]
    [("/h/data/node.yaml", vmap [("list", VArr [VInt 1; VInt 2]); ("a", VStr "%{alias('list')}");
                                 ("b", VStr "%{ alias(""none"") }"); ("c", VStr "%{strict_alias('none')}");
                                 ("d", VArr [VStr "%{strict_alias('none')}"]); ("e", VStr " %{alias('list')}")]);
     ("/h/data/common.yaml", vmap [("c", VStr "next")])].

Example C17_ex :
  calls (trim_space " alias(""none"") ") "alias" "none" /\
  map (fun k => look alias_world 6 [] k None) ["a"; "b"; "c"; "d"; "e"]
  = [Ok (Some (VArr [VInt 1; VInt 2])); Ok (Some (VStr "")); Ok (Some (VStr "next"));
     Ok (Some (VArr [VNil])); Panic alias_misplaced].
Proof. split; [ apply method_match_spec; reflexivity | vm_compute; reflexivity ]. Qed.

(** ** C18 *)

(** False: a value from the hierarchy is interpolated twice, once by the
    provider and once by the lookup, so the text made by literal is interpolated
    the second time. *)
Theorem C18_literal_escapes_refuted :
  look (file_world [("/h/hiera.yaml", levels ["common"])]
          [("/h/data/common.yaml", vmap [("a", VStr "%{literal('%')}{x}")])])
       6 [(VStr "x", VStr "boom")] "a" None = Ok (Some (VStr "boom")) /\
  exists cut last rs, well_cut cut last /\ assembled cut last = "%{literal('%')}{x}" /\
    Forall2 (fun p r => calls (trim_space (snd p)) "literal" r) cut rs /\
    filled cut rs last = "%{x}" /\ "%{x}" <> "boom".
Proof.
  split; [ vm_compute; reflexivity | ].
  exists [("", "literal('%')")], "{x}", ["%"]. repeat split; try discriminate; try reflexivity.
  - constructor; [ | constructor ]. cbn [fst snd]. rewrite <- !contains_not. auto.
  - apply no_expression. reflexivity.
  - constructor; [ | constructor ]. apply method_match_spec. reflexivity.
Qed.
Print Assumptions C18_literal_escapes_refuted.

(** Full statement: for all [cut], [last] and [rs] with [rs] the arguments of
    the literals, a lookup of data [assembled cut last] gives
    [filled cut rs last].  What holds: one interpolation gives that, and further
    interpolations keep it when it happens to be free of %{. *)
Theorem C18_literal_escapes_partial : forall w n cut last rs s,
  iv_expl (s_iv s) = false -> cut <> [] -> well_cut cut last ->
  Forall2 (fun p r => calls (trim_space (snd p)) "literal" r) cut rs ->
  let t := filled cut rs last in
  run w (S (S n)) (RStr (assembled cut last) true) s = (Ok (Some (VStr t), true), s) /\
  (~ has "%{" t -> interpolate (run w (S n)) true (VStr t) s = (Ok (Some (VStr t)), s)).
Proof.
  intros w n cut last rs s Ho Hc Hw H t. split.
  - apply string_known; try assumption. clear -H. induction H; constructor; [ | assumption ].
    apply sf_literal; [ reflexivity | assumption ].
  - intro Ht. apply interpolate_settled. intros u Hu. inversion Hu; subst. exact Ht.
Qed.
Print Assumptions C18_literal_escapes_partial.

Example C18_ex :
  look (file_world [("/h/hiera.yaml", levels ["common"])]
          [("/h/data/common.yaml", vmap [("a", VStr "100%{literal('%')} of {x}")])])
       6 [(VStr "x", VStr "boom")] "a" None = Ok (Some (VStr "100% of {x}")).
Proof. vm_compute. reflexivity. Qed.

(** ** C20 *)

(** False: with a variable that refers to itself no number of nested calls is
    enough, whatever else is in the scope and in the world. *)
Lemma self_reference w allow s : off s -> scope_get (iv_scope (s_iv s)) "x" = Some (VStr "%{x}") ->
  forall n, fst (run w n (RStr "%{x}" allow) s) = NoFuel.
Proof.
  intros Ho Hg. induction n as [|n IH]; [ reflexivity | ].
  assert (Hs : in_scope (run w n) allow "x" s = (NoFuel, snd (run w n (RStr "%{x}" allow) s))).
  { unfold in_scope, bind, lift. change (new_key "x") with (Ok (mk_key "x" [PStr "x"])). cbn [root k_parts].
    unfold run_op. rewrite Hg. cbn [do_interp].
    destruct (run w n (RStr "%{x}" allow) s) as [o s1]. cbn [fst] in IH. subst o. reflexivity. }
  cbn [run body]. unfold istr. change (negb (contains "%{" "%{x}")) with false. cbn iota.
  unfold bind at 1. rewrite node_off by exact Ho. change (tokens "%{x}") with [TLit ""; TExpr "x"; TLit ""].
  unfold bind at 1. cbn [istr_loop]. change (trim_space "x") with "x". change (empty_interpolation "x") with false.
  cbn iota. unfold bind at 1, lift. change (method_and_data "x" allow) with (Ok (MScope, "x")). cbn [fst snd is_alias andb].
  unfold bind at 1. rewrite Hs. reflexivity.
Qed.

Theorem C20_scope_terminates_refuted :
  exists sc w k, (forall n s, iv_scope (s_iv s) = ScMap sc -> iv_expl (s_iv s) = false ->
                  fst (run w n (RStr "%{x}" false) s) = NoFuel) /\
                 forall n, fst (run_lookup w n k None (init_st (ScMap sc) None)) = NoFuel.
Proof.
  exists [(VStr "x", VStr "%{x}")], (with_top LkScope None (file_world [] [])), (mk_key "x" [PStr "x"]). split.
  - intros n s Hs Ho. apply self_reference; [ exact Ho | rewrite Hs; reflexivity ].
  - intros [|n]; [ reflexivity | ]. unfold run_lookup, bind at 1. cbn [run body].
    set (w := with_top LkScope None (file_world [] [])).
    set (s := init_st (ScMap [(VStr "x", VStr "%{x}")]) None).
    pose (s1 := with_iv (iv_with_mode MdData (iv_with_expl false (s_iv s))) s).
    pose proof (self_reference w true s1 eq_refl eq_refl n) as Hn.
    unfold lookup, bind at 1 2, lift. cbn [root k_parts]. change (String.eqb "x" "lookup_options") with false. cbn iota.
    unfold bind at 1. cbn [call_lk w_top w with_top]. unfold scope_lookup, bind at 1.
    change (run_op OScope s) with (Ok (ScMap [(VStr "x", VStr "%{x}")]), s). cbn iota beta.
    change (ret (scope_get (ScMap [(VStr "x", VStr "%{x}")]) "x") s) with (Ok (Some (VStr "%{x}")), s). cbn iota beta.
    unfold run_scoped. cbn [iv_mode s_iv s init_st new_iv]. unfold with_copy.
    change (with_iv _ s) with s1. unfold interpolate, bind at 1 2. cbn [do_interp].
    destruct (run w n (RStr "%{x}" true) s1) as [o s2]. cbn [fst] in Hn. subst o. reflexivity.
Qed.
Print Assumptions C20_scope_terminates_refuted.

(** Full statement: the same without a condition on the scope.  What holds: when
    the variables can be ordered so that each only refers to smaller ones, and
    they make no lookups, a bounded number of nested calls is enough. *)
Theorem C20_scope_terminates_partial : forall w sc allow rank N t s,
  (forall x v y, scope_get sc x = Some v -> mentions allow v y -> rank y < rank x) ->
  (forall x v, scope_get sc x = Some v -> no_lookups v) ->
  no_lookups (VStr t) -> (forall y, mentions allow (VStr t) y -> rank y < N) ->
  iv_scope (s_iv s) = sc ->
  fst (run w (S N) (RStr t allow) s) <> NoFuel.
Proof.
  intros w sc allow rank N t s H1 H2 H3 H4 Hs.
  exact (proj1 (ends_string w sc allow rank H1 H2 N t (conj H3 H4) s Hs)).
Qed.
Print Assumptions C20_scope_terminates_partial.

(** Two variables, one referring to the other. *)
Lemma expression_in t e : expression_of t e -> In (TExpr e) (tokens t).
Proof.
  intros (cut & last & text & Hw & -> & Hin). rewrite (tokens_cut _ _ Hw). clear Hw.
  induction cut as [|[a b] cut IH]; [ destruct Hin | ]. cbn [toks]. destruct Hin as [E|Hin].
  - injection E as -> ->. simpl. auto.
  - right. right. exact (IH Hin).
Qed.

Lemma mentions_by allow v y : mentions allow v y ->
  exists t e d k, inside t v /\ In (TExpr e) (tokens t) /\
    method_and_data (trim_space e) allow = Ok (MScope, d) /\ new_key d = Ok k /\ root k = Ok y.
Proof.
  intros (t & e & arg & ps & H1 & H2 & _ & H3 & H4). exists t, e, arg, (mk_key arg (PStr y :: ps)).
  split; [ exact H1 | ]. split; [ exact (expression_in _ _ H2) | ]. split; [ exact (asks_scope_md _ _ _ H3) | ].
  split; [ exact (written_key_new _ _ H4) | reflexivity ].
Qed.

Example C20_ex :
  let sc := ScMap [(VStr "a", VStr "<%{b}>"); (VStr "b", VStr "1")] in
  let rank := fun x : string => if String.eqb x "a" then 1 else 0 in
  let t := "%{a}-%{b}" in
  (forall x v y, scope_get sc x = Some v -> mentions false v y -> rank y < rank x) /\
  (forall x v, scope_get sc x = Some v -> no_lookups v) /\
  no_lookups (VStr t) /\ (forall y, mentions false (VStr t) y -> rank y < 2) /\
  fst (run (file_world [] []) 3 (RStr t false) (init_st sc None)) = Ok (Some (VStr "<1>-1"), true).
Proof.
  intros sc rank t.
  assert (G : forall x v, scope_get sc x = Some v -> (x = "a" /\ v = VStr "<%{b}>") \/ (x = "b" /\ v = VStr "1")).
  { intros x v H. destruct (String.eqb_spec x "a") as [->|Na]; [ injection H as <-; auto | ].
    destruct (String.eqb_spec x "b") as [->|Nb]; [ injection H as <-; auto | ].
    apply String.eqb_neq in Na, Nb. unfold sc, scope_get, mgets in H. cbn [mget veq] in H.
    try rewrite String.eqb_sym, Na in H. try rewrite Na in H. try rewrite String.eqb_sym, Nb in H. try rewrite Nb in H. discriminate H. }
  assert (N : forall u e name arg, In u ["<%{b}>"; "1"; "%{a}-%{b}"] -> expression_of u e -> ~ calls (trim_space e) name arg).
  { intros u e name arg Hu He Hc. apply expression_in in He. apply method_match_spec in Hc.
    repeat (destruct Hu as [<-|Hu]; [ simpl in He; repeat (destruct He as [He|He]; [ try discriminate He; injection He as <-; discriminate Hc | ]); exact He | ]).
    exact Hu. }
  repeat split.
  - intros x v y H M. apply mentions_by in M as (u & e & d & k & H1 & H2 & H3 & H4 & H5).
    apply G in H as [[-> ->]|[-> ->]]; inversion H1; subst u; simpl in H2.
    + repeat (destruct H2 as [H2|H2]; [ try discriminate H2; injection H2 as <- | ]); [ | destruct H2 ].
      vm_compute in H3. injection H3 as <-. vm_compute in H4. injection H4 as <-. injection H5 as <-. vm_compute. auto.
    + repeat (destruct H2 as [H2|H2]; [ discriminate H2 | ]). destruct H2.
  - intros x v H u e name arg Hi He Hc _. apply G in H as [[-> ->]|[-> ->]]; inversion Hi; subst u;
      refine (N _ _ _ _ _ He Hc); simpl; auto.
  - intros u e name arg Hi He Hc _. inversion Hi; subst u. refine (N _ _ _ _ _ He Hc). simpl. auto.
  - intros y M. apply mentions_by in M as (u & e & d & k & H1 & H2 & H3 & H4 & H5).
    unfold rank. destruct (String.eqb y "a"); lia.
Qed.
