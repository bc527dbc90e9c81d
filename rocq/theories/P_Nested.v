(** Properties C19, C21, C22, C27 and C32: cycles, hidden and quoted keys, nested
    lookups and the default hierarchy. *)

From Coq Require Import String Ascii List ZArith Bool Arith Lia.
From Verif Require Import Str Value Outcome Key Merge Fpath Config Ipl Explain State Engine Session Worlds
  SpecKey SpecIpl SpecInterp SpecConfig SpecMerge SpecLookup SpecExplain Transparent
  KeyFacts ValueFacts MergeLookup StrFacts IplFacts InterpFacts IplExact Fuel ResolveFacts LookupTop SettledLookup ExLevels
  AnswerFacts Cycles SpecAcyclic Acyclic P_Key P_Lookup RootFacts SpecKeyErr KeyErrFacts FailTop.
Import ListNotations.
Open Scope nat_scope.
Open Scope string_scope.
Open Scope list_scope.

(** One lookup in a new session. *)
Lemma one_lookup w od mt c sc es n k opts o N : steady w od mt c -> hierarchy_is w od mt sc c es ->
  lookup_gives w sc es n k opts o -> fst (run_lookup w (3 + n + N) k opts (init_st sc None)) = Ok o.
Proof.
  intros Hw Hh L.
  destruct (C23_every_lookup_in_a_session w od mt c n (1 + n + N) [mk_request sc k opts] [o] Hw) as [E _]; [ lia | | ].
  { constructor; [ | constructor ]. exists es. split; assumption. }
  specialize (E sc). unfold serve in E.
  change (invocation (q_scope (mk_request sc k opts)) false (init_st sc None)) with (init_st sc None) in E.
  cbn [q_key q_opts] in E. change (2 + (1 + n + N)) with (3 + n + N) in E.
  destruct (run_lookup w (3 + n + N) k opts (init_st sc None)) as [x s1]. simpl in E. injection E as ->. reflexivity.
Qed.

(** ** C19 *)

(** Keys whose data leads, in any number of steps, back to one of them: the
    lookup of such a key does not end, with an error or otherwise.  [endless]
    says that the first level that has such a key has a text for it that is a
    single lookup or alias of such a key again. *)
Theorem C19_cycles_never_end : forall w on_disk matching c sc es files cyclic k r ps opts mo s,
  steady w on_disk matching c -> hierarchy_is w on_disk matching sc c es ->
  Forall2 (level_is w) es files ->
  Forall (fun f => under "lookup_options" f = None) files ->
  endless w es cyclic -> k_parts k = PStr r :: ps -> cyclic r ->
  merge_option opts None mo -> strategy_is mo s ->
  forall n, fst (run_lookup w n k opts (init_st sc None)) = NoFuel.
Proof.
  intros w od mt c sc es files cyclic k r ps opts mo s [H1 H2 H3 (file & H4 & H5)] Hh Hf Ho He Hk Hr Hm Hs n.
  exact (stuck_lookup w od mt H1 H2 H3 sc c file H4 H5 es files cyclic k r ps opts mo s n Hh Hf Ho He Hk Hr Hm Hs).
Qed.
Print Assumptions C19_cycles_never_end.

(** A cycle of two keys in two files, of the two kinds of references. *)
Definition cyc_data : list (string * value) :=
  [("/h/data/node.yaml", vmap [("a", VStr "%{lookup('b.x')}")]);
   ("/h/data/common.yaml", vmap [("b", VStr "%{ alias('a') }"); ("c", VInt 1)])].
Definition cyc_w : world := file_world [("/h/hiera.yaml", levels ["node"; "common"])] cyc_data.
Definition cyc_disk : string -> bool := fun p => match aget p cyc_data with Some _ => true | None => false end.
Definition cyc_files : list (option entries) :=
  [Some [(VStr "a", VStr "%{lookup('b.x')}")]; Some [(VStr "b", VStr "%{ alias('a') }"); (VStr "c", VInt 1)]].

Lemma cyc_levels : Forall2 (level_is cyc_w) (map (level_out cyc_disk) ["node"; "common"]) cyc_files.
Proof. constructor; [ eapply li_present; reflexivity | ]. constructor; [ eapply li_present; reflexivity | constructor ]. Qed.

Example C19_endless_ex : endless cyc_w (map (level_out cyc_disk) ["node"; "common"]) (fun r => In r ["a"; "b"]).
Proof.
  pose proof cyc_levels as L. inversion L as [|? ? ? ? L1 L']; subst. inversion L' as [|? ? ? ? L2 _]; subst.
  intros r [<-|[<-|[]]]; (split; [ discriminate | ]); (split; [ apply plain_key_by; reflexivity | ]).
  - exists [], (level_out cyc_disk "node"), [level_out cyc_disk "common"]. eexists _, "lookup('b.x')", "b".
    split; [ reflexivity | ]. split; [ constructor | ]. split; [ exact L1 | ]. split; [ reflexivity | ].
    split; [ | right; left; reflexivity ]. split; [ now apply contains_not | ].
    exists "lookup", "b.x", [PStr "x"]. split; [ apply ex_calls; reflexivity | ]. split; [ left; reflexivity | ].
    apply written_by. reflexivity.
  - exists [level_out cyc_disk "node"], (level_out cyc_disk "common"), []. eexists _, " alias('a') ", "a".
    split; [ reflexivity | ]. split; [ constructor; [ eexists; split; [ exact L1 | reflexivity ] | constructor ] | ].
    split; [ exact L2 | ]. split; [ reflexivity | ].
    split; [ | left; reflexivity ]. split; [ now apply contains_not | ].
    exists "alias", "a", []. split; [ apply ex_calls; reflexivity | ]. split; [ right; right; left; reflexivity | ].
    apply written_by. reflexivity.
Qed.

(** The statement is false: this cycle gives no error, whatever time it gets. *)
Theorem C19_cycle_detected_refuted : exists w k sc,
  k = mk_key "a" [PStr "a"] /\
  look w 9 [] "c" None = Ok (Some (VInt 1)) /\
  forall n e, fst (run_lookup w n k None (init_st sc None)) <> Panic e.
Proof.
  exists cyc_w, (mk_key "a" [PStr "a"]), (ScMap []). split; [ reflexivity | ]. split; [ vm_compute; reflexivity | ].
  intros n e.
  rewrite (C19_cycles_never_end cyc_w cyc_disk (fun _ => []) (levels_in ["node"; "common"]) (ScMap [])
             (map (level_out cyc_disk) ["node"; "common"]) cyc_files (fun r => In r ["a"; "b"])
             (mk_key "a" [PStr "a"]) "a" [] None None SFirst); try discriminate; try reflexivity.
  - apply file_world_steady. reflexivity.
  - apply levels_resolved; reflexivity.
  - exact cyc_levels.
  - repeat constructor.
  - exact C19_endless_ex.
  - left. reflexivity.
  - apply mo_none; discriminate.
  - apply si_none.
Qed.
Print Assumptions C19_cycle_detected_refuted.

(** Where there are no circles every lookup ends with an answer: [ranked] says
    that the texts in the data and in the scope are correctly written and can be
    ranked so that each refers only to keys and variables of lower rank, and
    that one of the two characters that begin an expression does not occur
    outside expressions, so that none are made on the way.  The number of
    nested calls needed is linear in the rank of the key. *)
Theorem C19_acyclic_ends : forall w on_disk matching c sc es files ch rank k r ps opts mo s,
  steady w on_disk matching c -> hierarchy_is w on_disk matching sc c es ->
  Forall2 (level_is w) es files ->
  Forall (fun f => under "lookup_options" f = None) files ->
  ranked ch rank sc files ->
  (forall v, (forall t, inside t v -> ~ occurs ch t) -> ~ occurs ch (w_show w v)) ->
  k_parts k = PStr r :: ps -> r <> "lookup_options" -> plain_key r ->
  merge_option opts None mo -> strategy_is mo s ->
  exists o, forall n, fst (run_lookup w (4 + 2 * rank (RKey r) + n) k opts (init_st sc None)) = Ok o.
Proof.
  intros w od mt c sc es files ch rank k r ps opts mo s Hw Hh Hf Ho Hr Hsh Hk Hlo Hp Hm Hs.
  destruct (lookup_ok w sc es files ch rank s Hr Hf (fun v H => Hsh v (proj2 H)) k r ps opts mo Hk Hlo Hp Ho Hm Hs) as (o & L).
  exists o. intro n. pose proof (one_lookup w od mt c sc es _ k opts o n Hw Hh L) as E.
  replace (4 + 2 * rank (RKey r) + n) with (3 + S (2 * rank (RKey r)) + n) by lia. exact E.
Qed.
Print Assumptions C19_acyclic_ends.

(** Three keys in two files and a variable, one after the other. *)
Definition acy_node : entries := [(VStr "a", VStr "<%{lookup('b.x')} %{v}>")].
Definition acy_common : entries :=
  [(VStr "b", VMap [(VStr "x", VStr "%{alias('c')}")]); (VStr "c", VArr [VInt 7; VStr "%{ v }!"])].
Definition acy_data : list (string * value) :=
  [("/h/data/node.yaml", VMap acy_node); ("/h/data/common.yaml", VMap acy_common)].
Definition acy_w : world := file_world [("/h/hiera.yaml", levels ["node"; "common"])] acy_data.
Definition acy_disk : string -> bool := fun p => match aget p acy_data with Some _ => true | None => false end.
Definition acy_files : list (option entries) := [Some acy_node; Some acy_common].
Definition acy_scope : scope := ScMap [(VStr "v", VStr "V")].
Definition acy_rank (f : reference) : nat :=
  match f with
  | RVar _ => 0
  | RKey r => if String.eqb r "a" then 3 else if String.eqb r "b" then 2 else if String.eqb r "c" then 1 else 0
  end.

Lemma acy_levels : Forall2 (level_is acy_w) (map (level_out acy_disk) ["node"; "common"]) acy_files.
Proof. constructor; [ eapply li_present; reflexivity | ]. constructor; [ eapply li_present; reflexivity | constructor ]. Qed.

Lemma not_occurs c t : existsb (Ascii.eqb c) (list_ascii_of_string t) = false -> ~ occurs c t.
Proof.
  induction t as [|d t IH]; [ intros _ [] | ]. cbn [list_ascii_of_string existsb]. intros H [E|E]; apply orb_false_iff in H as [H1 H2].
  - subst d. rewrite Ascii.eqb_refl in H1. discriminate.
  - exact (IH H2 E).
Qed.

Lemma sound_plain c below t : ~ has "%{" t -> ~ occurs c t -> sound_text c below t.
Proof.
  intros H1 H2. apply (so_text c below [] t); [ | constructor | exact H2 ]. split; [ constructor | ].
  intros (a & b & d & ->). apply H1. exists a, (b ++ "}" ++ d)%string. reflexivity.
Qed.

Lemma asks_by e : method_match e = None -> asks_scope true e e.
Proof. intro H. right. split; [ reflexivity | ]. apply method_match_none. exact H. Qed.

Lemma mgets_cons r k v m x : mgets r ((VStr k, v) :: m) = Some x -> (r = k /\ x = v) \/ mgets r m = Some x.
Proof.
  unfold mgets. cbn [mget veq]. destruct (String.eqb r k) eqn:E; [ | auto ].
  apply String.eqb_eq in E. subst. intro H. injection H as <-. auto.
Qed.
Ltac mgets_cases :=
  repeat match goal with
  | E : mgets _ [] = Some _ |- _ => discriminate E
  | E : mgets _ (_ :: _) = Some _ |- _ => apply mgets_cons in E as [[-> ->]|E]
  end.

Example C19_ranked_ex : ranked "%" acy_rank acy_scope acy_files.
Proof.
  assert (V : forall below : reference -> Prop, below (RVar "v") -> forall e, trim_space e = "v" -> sound_expression "%" below e).
  { intros below Hb e E. apply so_scope with (arg := "v") (x := "v") (ps := []); rewrite ?E.
    - intro H. simpl in H. repeat (destruct H as [H|H]; [ discriminate H | ]). exact H.
    - apply asks_by. reflexivity.
    - apply written_by. reflexivity.
    - exact Hb. }
  assert (K : forall r ps arg (below : reference -> Prop), new_key arg = Ok (mk_key arg (PStr r :: ps)) -> r <> "lookup_options" ->
            new_key r = Ok (mk_key r [PStr r]) -> below (RKey r) -> sound_key below arg).
  { intros r ps arg below H1 H2 H3 H4. exists r, ps. split; [ apply written_by; exact H1 | ]. split; [ exact H2 | ].
    split; [ apply plain_key_by; exact H3 | exact H4 ]. }
  constructor; [ left; reflexivity | | ].
  - intros x v H. unfold acy_scope in H. cbn [scope_get] in H. mgets_cases.
    split; [ reflexivity | ]. intros t I. inversion I; subst. apply sound_plain; [ apply contains_not; reflexivity | apply not_occurs; reflexivity ].
  - intros m r v [E|[E|[]]] H; injection E as <-.
    + unfold acy_node in H. mgets_cases. split; [ reflexivity | ]. intros t I. inversion I; subst.
      apply (so_text "%" _ [("<", "lookup('b.x')"); (" ", "v")] ">"); [ | | apply not_occurs; reflexivity ].
      * split; [ | intros (a & b & d & E); apply (f_equal (contains "%{")) in E; symmetry in E; revert E;
                   rewrite (proj2 (contains_has _ _)) by (exists a, (b ++ "}" ++ d)%string; reflexivity); discriminate ].
        repeat constructor; cbn [fst snd]; apply contains_not; reflexivity.
      * constructor; [ | constructor; [ | constructor ] ]; (split; [ apply not_occurs; reflexivity | ]); cbn [fst snd].
        -- apply so_lookup with (name := "lookup") (arg := "b.x"); [ left; reflexivity | apply ex_calls; reflexivity | ].
           apply (K "b" [PStr "x"]); try reflexivity; [ discriminate | ]. cbn. lia.
        -- apply V; [ cbn; lia | reflexivity ].
    + unfold acy_common in H. mgets_cases; split; try reflexivity; intros t I.
      * inversion I as [| |? k v Hin I'|? k v Hin I']; subst; destruct Hin as [E|[]]; injection E as <- <-; inversion I'; subst.
        -- apply sound_plain; [ apply contains_not; reflexivity | apply not_occurs; reflexivity ].
        -- apply (so_alias "%" _ "alias('c')" "alias" "c"); [ apply contains_not; reflexivity | left; reflexivity | apply ex_calls; reflexivity | ].
           apply (K "c" []); try reflexivity; [ discriminate | ]. cbn. lia.
      * inversion I as [|? x Hin I'| |]; subst. destruct Hin as [<-|[<-|[]]]; inversion I'; subst.
        apply (so_text "%" _ [("", " v ")] "!"); [ | | apply not_occurs; reflexivity ].
        -- split; [ | intros (a & b & d & E); apply (f_equal (contains "%{")) in E; symmetry in E; revert E;
                   rewrite (proj2 (contains_has _ _)) by (exists a, (b ++ "}" ++ d)%string; reflexivity); discriminate ].
           repeat constructor; cbn [fst snd]; apply contains_not; reflexivity.
        -- constructor; [ | constructor ]. split; [ apply not_occurs; reflexivity | ]. cbn [fst snd]. apply V; [ cbn; lia | reflexivity ].
Qed.

Example C19_acyclic_ex :
  (exists o, forall n, fst (run_lookup acy_w (10 + n) (mk_key "a" [PStr "a"]) None (init_st acy_scope None)) = Ok o) /\
  look acy_w 10 [(VStr "v", VStr "V")] "a" None = Ok (Some (VStr "<? V>")) /\
  look acy_w 10 [(VStr "v", VStr "V")] "b" None = Ok (Some (VMap [(VStr "x", VArr [VInt 7; VStr "V!"])])).
Proof.
  split; [ | split; vm_compute; reflexivity ].
  refine (C19_acyclic_ends acy_w acy_disk (fun _ => []) (levels_in ["node"; "common"]) acy_scope
    (map (level_out acy_disk) ["node"; "common"]) acy_files "%" acy_rank (mk_key "a" [PStr "a"]) "a" [] None None SFirst
    _ _ acy_levels _ C19_ranked_ex _ eq_refl _ _ _ si_none).
  - apply file_world_steady. reflexivity.
  - apply levels_resolved; reflexivity.
  - repeat constructor.
  - intros v _. apply not_occurs. reflexivity.
  - discriminate.
  - apply plain_key_by. reflexivity.
  - apply mo_none; discriminate.
Qed.

(** ** C21 *)

(** A key with root lookup_options finds nothing and, but for the explanation,
    changes nothing: no file is read, no function called, no configuration
    resolved. *)
Theorem C21_lookup_options_not_found : forall w n k ps opts s,
  k_parts k = PStr "lookup_options" :: ps -> x_nil (s_ex s) = false ->
  exists x, run_lookup w (S n) k opts s = (Ok None, with_ex x s) /\ (iv_expl (s_iv s) = false -> x = s_ex s).
Proof.
  intros w n k ps opts s Hk Hx.
  assert (E : exists x, lookup w (run w n) k opts s = (Ok None, with_ex x s) /\ (iv_expl (s_iv s) = false -> x = s_ex s)).
  { unfold lookup. unfold bind at 1, lift, root. rewrite Hk. cbn [String.eqb Ascii.eqb Bool.eqb].
    unfold run_scoped, run_op, bind, ret. destruct (iv_expl (s_iv s)) eqn:E.
    - unfold xpush. rewrite Hx. cbn [s_iv with_ex]. rewrite E. unfold xaccept. cbn [s_ex with_ex x_nil x_open x_options x_only x_root].
      destruct s as [i ex cf sh tp md pr nx tr]. eexists. split; [ reflexivity | discriminate ].
    - exists (s_ex s). split; [ destruct s; reflexivity | reflexivity ]. }
  destruct E as (x & E & Hn). exists x. split; [ | exact Hn ].
  change (run_lookup w (S n) k opts) with (bind (bind (lookup w (run w n) k opts) (fun v => ret (v, true))) (fun r => ret (fst r))).
  unfold bind. rewrite E. reflexivity.
Qed.
Print Assumptions C21_lookup_options_not_found.

Definition lo_w : world :=
  file_world [("/h/hiera.yaml", levels ["common"])]
             [("/h/data/common.yaml", vmap [("lookup_options", vmap [("a", vmap [("merge", VStr "deep")])]); ("a", VInt 1)])].

Example C21_not_found_ex : exists x,
  run_lookup lo_w 5 (mk_key "lookup_options.a" [PStr "lookup_options"; PStr "a"]) None
    (init_st (ScMap []) (Some (new_explainer true false)))
  = (Ok None, with_ex x (init_st (ScMap []) (Some (new_explainer true false)))).
Proof.
  edestruct (C21_lookup_options_not_found lo_w 4 (mk_key "lookup_options.a" [PStr "lookup_options"; PStr "a"]) [PStr "a"] None
           (init_st (ScMap []) (Some (new_explainer true false)))) as (x & E & _); [ reflexivity | reflexivity | eauto ].
Qed.

(** But a quoted root is parsed again, and gives the hash. *)
Theorem C21_hidden_refuted : exists w k hash,
  new_key "'lookup_options.x'" = Ok k /\ k_parts k = [PStr "lookup_options.x"] /\
  look w 9 [] "'lookup_options.x'" None = Ok (Some hash) /\
  w_yaml w [] "/h/data/common.yaml" = DfValue (vmap [("lookup_options", hash); ("a", VInt 1)]).
Proof.
  exists lo_w. eexists _, (vmap [("a", vmap [("merge", VStr "deep")])]). vm_compute. repeat split; reflexivity.
Qed.
Print Assumptions C21_hidden_refuted.

(** ** C22 *)

(** The statement is false: the root of a key is parsed again as a key, so that
    dots in a quoted root count after all, and a quoted number is refused. *)
Definition quote_data : list (string * value) :=
  [("/h/data/common.yaml", vmap [("a.b", VInt 1); ("a", vmap [("b", VInt 2); ("c", VInt 3)]); ("1", VInt 4)])].
Definition quote_w : world := file_world [("/h/hiera.yaml", levels ["common"])] quote_data.
Definition quote_disk : string -> bool := fun p => match aget p quote_data with Some _ => true | None => false end.

Theorem C22_quoted_root_refuted : exists w k,
  new_key "'a.b'" = Ok k /\ k_parts k = [PStr "a.b"] /\
  w_yaml w [] "/h/data/common.yaml"
  = DfValue (vmap [("a.b", VInt 1); ("a", vmap [("b", VInt 2); ("c", VInt 3)]); ("1", VInt 4)]) /\
  look w 9 [] "'a.b'" None = Ok (Some (vmap [("b", VInt 2); ("c", VInt 3)])).
Proof. exists quote_w. eexists. vm_compute. repeat split; reflexivity. Qed.
Print Assumptions C22_quoted_root_refuted.

(** What holds: a quoted text that would be one segment without the quotes too
    selects what the files have under exactly that text.  Missing: texts with
    dots, quotes, or leading numbers. *)
Theorem C22_quoted_root_partial : forall w on_disk matching c sc es files q r k N,
  steady w on_disk matching c -> hierarchy_is w on_disk matching sc c es ->
  seg_ok [Quoted q r] -> new_key (show_key [[Quoted q r]]) = Ok k ->
  r <> "lookup_options" -> plain_key r ->
  Forall2 (level_is w) es files ->
  Forall (fun f => under "lookup_options" f = None) files ->
  Forall (fun f => forall v, under r f = Some v -> wf v = true /\ settled v) files ->
  fst (run_lookup w (4 + N) k None (init_st sc None)) = Ok (pure_lookup SFirst (map (under r) files)).
Proof.
  intros w od mt c sc es files q r k N Hw Hh Hok Hk Hr Hp Hf Ho Hs.
  pose proof (C03_quoted_literal_partial [[Quoted q r]] 0 q r k (Forall_cons _ Hok (Forall_nil _)) eq_refl Hk (or_introl eq_refl)) as P0.
  pose proof (proj1 (new_key_written _ _) Hk) as (parts & -> & segs & Hok' & Hs' & Hkp & _).
  assert (segs = [[Quoted q r]]) as ->.
  { symmetry. apply C01_grammar_unambiguous; auto; [ discriminate | intros ->; inversion Hkp ]. }
  assert (parts = [PStr r]) as ->.
  { cbn [k_parts] in P0. clear - P0 Hkp.
    inversion Hkp as [|? ? ? ?|? ? ? ? ? H]; subst; [ exact (f_equal (fun o => match o with Some p => [p] | None => [] end) P0) | | inversion H ].
    exact (f_equal (fun o => match o with Some p => [p] | None => [] end) P0). }
  apply (C23_settled_files w od mt c sc es files _ r [] None None SFirst) with (N := N); try assumption.
  - reflexivity.
  - apply mo_none; discriminate.
  - apply si_none.
  - match goal with |- digs ?ps ?v _ => destruct v; [ apply digs_path; constructor | constructor ] end.
Qed.
Print Assumptions C22_quoted_root_partial.

(** What it does instead, for every root: the root is read as a key once more and
    the files are asked for the first part of that key, of which the other parts
    are not looked at; the rest of the key that was asked for is followed from
    there.  When the root cannot be read as a key the lookup fails. *)
Theorem C22_root_read_again : forall w on_disk matching c sc es files k r ps N,
  steady w on_disk matching c -> hierarchy_is w on_disk matching sc c es ->
  k_parts k = PStr r :: ps -> r <> "lookup_options" ->
  Forall2 (level_is w) es files ->
  Forall (fun f => under "lookup_options" f = None) files ->
  (forall x others o, written_key r (PStr x :: others) ->
     Forall (fun f => forall v, under x f = Some v -> wf v = true /\ settled v) files ->
     digs ps (pure_lookup SFirst (map (under x) files)) o ->
     fst (run_lookup w (4 + N) k None (init_st sc None)) = Ok o) /\
  (forall e, misspelt r e -> fst (run_lookup w (4 + N) k None (init_st sc None)) = Panic e).
Proof.
  intros w od mt c sc es files k r ps N Hw Hh Hk Hr Hf Ho. split.
  - intros x others o Hx Hs Hd.
    refine (one_lookup w od mt c sc es 1 k None o N Hw Hh _).
    refine (settled_root w sc es files k r x ps None None SFirst o Hk Hr (ex_intro _ others Hx) Hf Ho Hs _ _ Hd); [ apply mo_none; discriminate | apply si_none ].
  - intros e He.
    pose proof (levels_no_options w sc es files 1 Hf Ho) as Ha. destruct Hw as [H1 H2 H3 (file & H4 & H5)].
    destruct (root_breaks w 1 (S N) ltac:(lia) sc c file H4 H5 H3 es k None r ps _ e (init_st sc None)
                eq_refl eq_refl (or_introl eq_refl) (hierarchy_created w od mt sc c es (S N) H1 H2 Hh) Hk Hr Ha He) as (s' & E & _).
    change (run_lookup w (4 + N) k None) with (bind (bind (lookup w (run w (S (S (S N)))) k None) (fun v => ret (v, true))) (fun r => ret (fst r))).
    unfold bind. rewrite E. reflexivity.
Qed.
Print Assumptions C22_root_read_again.

(** The quoted name of a key that has a map. *)
Definition quote_files : list (option entries) :=
  [Some [(VStr "a.b", VInt 1); (VStr "a", vmap [("b", VInt 2); ("c", VInt 3)]); (VStr "1", VInt 4)]].

Example C22_quoted_ex : forall N,
  fst (run_lookup quote_w (4 + N) (mk_key "'a'" [PStr "a"]) None (init_st (ScMap []) None))
  = Ok (Some (vmap [("b", VInt 2); ("c", VInt 3)])).
Proof.
  intro N.
  apply (C22_quoted_root_partial quote_w quote_disk (fun _ => []) (levels_in ["common"]) (ScMap [])
           (map (level_out quote_disk) ["common"]) quote_files "'"%char "a").
  - apply file_world_steady. reflexivity.
  - apply levels_resolved; reflexivity.
  - repeat constructor; simpl; unfold is_quote; try (left; reflexivity); intuition discriminate.
  - reflexivity.
  - discriminate.
  - apply plain_key_by. reflexivity.
  - constructor; [ eapply li_present; reflexivity | constructor ].
  - repeat constructor.
  - constructor; [ | constructor ]. intros v E. vm_compute in E. injection E as <-.
    split; [ reflexivity | apply settled_by; reflexivity ].
Qed.

(** A quoted root with a dot, and a quoted number. *)
Example C22_read_again_ex : forall N,
  fst (run_lookup quote_w (4 + N) (mk_key "'a.b'.c" [PStr "a.b"; PStr "c"]) None (init_st (ScMap []) None)) = Ok (Some (VInt 3)) /\
  fst (run_lookup quote_w (4 + N) (mk_key "'1'" [PStr "1"]) None (init_st (ScMap []) None))
  = Panic (EErr "key '1' first segment cannot be an index").
Proof.
  assert (L : Forall2 (level_is quote_w) (map (level_out quote_disk) ["common"]) quote_files)
    by (constructor; [ eapply li_present; reflexivity | constructor ]).
  assert (Ho : Forall (fun f => under "lookup_options" f = None) quote_files) by repeat constructor.
  assert (St : steady quote_w quote_disk (fun _ => []) (levels_in ["common"])) by (apply file_world_steady; reflexivity).
  assert (Hh : hierarchy_is quote_w quote_disk (fun _ => []) (ScMap []) (levels_in ["common"]) (map (level_out quote_disk) ["common"]))
    by (apply levels_resolved; reflexivity).
  intro N. split.
  - apply (proj1 (C22_root_read_again quote_w quote_disk (fun _ => []) (levels_in ["common"]) (ScMap []) _ quote_files
             (mk_key "'a.b'.c" [PStr "a.b"; PStr "c"]) "a.b" [PStr "c"] N St Hh eq_refl ltac:(discriminate) L Ho)) with (x := "a") (others := [PStr "b"]).
    + apply written_by. reflexivity.
    + constructor; [ | constructor ]. intros v E. vm_compute in E. injection E as <-.
      split; [ reflexivity | apply settled_by; reflexivity ].
    + match goal with |- digs ?ps ?v _ => exact (digs_by ps v) end.
  - apply (proj2 (C22_root_read_again quote_w quote_disk (fun _ => []) (levels_in ["common"]) (ScMap []) _ quote_files
             (mk_key "'1'" [PStr "1"]) "1" [] N St Hh eq_refl ltac:(discriminate) L Ho)).
    apply new_key_refused. reflexivity.
Qed.

(** ** C27 *)

(** The statement is false: a nested lookup uses the merge strategy of the outer
    key and is not converted. *)
Definition nest_w : world :=
  file_world [("/h/hiera.yaml", levels ["node"; "common"])]
    [("/h/data/node.yaml", vmap [("k", VArr [VInt 1]); ("a", VStr "%{alias('k')}")]);
     ("/h/data/common.yaml",
      vmap [("lookup_options", vmap [("k", vmap [("merge", VStr "unique")]); ("s", vmap [("convert_to", VStr "sensitive")])]);
            ("k", VArr [VInt 2]); ("s", VStr "secret"); ("b", VStr "%{alias('s')}")])].

Theorem C27_nested_same_refuted : exists w,
  look w 9 [] "k" None = Ok (Some (VArr [VInt 1; VInt 2])) /\
  look w 9 [] "a" None = Ok (Some (VArr [VInt 1])) /\
  look w 9 [] "s" None = Ok (Some (VSens (VStr "secret"))) /\
  look w 9 [] "b" None = Ok (Some (VStr "secret")).
Proof. exists nest_w. vm_compute. repeat split; reflexivity. Qed.
Print Assumptions C27_nested_same_refuted.

(** What holds: without lookup options and with the default strategy, an alias
    gives what the key gives when it is looked up, to any depth of nesting, if
    that has no expressions left.  Missing: keys with lookup options of their
    own, and lookups with another strategy. *)
Theorem C27_nested_same_partial : forall w on_disk matching c sc es files a pre e post m x arg k n v N,
  steady w on_disk matching c -> hierarchy_is w on_disk matching sc c es ->
  Forall2 (level_is w) es files ->
  Forall (fun f => under "lookup_options" f = None) files ->
  (* the first level that has key a has an alias to k under it *)
  a <> "lookup_options" -> plain_key a ->
  es = pre ++ e :: post ->
  Forall (fun e => exists f, level_is w e f /\ under a f = None) pre ->
  level_is w e (Some m) -> mgets a m = Some (VStr ("%{" ++ x ++ "}")) ->
  ~ has "}" x -> calls (trim_space x) "alias" arg -> written_key arg (k_parts k) ->
  (* the lookup of k gives v *)
  lookup_gives w sc es n k None (Some v) -> wf v = true -> settled v ->
  fst (run_lookup w (3 + n + N) k None (init_st sc None)) = Ok (Some v) /\
  fst (run_lookup w (6 + n + N) (mk_key a [PStr a]) None (init_st sc None)) = Ok (Some v).
Proof.
  intros w od mt c sc es files a pre e post m x arg k n v N Hw Hh Hf Ho Ha Hpa Hes Hpre He Hm Hx Hc Hk L Wf St.
  split; [ exact (one_lookup w od mt c sc es n k None (Some v) N Hw Hh L) | ].
  assert (Q : quiet v) by (split; assumption).
  assert (All : forall n', hierarchy_gives w sc (value_is (fun t => answers w sc es None n' (QStr t))) "lookup_options" (SDeep []) es None).
  { intro n'. rewrite <- (no_options_pure files Ho). exact (levels_no_options w sc es files n' Hf Ho). }
  destruct L as (r & ps & all & lo & mo & s & cv & v0 & x0 & Hr & Hrl & Hrp & Hall & Hlo & Hmo & Hs & Hcv & Hv0 & Hx0 & Hy).
  (* without lookup options there is no conversion, and the strategy is first *)
  assert (all = None) as ->.
  { clear - Hall Hf Ho. unfold hierarchy_gives in Hall. inversion Hall as [| |s' l' outs Hne H2]; subst.
    assert (E : outs = map (under "lookup_options") files).
    { clear Hall Hne. generalize dependent outs.
      generalize (value_is (fun t => answers w sc es None n (QStr t))). intro vi.
      induction Hf as [|e f es files H1 Hf IH]; intros outs H2; inversion H2 as [|? o ? outs' H3 H4]; subst; [ reflexivity | ].
      inversion Ho as [|? ? Hu Ho']; subst. cbn [map]. rewrite Hu, (level_only_none w sc vi "lookup_options" (SDeep []) e f o options_key_plain H1 Hu H3).
      f_equal. exact (IH Ho' outs' H4). }
    rewrite E. apply no_options_pure. exact Ho. }
  assert (lo = None) as -> by (destruct Hlo as (x1 & _ & Hlo); inversion Hlo; try discriminate; reflexivity).
  assert (mo = None) as -> by (inversion Hmo; try discriminate; reflexivity).
  assert (s = SFirst) as -> by (inversion Hs; reflexivity).
  assert (cv = None) as -> by (inversion Hcv; try discriminate; reflexivity).
  inversion Hx0; subst x0. clear Hx0.
  (* the nested lookup *)
  assert (Nest : answers w sc es (Some SFirst) (S n) (QKey (mk_key arg (k_parts k))) (Some v)).
  { right. exists SFirst, r, ps, v0. split; [ reflexivity | ]. split; [ exact Hr | ]. split; [ exact Hrl | ]. split; [ exact Hrp | ].
    split; [ exact Hv0 | ]. destruct v0 as [v0|]; [ | discriminate ]. destruct Hy as (y & Hy & Hd). exists y. split; [ | exact Hd ].
    eapply value_is_more; [ | exact Hy ]. intros t' o'. apply answers_any_strategy. }
  refine (one_lookup w od mt c sc es (3 + n) (mk_key a [PStr a]) None (Some v) N Hw Hh _).
  exists a, [], None, None, None, SFirst, None, (Some v), (Some v).
  split; [ reflexivity | ]. split; [ exact Ha | ]. split; [ exact (plain_correct a Hpa) | ]. split; [ apply All | ].
  split; [ apply plain_options; [ first [ assumption | apply plain_key_by; reflexivity ] | apply of_none; discriminate ] | ]. split; [ apply mo_none; discriminate | ]. split; [ apply si_none | ].
  split; [ apply ci_none; discriminate | ]. split; [ | split; [ apply cv_no_conversion | ] ].
  - subst es. apply pk_first.
    + eapply Forall_impl; [ | exact Hpre ]. intros e' (f & H1 & H2). exact (level_none w sc _ a SFirst e' f Hpa H1 H2).
    + apply (level_value w sc _ a SFirst e (Some m) (VStr ("%{" ++ x ++ "}"))); [ exact Hpa | exact He | exact Hm | ].
      apply vi_str.
      apply (wi_alias w sc (fun t => answers w sc (pre ++ e :: post) (Some SFirst) (2 + n) (QStr t))
               (fun k => answers w sc (pre ++ e :: post) (Some SFirst) (2 + n) (QKey k)) x arg (k_parts k) (Some v) Hx Hc Hk).
      apply answers_step. exact Nest.
  - exists (Some v). split; [ | exact (digs_by [] (Some v)) ]. exact (quiet_answers w sc es None (2 + n) v Q).
Qed.
Print Assumptions C27_nested_same_partial.

(** In the two files of [ex_w2], a is an alias of b, which has a variable and a
    nested lookup in its text. *)
Example C27_nested_ex : forall N,
  fst (run_lookup ex_w2 (8 + N) (mk_key "b" [PStr "b"]) None (init_st ex_sc None)) = Ok (Some (VStr "<V-7>")) /\
  fst (run_lookup ex_w2 (11 + N) (mk_key "a" [PStr "a"]) None (init_st ex_sc None)) = Ok (Some (VStr "<V-7>")).
Proof.
  intro N.
  apply (C27_nested_same_partial ex_w2 ex_disk (fun _ => []) (levels_in ["node"; "common"]) ex_sc ex_es [ex_node; ex_common] "a"
           [] (level_out ex_disk "node") [level_out ex_disk "common"] [(VStr "a", VStr "%{alias('b')}")] "alias('b')" "b"
           (mk_key "b" [PStr "b"]) 5 (VStr "<V-7>") N).
  - exact (file_world_steady ["node"; "common"] ex_refs eq_refl).
  - apply levels_resolved; reflexivity.
  - constructor; [ exact ex_level_node | constructor; [ exact ex_level_common | constructor ] ].
  - repeat constructor.
  - discriminate.
  - apply plain_key_by. reflexivity.
  - reflexivity.
  - constructor.
  - exact ex_level_node.
  - reflexivity.
  - now apply contains_not.
  - apply ex_calls. reflexivity.
  - apply written_by. reflexivity.
  - exists "b", [], None, None, None, SFirst, None, (Some (VStr "<V-7>")), (Some (VStr "<V-7>")).
    split; [ reflexivity | ]. split; [ discriminate | ]. split; [ apply plain_correct; apply plain_key_by; reflexivity | ].
    split; [ apply (pk_merge _ (SDeep []) _ [None; None]); [ discriminate | ] | ].
    { constructor; [ eapply level_none; [ apply plain_key_by; reflexivity | exact ex_level_node | reflexivity ] | ].
      constructor; [ eapply level_none; [ apply plain_key_by; reflexivity | exact ex_level_common | reflexivity ] | constructor ]. }
    split; [ apply plain_options; [ first [ assumption | apply plain_key_by; reflexivity ] | apply of_none; discriminate ] | ]. split; [ apply mo_none; discriminate | ]. split; [ apply si_none | ].
    split; [ apply ci_none; discriminate | ]. split; [ | split; [ apply cv_no_conversion | ] ].
    + exact (ex_second ex_sc _ "b" (VStr "<%{v}-%{lookup('c')}>") (VStr "<V-7>") (plain_key_by "b" eq_refl) eq_refl eq_refl (vi_str _ _ _ (ex_b_text 2))).
    + exists (Some (VStr "<V-7>")). split; [ refine (quiet_answers _ _ _ _ 4 _ _); apply ex_quiet_text; reflexivity | exact (digs_by [] (Some (VStr "<V-7>"))) ].
  - reflexivity.
  - apply settled_by. reflexivity.
Qed.

(** ** C32 *)

(** The statement is false, for every configuration: when no level of the
    hierarchy has the key nothing is found, whatever the default hierarchy
    has. *)
Definition default_cfg : value :=
  vmap [("version", VInt 5);
        ("hierarchy", VArr [vmap [("name", VStr "common"); ("path", VStr "common.yaml")]]);
        ("default_hierarchy", VArr [vmap [("name", VStr "dflt"); ("path", VStr "dflt.yaml")]])].
Definition default_w : world :=
  file_world [("/h/hiera.yaml", default_cfg)]
    [("/h/data/common.yaml", vmap [("b", VInt 1)]); ("/h/data/dflt.yaml", vmap [("a", VInt 2)])].

Theorem C32_default_hierarchy_refuted : exists w c,
  config_new (w_env w) (w_cfgpath w) (w_config w [] (w_cfgpath w)) = Ok c /\
  (exists e, c_default_hierarchy c = [e] /\ e_locations e = Some [LPath "dflt.yaml" "" false]) /\
  w_yaml w [] "/h/data/dflt.yaml" = DfValue (vmap [("a", VInt 2)]) /\
  look w 9 [] "b" None = Ok (Some (VInt 1)) /\
  look w 9 [] "a" None = Ok None.
Proof.
  exists default_w. eexists. split; [ vm_compute; reflexivity | ]. split.
  { eexists. split; reflexivity. }
  vm_compute. repeat split; reflexivity.
Qed.
Print Assumptions C32_default_hierarchy_refuted.

(** In general: what the levels of the hierarchy have not is not found, whatever
    [c_default_hierarchy c] is. *)
Theorem C32_default_hierarchy_never_used : forall w on_disk matching c sc es files k r ps opts mo s N,
  steady w on_disk matching c -> hierarchy_is w on_disk matching sc c es ->
  k_parts k = PStr r :: ps -> r <> "lookup_options" -> plain_key r ->
  Forall2 (level_is w) es files ->
  Forall (fun f => under "lookup_options" f = None) files ->
  merge_option opts None mo -> strategy_is mo s ->
  Forall (fun f => under r f = None) files ->
  fst (run_lookup w (4 + N) k opts (init_st sc None)) = Ok None.
Proof.
  intros w od mt c sc es files k r ps opts mo s N Hw Hh Hk Hr Hp Hf Ho Hm Hs Hn.
  assert (E : pure_lookup s (map (under r) files) = None).
  { assert (N0 : found (map (under r) files) = []).
    { clear - Hn. induction Hn as [|l ls H Hn IH]; [ reflexivity | ]. simpl. rewrite H. exact IH. }
    destruct s; cbn [pure_lookup].
    - clear - Hn. induction Hn as [|l ls H Hn IH]; [ reflexivity | ]. simpl. rewrite H. exact IH.
    - destruct files as [|f [|f2 fs]]; [ reflexivity | | ].
      + inversion Hn as [|? ? H _]; subst. simpl. rewrite H. reflexivity.
      + change (merge_fold SUnique (found (map (under r) (f :: f2 :: fs))) = None). rewrite N0. reflexivity.
    - destruct files as [|f [|f2 fs]]; [ reflexivity | | ].
      + inversion Hn as [|? ? H _]; subst. simpl. rewrite H. reflexivity.
      + change (merge_fold SHash (found (map (under r) (f :: f2 :: fs))) = None). rewrite N0. reflexivity.
    - destruct files as [|f [|f2 fs]]; [ reflexivity | | ].
      + inversion Hn as [|? ? H _]; subst. simpl. rewrite H. reflexivity.
      + change (merge_fold (SDeep opts0) (found (map (under r) (f :: f2 :: fs))) = None). rewrite N0. reflexivity. }
  apply (C23_settled_files w od mt c sc es files k r ps opts mo s None N Hw Hh Hk Hr Hp Hf Ho); [ | exact Hm | exact Hs | ].
  - eapply Forall_impl; [ | exact Hn ]. intros f H v E'. simpl in H. congruence.
  - rewrite E. constructor.
Qed.
Print Assumptions C32_default_hierarchy_never_used.

(** The default hierarchy of [default_w] has the key. *)
Example C32_never_used_ex : forall N,
  c_default_hierarchy (levels_with ["common"] ["dflt"]) = [level_in "dflt"] /\
  fst (run_lookup default_w (4 + N) (mk_key "a" [PStr "a"]) (Some [(VStr "merge", VStr "hash")]) (init_st (ScMap []) None)) = Ok None.
Proof.
  intro N. split; [ reflexivity | ]. set (od := fun p => w_stat default_w [] p).
  eapply C32_default_hierarchy_never_used with
    (on_disk := od) (matching := fun _ => []) (c := levels_with ["common"] ["dflt"])
    (sc := ScMap []) (es := map (level_out od) ["common"])
    (files := [Some [(VStr "b", VInt 1)]])
    (mo := Some (VStr "hash")) (s := SHash).
  - constructor; try reflexivity. exists (CfYaml default_cfg). split; [ reflexivity | vm_compute; reflexivity ].
  - apply levels_with_resolved; reflexivity.
  - reflexivity.
  - discriminate.
  - apply plain_key_by. reflexivity.
  - constructor; [ eapply li_present; reflexivity | constructor ].
  - repeat constructor.
  - eapply mo_explicit; reflexivity.
  - apply si_name. constructor.
  - repeat constructor.
Qed.
