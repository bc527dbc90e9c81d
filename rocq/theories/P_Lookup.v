(** Property C23: what a lookup gives. *)

From Coq Require Import String Ascii List ZArith Bool Arith Lia.
From Verif Require Import Str Value Outcome Key Merge Fpath Config Ipl Explain State Engine Session Worlds
  SpecKey SpecIpl SpecInterp SpecConfig SpecMerge SpecLookup SpecExplain Transparent
  KeyFacts ValueFacts MergeLookup StrFacts IplFacts InterpFacts IplExact Fuel ResolveFacts LookupTop SettledLookup ExLevels RootFacts.
Import ListNotations.
Open Scope nat_scope.
Open Scope string_scope.
Open Scope list_scope.

(** A world whose files stay as they are, with a configuration that can be read:
    the default provider, in a session with the configuration at its path. *)
Record steady (w : world) (on_disk : string -> bool) (matching : string -> list string) (c : config) : Prop := mk_steady {
  st_stat : forall t p, w_stat w t p = on_disk p;
  st_glob : forall t p, w_glob w t p = matching p;
  st_top : w_top w = LkConfig;
  st_config : exists file, (forall t, w_config w t (w_cfgpath w) = file) /\
                           config_new (w_env w) (w_cfgpath w) file = Ok c
}.

(** The answer to one request, in its own scope. *)
Definition answer (w : world) (on_disk : string -> bool) (matching : string -> list string) (c : config) (n : nat)
           (r : request) (o : option value) : Prop :=
  exists es, hierarchy_is w on_disk matching (q_scope r) c es /\
             lookup_gives w (q_scope r) es n (q_key r) (q_opts r) o.

(** ** C23 *)

Lemma serve_run w od mt c n N : steady w od mt c -> n <= S (S N) ->
  forall rs os, Forall2 (answer w od mt c n) rs os ->
  forall s, aget (w_cfgpath w) (s_shared s) = None \/ aget (w_cfgpath w) (s_shared s) = Some (ShLoaded c) ->
  fst (serve w (S (S (S N))) false rs s) = map Ok os.
Proof.
  intros [H1 H2 H3 (file & H4 & H5)] HN rs os H. induction H as [|r o rs os (es & Hh & Hl) H IH]; intros s Hs; [ reflexivity | ].
  destruct (lookup_run w n N HN (q_scope r) c file H4 H5 H3 es (q_key r) (q_opts r) o
              (invocation (q_scope r) false s) eq_refl eq_refl Hs (hierarchy_created w od mt _ c es N H1 H2 Hh) Hl) as (s' & E & Hs').
  assert (R : run_lookup w (S (S (S N))) (q_key r) (q_opts r) (invocation (q_scope r) false s) = (Ok o, s')).
  { change (run_lookup w (S (S (S N))) (q_key r) (q_opts r))
      with (bind (bind (lookup w (run w (S (S N))) (q_key r) (q_opts r)) (fun v => ret (v, true))) (fun r => ret (fst r))).
    unfold bind. rewrite E. reflexivity. }
  cbn [serve]. rewrite R.
  specialize (IH s' Hs').
  destruct (serve w (S (S (S N))) false rs s') as [os' s2]. simpl in *. congruence.
Qed.

(** Any number of lookups in one session, in any scopes, with interpolation and
    nested lookups, explained or not: each gives what the stateless description
    says, whatever was asked before and with any fuel that is enough. *)
Theorem C23_every_lookup_in_a_session : forall w on_disk matching c n N rs os,
  steady w on_disk matching c -> n + 1 <= N ->
  Forall2 (answer w on_disk matching c n) rs os ->
  (forall sc, fst (serve w (2 + N) false rs (init_st sc None)) = map Ok os) /\
  (forall sc options only,
     fst (serve w (2 + N) true rs (init_st sc (Some (new_explainer options only)))) = map Ok os).
Proof.
  intros w od mt c n N rs os Hw HN H.
  assert (E : forall sc, fst (serve w (2 + N) false rs (init_st sc None)) = map Ok os).
  { intro sc. destruct N as [|N]; [ lia | ]. apply (serve_run w od mt c n N Hw); [ lia | exact H | left; reflexivity ]. }
  split; [ exact E | ]. intros sc options only. rewrite <- (E sc).
  exact (proj1 (sim_serve w (2 + N) rs (init_st sc (Some (new_explainer options only))) (init_st sc None) eq_refl eq_refl)).
Qed.
Print Assumptions C23_every_lookup_in_a_session.

(** Without expressions: the strategy over the values under the root of the key
    in the files that exist, in the order of the hierarchy, and then the rest of
    the key. *)
Theorem C23_settled_files : forall w on_disk matching c sc es files k r ps opts mo s o N,
  steady w on_disk matching c -> hierarchy_is w on_disk matching sc c es ->
  k_parts k = PStr r :: ps -> r <> "lookup_options" -> plain_key r ->
  Forall2 (level_is w) es files ->
  Forall (fun f => under "lookup_options" f = None) files ->
  Forall (fun f => forall v, under r f = Some v -> wf v = true /\ settled v) files ->
  merge_option opts None mo -> strategy_is mo s ->
  digs ps (pure_lookup s (map (under r) files)) o ->
  fst (run_lookup w (4 + N) k opts (init_st sc None)) = Ok o.
Proof.
  intros w od mt c sc es files k r ps opts mo s o N Hw Hh Hk Hr Hp Hf Ho Hq Hm Hs Hd.
  pose proof (settled_lookup w sc es files k r ps opts mo s o Hk Hr Hp Hf Ho Hq Hm Hs Hd) as L.
  destruct (C23_every_lookup_in_a_session w od mt c 1 (2 + N) [mk_request sc k opts] [o] Hw) as [E _]; [ lia | | ].
  { constructor; [ | constructor ]. exists es. split; assumption. }
  specialize (E sc). unfold serve in E.
  change (invocation (q_scope (mk_request sc k opts)) false (init_st sc None)) with (init_st sc None) in E.
  cbn [q_key q_opts] in E. change (2 + (2 + N)) with (4 + N) in E.
  destruct (run_lookup w (4 + N) k opts (init_st sc None)) as [x s1]. simpl in E. injection E as ->. reflexivity.
Qed.
Print Assumptions C23_settled_files.

Lemma file_world_steady ns data : config_new [] "/h/hiera.yaml" (CfYaml (levels ns)) = Ok (levels_in ns) ->
  steady (file_world [("/h/hiera.yaml", levels ns)] data)
         (fun p => match aget p data with Some _ => true | None => false end) (fun _ => []) (levels_in ns).
Proof. intro H. constructor; try reflexivity. exists (CfYaml (levels ns)). split; [ reflexivity | exact H ]. Qed.

(** Three levels, the second without a file; the deep merge of two hashes and a
    path into it. *)
Definition ex_files : list (string * value) :=
  [("/h/data/node.yaml", vmap [("a", vmap [("x", VArr [VInt 1])])]);
   ("/h/data/common.yaml", vmap [("a", vmap [("x", VArr [VInt 2]); ("y", VInt 3)]); ("b", VInt 4)])].
Definition ex_w : world := file_world [("/h/hiera.yaml", levels ["node"; "missing"; "common"])] ex_files.

Example C23_files_ex : forall N,
  fst (run_lookup ex_w (4 + N) (mk_key "a.x.1" [PStr "a"; PStr "x"; PInt 1]) (Some [(VStr "merge", VStr "deep")])
         (init_st (ScMap []) None)) = Ok (Some (VInt 2)).
Proof.
  intro N. eapply C23_settled_files with
    (sc := ScMap []) (es := map (level_out (fun p => match aget p ex_files with Some _ => true | None => false end)) ["node"; "missing"; "common"])
    (files := [Some [(VStr "a", vmap [("x", VArr [VInt 1])])]; None;
               Some [(VStr "a", vmap [("x", VArr [VInt 2]); ("y", VInt 3)]); (VStr "b", VInt 4)]])
    (mo := Some (VStr "deep")) (s := SDeep []).
  - apply file_world_steady. reflexivity.
  - apply levels_resolved; reflexivity.
  - reflexivity.
  - discriminate.
  - apply plain_key_by. reflexivity.
  - constructor; [ eapply li_present; reflexivity | ]. constructor; [ eapply li_absent; [ reflexivity | intro NT; discriminate NT ] | ].
    constructor; [ eapply li_present; reflexivity | constructor ].
  - repeat (constructor; [ reflexivity | ]). constructor.
  - repeat (apply Forall_cons; [ intros v E; vm_compute in E; first [ discriminate E
              | injection E as <-; split; [ reflexivity | apply settled_by; reflexivity ] ] | ]). apply Forall_nil.
  - eapply mo_explicit; reflexivity.
  - apply si_name. constructor.
  - match goal with |- digs ?ps ?v _ => exact (digs_by ps v) end.
Qed.

(** Two lookups in one session, in different scopes: an alias to another key,
    which has a variable and a nested lookup in its text, and a key that is not
    there. *)
Definition ex_refs : list (string * value) :=
  [("/h/data/node.yaml", vmap [("a", VStr "%{alias('b')}")]);
   ("/h/data/common.yaml", vmap [("b", VStr "<%{v}-%{lookup('c')}>"); ("c", VStr "7")])].
Definition ex_w2 : world := file_world [("/h/hiera.yaml", levels ["node"; "common"])] ex_refs.
Definition ex_disk : string -> bool := fun p => match aget p ex_refs with Some _ => true | None => false end.
Definition ex_es : list entry := map (level_out ex_disk) ["node"; "common"].
Definition ex_node : option entries := Some [(VStr "a", VStr "%{alias('b')}")].
Definition ex_common : option entries := Some [(VStr "b", VStr "<%{v}-%{lookup('c')}>"); (VStr "c", VStr "7")].

Lemma ex_level_node : level_is ex_w2 (level_out ex_disk "node") ex_node.
Proof. eapply li_present; reflexivity. Qed.
Lemma ex_level_common : level_is ex_w2 (level_out ex_disk "common") ex_common.
Proof. eapply li_present; reflexivity. Qed.

(** A key of the second level only, with first. *)
Lemma ex_second sc (vi : value -> option value -> Prop) r v o : plain_key r -> under r ex_node = None -> under r ex_common = Some v ->
  vi v (Some o) -> hierarchy_gives ex_w2 sc vi r SFirst ex_es (Some o).
Proof.
  intros Hp H1 H2 Hv. apply (pk_first _ [level_out ex_disk "node"] (level_out ex_disk "common") []).
  - constructor; [ | constructor ]. exact (level_none _ _ _ _ _ _ _ Hp ex_level_node H1).
  - exact (level_value _ _ _ _ _ _ _ _ _ Hp ex_level_common H2 Hv).
Qed.

Lemma ex_calls e name arg : method_match e = Some (name, arg) -> calls e name arg.
Proof. apply method_match_spec. Qed.

Lemma ex_quiet_text t : contains "%{" t = false -> quiet (VStr t).
Proof. intro H. split; [ reflexivity | ]. apply settled_by. simpl. rewrite H. reflexivity. Qed.

Definition ex_sc : scope := ScMap [(VStr "v", VStr "V")].

Lemma ex_c n : answers ex_w2 ex_sc ex_es (Some SFirst) (S (S n)) (QKey (mk_key "c" [PStr "c"])) (Some (VStr "7")).
Proof.
  right. exists SFirst, "c", [], (Some (VStr "7")).
  split; [ reflexivity | ]. split; [ reflexivity | ]. split; [ discriminate | ]. split; [ apply plain_correct; apply plain_key_by; reflexivity | ].
  assert (Q : value_is (fun t => answers ex_w2 ex_sc ex_es (Some SFirst) (S n) (QStr t)) (VStr "7") (Some (VStr "7")))
    by (apply quiet_answers; apply ex_quiet_text; reflexivity).
  split; [ exact (ex_second ex_sc _ "c" (VStr "7") (VStr "7") (plain_key_by "c" eq_refl) eq_refl eq_refl Q) | ].
  exists (Some (VStr "7")). split; [ exact Q | exact (digs_by [] (Some (VStr "7"))) ].
Qed.

Lemma ex_b_text n : answers ex_w2 ex_sc ex_es (Some SFirst) (S (S (S n))) (QStr "<%{v}-%{lookup('c')}>") (Some (VStr "<V-7>")).
Proof.
  apply (wi_text ex_w2 ex_sc (fun t => answers ex_w2 ex_sc ex_es (Some SFirst) (S (S n)) (QStr t))
           (fun k => answers ex_w2 ex_sc ex_es (Some SFirst) (S (S n)) (QKey k)) [("<", "v"); ("-", "lookup('c')")] ["V"; "7"] ">").
  { apply cut_by_tokens. reflexivity. }
  constructor; [ | constructor; [ | constructor ] ].
  - change "V" with (text ex_w2 (Some (VStr "V"))). eapply ei_scope with (x := "v") (ps := []) (arg := "v").
    + cbn. intuition discriminate.
    + right. split; [ reflexivity | ]. apply method_match_none. reflexivity.
    + apply written_by. reflexivity.
    + reflexivity.
    + apply quiet_answers. apply ex_quiet_text. reflexivity.
    + exact (digs_by [] (Some (VStr "V"))).
  - change "7" with (text ex_w2 (Some (VStr "7"))). eapply ei_lookup with (name := "lookup") (arg := "c") (ps := [PStr "c"]).
    + apply ex_calls. reflexivity.
    + left. reflexivity.
    + apply written_by. reflexivity.
    + apply ex_c.
Qed.

Lemma ex_b n : answers ex_w2 ex_sc ex_es (Some SFirst) (S (S (S (S n)))) (QKey (mk_key "b" [PStr "b"])) (Some (VStr "<V-7>")).
Proof.
  right. exists SFirst, "b", [], (Some (VStr "<V-7>")).
  split; [ reflexivity | ]. split; [ reflexivity | ]. split; [ discriminate | ]. split; [ apply plain_correct; apply plain_key_by; reflexivity | ].
  split; [ exact (ex_second ex_sc _ "b" (VStr "<%{v}-%{lookup('c')}>") (VStr "<V-7>") (plain_key_by "b" eq_refl) eq_refl eq_refl (vi_str _ _ _ (ex_b_text n))) | ].
  exists (Some (VStr "<V-7>")). split; [ | exact (digs_by [] (Some (VStr "<V-7>"))) ].
  apply quiet_answers. apply ex_quiet_text. reflexivity.
Qed.

Lemma ex_a_text n : answers ex_w2 ex_sc ex_es (Some SFirst) (S (S (S (S (S n))))) (QStr "%{alias('b')}") (Some (VStr "<V-7>")).
Proof.
  apply (wi_alias ex_w2 ex_sc (fun t => answers ex_w2 ex_sc ex_es (Some SFirst) (S (S (S (S n)))) (QStr t))
           (fun k => answers ex_w2 ex_sc ex_es (Some SFirst) (S (S (S (S n)))) (QKey k))
           "alias('b')" "b" [PStr "b"] (Some (VStr "<V-7>"))).
  - now apply contains_not.
  - apply ex_calls. reflexivity.
  - apply written_by. reflexivity.
  - apply ex_b.
Qed.

Example C23_session_ex : forall N,
  fst (serve ex_w2 (10 + N) true
         [mk_request ex_sc (mk_key "a" [PStr "a"]) None; mk_request (ScMap []) (mk_key "zz" [PStr "zz"]) None]
         (init_st ex_sc (Some (new_explainer true false))))
  = [Ok (Some (VStr "<V-7>")); Ok None].
Proof.
  intro N. change (10 + N) with (2 + (8 + N)).
  refine (proj2 (C23_every_lookup_in_a_session ex_w2 ex_disk (fun _ => []) (levels_in ["node"; "common"]) 7 (8 + N) _
           [Some (VStr "<V-7>"); None] (file_world_steady ["node"; "common"] ex_refs eq_refl) ltac:(lia) _) _ _ _).
  constructor; [ | constructor; [ | constructor ] ]; exists ex_es; (split; [ apply levels_resolved; reflexivity | ]).
  - exists "a", [], None, None, None, SFirst, None, (Some (VStr "<V-7>")), (Some (VStr "<V-7>")).
    split; [ reflexivity | ]. split; [ discriminate | ]. split; [ apply plain_correct; apply plain_key_by; reflexivity | ].
    split; [ apply (pk_merge _ (SDeep []) _ [None; None]); [ discriminate | ] | ].
    { constructor; [ eapply level_none; [ apply plain_key_by; reflexivity | exact ex_level_node | reflexivity ] | ].
      constructor; [ eapply level_none; [ apply plain_key_by; reflexivity | exact ex_level_common | reflexivity ] | constructor ]. }
    split; [ apply plain_options; [ apply plain_key_by; reflexivity | apply of_none; discriminate ] | ]. split; [ apply mo_none; discriminate | ]. split; [ apply si_none | ].
    split; [ apply ci_none; discriminate | ]. split; [ | split; [ apply cv_no_conversion | ] ].
    + apply (pk_first _ [] (level_out ex_disk "node") [level_out ex_disk "common"]); [ constructor | ].
      eapply level_value; [ apply plain_key_by; reflexivity | exact ex_level_node | reflexivity | ].
      apply vi_str. exact (ex_a_text 2).
    + exists (Some (VStr "<V-7>")). split; [ refine (quiet_answers _ _ _ _ 6 _ _); apply ex_quiet_text; reflexivity | exact (digs_by [] (Some (VStr "<V-7>"))) ].
  - exists "zz", [], None, None, None, SFirst, None, None, None.
    split; [ reflexivity | ]. split; [ discriminate | ]. split; [ apply plain_correct; apply plain_key_by; reflexivity | ].
    split; [ apply (pk_merge _ (SDeep []) _ [None; None]); [ discriminate | ] | ].
    { constructor; [ eapply level_none; [ apply plain_key_by; reflexivity | exact ex_level_node | reflexivity ] | ].
      constructor; [ eapply level_none; [ apply plain_key_by; reflexivity | exact ex_level_common | reflexivity ] | constructor ]. }
    split; [ apply plain_options; [ apply plain_key_by; reflexivity | apply of_none; discriminate ] | ]. split; [ apply mo_none; discriminate | ]. split; [ apply si_none | ].
    split; [ apply ci_none; discriminate | ]. split; [ | split; [ apply cv_no_conversion | reflexivity ] ].
    apply pk_none. constructor; [ eapply level_none; [ apply plain_key_by; reflexivity | exact ex_level_node | reflexivity ] | ].
    constructor; [ eapply level_none; [ apply plain_key_by; reflexivity | exact ex_level_common | reflexivity ] | constructor ].
Qed.

(** The model agrees by computation. *)
Example C23_session_runs :
  fst (serve ex_w2 10 false
         [mk_request ex_sc (mk_key "a" [PStr "a"]) None; mk_request (ScMap []) (mk_key "zz" [PStr "zz"]) None]
         (init_st ex_sc None)) = [Ok (Some (VStr "<V-7>")); Ok None].
Proof. vm_compute. reflexivity. Qed.
