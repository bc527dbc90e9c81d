(** C82: sources that cannot be read, and lookups that fail. *)

From Coq Require Import String Ascii List ZArith Bool Arith Lia.
From Verif Require Import Str Value Outcome Key Merge Fpath Config Ipl Explain State Engine Session Worlds
  SpecKey SpecKeyErr SpecIpl SpecInterp SpecConfig SpecMerge SpecLookup SpecExplain SpecFail Transparent
  KeyFacts KeyErrFacts ValueFacts MergeLookup StrFacts IplFacts InterpFacts IplExact Fuel ResolveFacts LookupTop SettledLookup ExLevels
  FailTop P_Lookup RootFacts.
Import ListNotations.
Open Scope nat_scope.
Open Scope string_scope.
Open Scope list_scope.

(** What one request must lead to: a value or nothing, or an error.  There is
    nothing under lookup_options, whatever the configuration is. *)
Definition leads_to (w : world) (on_disk : string -> bool) (matching : string -> list string) (c : config) (n : nat)
           (r : request) (o : outcome (option value)) : Prop :=
  match o with
  | Ok v => answer w on_disk matching c n r v \/ (exists ps, k_parts (q_key r) = PStr "lookup_options" :: ps /\ v = None)
  | Panic x => exists es, hierarchy_is w on_disk matching (q_scope r) c es /\
                          lookup_fails w (q_scope r) es n (q_key r) (q_opts r) x
  | _ => False
  end.

Lemma serve_fails w od mt c n N : steady w od mt c -> n <= S (S N) ->
  forall rs os, Forall2 (leads_to w od mt c n) rs os ->
  forall s, aget (w_cfgpath w) (s_shared s) = None \/ aget (w_cfgpath w) (s_shared s) = Some (ShLoaded c) ->
  fst (serve w (S (S (S N))) false rs s) = os.
Proof.
  intros [H1 H2 H3 (file & H4 & H5)] HN rs os H. induction H as [|r o rs os Hl H IH]; intros s Hs; [ reflexivity | ].
  assert (R : exists s', run_lookup w (S (S (S N))) (q_key r) (q_opts r) (invocation (q_scope r) false s) = (o, s') /\
     (aget (w_cfgpath w) (s_shared s') = None \/ aget (w_cfgpath w) (s_shared s') = Some (ShLoaded c))).
  { change (run_lookup w (S (S (S N))) (q_key r) (q_opts r))
      with (bind (bind (lookup w (run w (S (S N))) (q_key r) (q_opts r)) (fun v => ret (v, true))) (fun r => ret (fst r))).
    unfold bind. destruct o as [v|x| |]; cbn [leads_to] in Hl; try contradiction;
      [ destruct Hl as [(es & Hh & Hl)|(ps & Ek & ->)] | destruct Hl as (es & Hh & Hl) ].
    - destruct (lookup_run w n N HN (q_scope r) c file H4 H5 H3 es (q_key r) (q_opts r) v
                  (invocation (q_scope r) false s) eq_refl eq_refl Hs (hierarchy_created w od mt _ c es N H1 H2 Hh) Hl) as (s' & E & Hs').
      exists s'. rewrite E. split; [ reflexivity | exact Hs' ].
    - eexists. unfold lookup, bind, lift, root. rewrite Ek. cbn [String.eqb Ascii.eqb Bool.eqb].
      rewrite node_off by reflexivity. rewrite report_off by reflexivity. split; [ reflexivity | exact Hs ].
    - destruct (lookup_failing w n N HN (q_scope r) c file H4 H5 H3 es (q_key r) (q_opts r) x
                  (invocation (q_scope r) false s) eq_refl eq_refl Hs (hierarchy_created w od mt _ c es N H1 H2 Hh) Hl) as (s' & E & Hs').
      exists s'. rewrite E. split; [ reflexivity | exact Hs' ]. }
  destruct R as (s' & R & Hs'). cbn [serve]. rewrite R. specialize (IH s' Hs').
  destruct (serve w (S (S (S N))) false rs s') as [os' s2]. cbn [fst] in *. congruence.
Qed.

(** Any number of lookups in one session, each with the value or the error that
    the stateless description says, explained or not: a lookup that fails
    changes nothing for those that come after it. *)
Theorem C82_sessions : forall w on_disk matching c n N rs os,
  steady w on_disk matching c -> n + 1 <= N ->
  Forall2 (leads_to w on_disk matching c n) rs os ->
  (forall sc, fst (serve w (2 + N) false rs (init_st sc None)) = os) /\
  (forall sc options only,
     fst (serve w (2 + N) true rs (init_st sc (Some (new_explainer options only)))) = os).
Proof.
  intros w od mt c n N rs os Hw HN H.
  assert (E : forall sc, fst (serve w (2 + N) false rs (init_st sc None)) = os).
  { intro sc. destruct N as [|N]; [ lia | ]. apply (serve_fails w od mt c n N Hw); [ lia | exact H | left; reflexivity ]. }
  split; [ exact E | ]. intros sc options only. rewrite <- (E sc).
  exact (proj1 (sim_serve w (2 + N) rs (init_st sc (Some (new_explainer options only))) (init_st sc None) eq_refl eq_refl)).
Qed.
Print Assumptions C82_sessions.

(** A level whose file is there but cannot be read, or has no map in it. *)
Inductive level_broken (w : world) (e : entry) (x : err) : Prop :=
| lb_yaml : forall o p, e_locations e = Some [LPath o p true] -> e_function e = Some (mk_fdef KDataHash "yaml_data") ->
    (forall t, unreadable "YAML hash" p (w_yaml w t p) x) -> level_broken w e x
| lb_json : forall o p, e_locations e = Some [LPath o p true] -> e_function e = Some (mk_fdef KDataHash "json_data") ->
    (forall t, unreadable "JSON object" p (w_json w t p) x) -> level_broken w e x.

(** One broken file is enough: every lookup fails with its error, also those of
    keys that a level before it has and that need no other level, since the
    lookup options of the whole hierarchy are wanted first. *)
Theorem C82_broken_file : forall w on_disk matching c N rs x,
  steady w on_disk matching c ->
  Forall (fun q => exists pre files e post,
            hierarchy_is w on_disk matching (q_scope q) c (pre ++ e :: post) /\
            Forall2 (level_is w) pre files /\
            Forall (fun f => forall v, under "lookup_options" f = Some v -> wf v = true /\ settled v) files /\
            level_broken w e x /\
            exists r ps, k_parts (q_key q) = PStr r :: ps /\ r <> "lookup_options") rs ->
  forall sc, fst (serve w (4 + N) false rs (init_st sc None)) = map (fun _ => Panic x) rs.
Proof.
  intros w od mt c N rs x Hw H.
  apply (C82_sessions w od mt c 1 (2 + N) rs (map (fun _ => Panic x) rs) Hw); [ lia | ].
  induction H as [|q rs (pre & files & e & post & Hh & Hf & Hq & Hb & r & ps & Hk & Hr) _ IH]; constructor; [ | exact IH ].
  cbn [leads_to]. exists (pre ++ e :: post). split; [ exact Hh | ]. eapply lf_options; [ exact Hk | exact Hr | ].
  apply rf_merge with (outs := map (under "lookup_options") files); [ discriminate | | ].
  - clear - Hf Hq. induction Hf as [|e0 l es ls H1 Hl IH]; [ constructor | ]. inversion Hq as [|? ? Hv H']; subst.
    constructor; [ | exact (IH H') ]. apply level_gives; [ exact options_key_plain | exact H1 | ]. intros v E. apply quiet_answers. apply Hv. exact E.
  - assert (Path : forall o p, mgets "path" (mput (VStr "path") (VStr p) o) = Some (VStr p)).
    { intros o p. unfold mgets. destruct (mput_same (VStr "path") (VStr p) o) as [E|E]; [ exact E | discriminate E ]. }
    destruct Hb as [o p Hl Hfn Hu|o p Hl Hfn Hu]; (eapply ef_one; [ exact Hl | ]); (split; [ reflexivity | ]);
      (eapply fa_hash; [ exact Hfn | ]).
    + eapply hf_yaml with (p := VStr p); [ reflexivity | apply oa_location; reflexivity | apply Path | exact Hu ].
    + eapply hf_json with (p := VStr p); [ reflexivity | apply oa_location; reflexivity | apply Path | exact Hu ].
Qed.
Print Assumptions C82_broken_file.

(** The first level has the key; the second is a file with a list. *)
Definition brk_files : list (string * value) :=
  [("/h/data/node.yaml", vmap [("a", VInt 1)]); ("/h/data/common.yaml", VArr [VInt 2])].
Definition brk_w : world := file_world [("/h/hiera.yaml", levels ["node"; "common"])] brk_files.
Definition brk_disk : string -> bool := fun p => match aget p brk_files with Some _ => true | None => false end.
Definition brk_rs : list request :=
  [mk_request (ScMap []) (mk_key "a" [PStr "a"]) None;
   mk_request (ScMap [(VStr "x", VInt 1)]) (mk_key "nothing.here" [PStr "nothing"; PStr "here"]) None].

Example C82_broken_file_ex : forall sc,
  fst (serve brk_w 4 false brk_rs (init_st sc None)) =
  [Panic (EErr "file '/h/data/common.yaml' does not contain a YAML hash");
   Panic (EErr "file '/h/data/common.yaml' does not contain a YAML hash")].
Proof.
  intro sc. apply (C82_broken_file brk_w brk_disk (fun _ => []) (levels_in ["node"; "common"]) 0 brk_rs
                     (EErr "file '/h/data/common.yaml' does not contain a YAML hash")).
  - apply file_world_steady. reflexivity.
  - assert (G : forall q r ps, k_parts (q_key q) = PStr r :: ps -> r <> "lookup_options" ->
      exists pre files e post,
            hierarchy_is brk_w brk_disk (fun _ => []) (q_scope q) (levels_in ["node"; "common"]) (pre ++ e :: post) /\
            Forall2 (level_is brk_w) pre files /\
            Forall (fun f => forall v, under "lookup_options" f = Some v -> wf v = true /\ settled v) files /\
            level_broken brk_w e (EErr "file '/h/data/common.yaml' does not contain a YAML hash") /\
            exists r ps, k_parts (q_key q) = PStr r :: ps /\ r <> "lookup_options").
    { intros q r ps Hk Hr. exists [level_out brk_disk "node"], [Some [(VStr "a", VInt 1)]], (level_out brk_disk "common"), [].
      split; [ exact (levels_resolved brk_w brk_disk (fun _ => []) (q_scope q) ["node"; "common"] eq_refl) | ].
      split; [ constructor; [ eapply li_present; reflexivity | constructor ] | ].
      split; [ constructor; [ intros v E; discriminate E | constructor ] | ].
      split; [ | exists r, ps; auto ].
      eapply lb_yaml; [ reflexivity | reflexivity | ]. intro t. apply (ur_content "YAML hash" "/h/data/common.yaml" (VArr [VInt 2])). discriminate. }
    constructor; [ apply (G _ "a" []); [ reflexivity | discriminate ] | ].
    constructor; [ apply (G _ "nothing" [PStr "here"]); [ reflexivity | discriminate ] | constructor ].
Qed.

(** A failing lookup between two that find something. *)
Definition mix_rs : list request :=
  [mk_request (ScMap []) (mk_key "a.x" [PStr "a"; PStr "x"]) None;
   mk_request (ScMap []) (mk_key "a" [PStr "a"]) (Some [(VStr "merge", VStr "bogus")]);
   mk_request (ScMap []) (mk_key "b" [PStr "b"]) None].
Definition mix_os : list (outcome (option value)) :=
  [Ok (Some (VArr [VInt 1])); Panic (EErr "unknown merge strategy 'bogus'"); Ok (Some (VInt 4))].

Lemma mix_all : all_options ex_w (ScMap []) (map (level_out (fun p => match aget p ex_files with Some _ => true | None => false end)) ["node"; "missing"; "common"]) 1 None.
Proof.
  unfold all_options, hierarchy_gives.
  change (@None value) with (pure_lookup (SDeep []) [@None value; None; None]).
  cbn [map]. apply picks_pure.
  constructor; [ eapply level_none; [ apply plain_key_by; reflexivity | eapply li_present; reflexivity | reflexivity ] | ].
  constructor; [ eapply level_none; [ apply plain_key_by; reflexivity | eapply li_absent; [ reflexivity | intro NT; discriminate NT ] | reflexivity ] | ].
  constructor; [ eapply level_none; [ apply plain_key_by; reflexivity | eapply li_present; reflexivity | reflexivity ] | constructor ].
Qed.

Example C82_sessions_ex :
  Forall2 (leads_to ex_w (fun p => match aget p ex_files with Some _ => true | None => false end) (fun _ => [])
             (levels_in ["node"; "missing"; "common"]) 1) mix_rs mix_os /\
  forall sc, fst (serve ex_w 4 false mix_rs (init_st sc None)) = mix_os.
Proof.
  assert (A : forall k r ps o, k_parts k = PStr r :: ps -> r <> "lookup_options" -> plain_key r ->
    digs ps (pure_lookup SFirst (map (under r) [Some [(VStr "a", vmap [("x", VArr [VInt 1])])]; None;
        Some [(VStr "a", vmap [("x", VArr [VInt 2]); ("y", VInt 3)]); (VStr "b", VInt 4)]])) o ->
    In r ["a"; "b"] ->
    answer ex_w (fun p => match aget p ex_files with Some _ => true | None => false end) (fun _ => [])
             (levels_in ["node"; "missing"; "common"]) 1 (mk_request (ScMap []) k None) o).
  { intros k r ps o Hk Hr Hp Hd Hin. eexists. split; [ apply levels_resolved; reflexivity | ]. cbn [q_scope q_key q_opts].
    eapply settled_lookup with (mo := None) (s := SFirst); [ exact Hk | exact Hr | exact Hp | | | | | constructor | exact Hd ].
    - constructor; [ eapply li_present; reflexivity | ]. constructor; [ eapply li_absent; [ reflexivity | intro NT; discriminate NT ] | ].
      constructor; [ eapply li_present; reflexivity | constructor ].
    - repeat (constructor; [ reflexivity | ]). constructor.
    - destruct Hin as [<-|[<-|[]]];
      repeat (apply Forall_cons; [ intros v E; vm_compute in E; first [ discriminate E
              | injection E as <-; split; [ reflexivity | apply settled_by; reflexivity ] ] | ]); apply Forall_nil.
    - apply mo_none; discriminate. }
  split.
  - constructor; [ | constructor; [ | constructor; [ | constructor ] ] ].
    + cbn [leads_to]. left. eapply A with (r := "a") (ps := [PStr "x"]); [ reflexivity | discriminate | apply plain_key_by; reflexivity | | left; reflexivity ].
      match goal with |- digs ?ps ?v _ => exact (digs_by ps v) end.
    + cbn [leads_to]. eexists. split; [ apply levels_resolved; reflexivity | ].
      eapply lf_strategy with (r := "a") (ps := []) (lo := None) (mo := Some (VStr "bogus")) (t := "bogus");
        [ reflexivity | discriminate | apply plain_correct; apply plain_key_by; reflexivity | exact mix_all | apply plain_options; [ apply plain_key_by; reflexivity | apply of_none; discriminate ]
        | eapply mo_explicit; reflexivity | | constructor | reflexivity ].
      intros s Hs. inversion Hs as [nm s' Hn| | |v Hv]; subst; [ inversion Hn | destruct (Hv _ eq_refl) ].
    + cbn [leads_to]. left. eapply A with (r := "b") (ps := []); [ reflexivity | discriminate | apply plain_key_by; reflexivity | | right; left; reflexivity ].
      match goal with |- digs ?ps ?v _ => exact (digs_by ps v) end.
  - intro sc. vm_compute. reflexivity.
Qed.

(** An expression that cannot be right, whatever the data and the scope. *)
Inductive never_right (t e : string) (x : err) : Prop :=
| nr_method : forall name arg, calls (trim_space e) name arg ->
    ~ In name ["alias"; "strict_alias"; "hiera"; "lookup"; "literal"; "scope"] ->
    x = EErr ("unknown interpolation method '" ++ name ++ "'") -> never_right t e x
| nr_alias : forall name arg, calls (trim_space e) name arg -> name = "alias" \/ name = "strict_alias" ->
    t <> ("%{" ++ e ++ "}")%string ->
    x = EErr "'alias'/'strict_alias' interpolation is only permitted if the expression is equal to the entire string" ->
    never_right t e x
| nr_key : forall name arg, calls (trim_space e) name arg -> looks_up t e name -> misspelt arg x -> never_right t e x.

(** The value that a lookup finds is a string whose first expression cannot be
    right: the lookup fails with what is wrong with that expression, and only
    the lookups that get to such a string do. *)
Theorem C82_bad_expression : forall w on_disk matching c N rs os,
  steady w on_disk matching c ->
  Forall2 (fun q o =>
    exists es1 e es2 ls1 m ls2 r ps v,
      hierarchy_is w on_disk matching (q_scope q) c (es1 ++ e :: es2) /\
      Forall2 (level_is w) es1 ls1 /\ level_is w e (Some m) /\ Forall2 (level_is w) es2 ls2 /\
      Forall (fun l => under "lookup_options" l = None) (ls1 ++ Some m :: ls2) /\
      k_parts (q_key q) = PStr r :: ps /\ r <> "lookup_options" /\ plain_key r /\ q_opts q = None /\
      Forall (fun l => under r l = None) ls1 /\ mgets r m = Some v /\
      ((exists u ex rest x, v = VStr (u ++ "%{" ++ ex ++ "}" ++ rest)%string /\ ~ has "%{" u /\ ~ has "}" ex /\
          never_right (u ++ "%{" ++ ex ++ "}" ++ rest)%string ex x /\ o = Panic x) \/
       (exists y, wf v = true /\ settled v /\ digs ps (Some v) y /\ o = Ok y))) rs os ->
  forall sc, fst (serve w (5 + N) false rs (init_st sc None)) = os.
Proof.
  intros w od mt c N rs os Hw H.
  apply (C82_sessions w od mt c 2 (3 + N) rs os Hw); [ lia | ].
  induction H as [|q o rs os (es1 & e & es2 & ls1 & m & ls2 & r & ps & v & Hh & H1 & He & H2 & Hno & Hk & Hr & Hp & Hopt & Hn & Hm & Hv) _ IH];
    constructor; [ clear IH | exact IH ].
  assert (Hl : Forall2 (level_is w) (es1 ++ e :: es2) (ls1 ++ Some m :: ls2)) by (apply Forall2_app; [ exact H1 | constructor; assumption ]).
  assert (All : forall n, all_options w (q_scope q) (es1 ++ e :: es2) n None).
  { intro n. unfold all_options, hierarchy_gives.
    replace (@None value) with (pure_lookup (SDeep []) (map (under "lookup_options") (ls1 ++ Some m :: ls2))).
    - apply picks_pure. generalize (value_is (fun t => answers w (q_scope q) (es1 ++ e :: es2) None n (QStr t))). intro vi.
      clear - Hl Hno. induction Hl as [|e0 l0 es0 ls0 H0 Hl IH]; [ constructor | ]. inversion Hno; subst.
      constructor; [ apply level_gives; [ exact options_key_plain | exact H0 | congruence ] | apply IH; assumption ].
    - generalize Hno. generalize (ls1 ++ Some m :: ls2). clear. intros ls Ho.
      assert (Nf : found (map (under "lookup_options") ls) = []).
      { induction Ho as [|l0 ls0 H0 Ho IH]; [ reflexivity | ]. simpl. rewrite H0. exact IH. }
      destruct ls as [|l0 [|l2 ls]]; [ reflexivity | | ].
      + inversion Ho; subst. simpl. match goal with H : under _ l0 = None |- _ => rewrite H end. reflexivity.
      + change (merge_fold (SDeep []) (found (map (under "lookup_options") (l0 :: l2 :: ls))) = None). rewrite Nf. reflexivity. }
  destruct Hv as [(u & ex & rest & x & -> & Hu & Hex & Hb & ->)|(y & Hwf & Hset & Hy & ->)].
  - cbn [leads_to]. exists (es1 ++ e :: es2). split; [ exact Hh | ]. rewrite Hopt.
    eapply lf_value with (lo := None) (mo := None) (s := SFirst) (cv := None);
      [ exact Hk | exact Hr | exact (plain_correct r Hp) | exact (All _) | apply plain_options; [ exact Hp | apply of_none; discriminate ] | apply mo_none; discriminate | constructor
      | apply ci_none; discriminate | discriminate | ].
    apply rf_first.
    + generalize (value_in w (q_scope q) (es1 ++ e :: es2) (Data SFirst) 2). intro vi. clear - Hp H1 Hn. induction H1 as [|e0 l0 es0 ls0 H0 H1 IH]; [ constructor | ]. inversion Hn; subst.
      constructor; [ | apply IH; assumption ]. eapply level_none; [ exact Hp | exact H0 | assumption ].
    + inversion He as [|o p m0 El Ef Ey]; subst. eapply ef_one; [ exact El | ]. split; [ reflexivity | ].
      eapply fa_value; [ exact (plain_root r Hp) | exact Ef | exact (level_hash w e m o p Ef Ey) | exact Hm | ].
      apply vf_str. cbn [fails_at].
      destruct (cut_exists rest) as (cut & last & [Hc1 Hc2] & Er).
      apply (wf_expression w (q_scope q) _ _ _ _ _ x [] u ex cut last []); [ cbn [app assembled]; rewrite Er; reflexivity | | constructor | ].
      * split; [ constructor; [ split; assumption | exact Hc1 ] | exact Hc2 ].
      * destruct Hb as [name arg Hc Hnm ->|name arg Hc Hnm Ht ->|name arg Hc Hlk Hms].
        { eapply xf_unknown; [ exact Hc | exact Hnm | reflexivity ]. }
        { eapply xf_misplaced; [ exact Hc | exact Hnm | exact Ht | reflexivity ]. }
        { eapply xf_key; [ exact Hc | exact Hlk | exact Hms ]. }
  - cbn [leads_to]. left. exists (es1 ++ e :: es2). split; [ exact Hh | ]. rewrite Hopt.
    assert (Qv : forall st, value_is (fun t => answers w (q_scope q) (es1 ++ e :: es2) st 2 (QStr t)) v (Some v)).
    { intro st. apply quiet_answers. split; assumption. }
    exists r, ps, None, None, None, SFirst, None, (Some v), (Some v).
    split; [ exact Hk | ]. split; [ exact Hr | ]. split; [ exact (plain_correct r Hp) | ]. split; [ exact (All _) | ].
    split; [ apply plain_options; [ first [ assumption | apply plain_key_by; reflexivity ] | apply of_none; discriminate ] | ]. split; [ apply mo_none; discriminate | ]. split; [ constructor | ].
    split; [ apply ci_none; discriminate | ]. split.
    { unfold hierarchy_gives. apply pk_first.
      - generalize (value_is (fun t => answers w (q_scope q) (es1 ++ e :: es2) (Some SFirst) 2 (QStr t))). intro vi.
        clear - Hp H1 Hn. induction H1 as [|e0 l0 es0 ls0 H0 H1 IH]; [ constructor | ]. inversion Hn; subst.
        constructor; [ | apply IH; assumption ]. eapply level_none; [ exact Hp | exact H0 | assumption ].
      - eapply level_value; [ exact Hp | exact He | exact Hm | apply Qv ]. }
    split; [ apply cv_no_conversion | ]. exists (Some v). split; [ apply Qv | exact Hy ].
Qed.
Print Assumptions C82_bad_expression.

(** Three strings that cannot be right, one that is, and one that asks for the
    first. *)
Definition bad_data : entries :=
  [(VStr "a", VStr "x %{foo('y')} %{b}"); (VStr "b", VStr "%{alias('d')} "); (VStr "c", VStr "%{ lookup('d..e') }");
   (VStr "d", VMap [(VStr "e", VInt 5)]); (VStr "f", VStr "<%{ v }%{hiera('a.z')}>")].
Definition bad_files : list (string * value) := [("/h/data/common.yaml", VMap bad_data)].
Definition bad_w : world := file_world [("/h/hiera.yaml", levels ["node"; "common"])] bad_files.
Definition bad_disk : string -> bool := fun p => match aget p bad_files with Some _ => true | None => false end.
Definition bad_scope : scope := ScMap [(VStr "v", VStr "V")].
Definition bad_rs : list request :=
  map (fun k => mk_request bad_scope (mk_key k [PStr k]) None) ["a"; "b"; "c"] ++
  [mk_request bad_scope (mk_key "d.e" [PStr "d"; PStr "e"]) None].
Definition bad_os : list (outcome (option value)) :=
  [Panic (EErr "unknown interpolation method 'foo'");
   Panic (EErr "'alias'/'strict_alias' interpolation is only permitted if the expression is equal to the entire string");
   Panic (EErr "key 'd..e' contains an empty segment");
   Ok (Some (VInt 5))].

Lemma bad_levels : level_is bad_w (level_out bad_disk "node") None /\ level_is bad_w (level_out bad_disk "common") (Some bad_data).
Proof. split; [ eapply li_absent; [ reflexivity | intro NT; discriminate NT ] | eapply li_present; reflexivity ]. Qed.

Example C82_bad_expression_ex : forall sc, fst (serve bad_w 5 false bad_rs (init_st sc None)) = bad_os.
Proof.
  intro sc. apply (C82_bad_expression bad_w bad_disk (fun _ => []) (levels_in ["node"; "common"]) 0 bad_rs bad_os).
  - apply file_world_steady. reflexivity.
  - assert (G : forall k r ps v o, k_parts k = PStr r :: ps -> r <> "lookup_options" -> new_key r = Ok (mk_key r [PStr r]) ->
       mgets r bad_data = Some v ->
       ((exists u ex rest x, v = VStr (u ++ "%{" ++ ex ++ "}" ++ rest)%string /\ ~ has "%{" u /\ ~ has "}" ex /\
          never_right (u ++ "%{" ++ ex ++ "}" ++ rest)%string ex x /\ o = Panic x) \/
        (exists y, wf v = true /\ settled v /\ digs ps (Some v) y /\ o = Ok y)) ->
       exists es1 e es2 ls1 m ls2 r ps v,
      hierarchy_is bad_w bad_disk (fun _ => []) bad_scope (levels_in ["node"; "common"]) (es1 ++ e :: es2) /\
      Forall2 (level_is bad_w) es1 ls1 /\ level_is bad_w e (Some m) /\ Forall2 (level_is bad_w) es2 ls2 /\
      Forall (fun l => under "lookup_options" l = None) (ls1 ++ Some m :: ls2) /\
      k_parts k = PStr r :: ps /\ r <> "lookup_options" /\ plain_key r /\ @None entries = None /\
      Forall (fun l => under r l = None) ls1 /\ mgets r m = Some v /\
      ((exists u ex rest x, v = VStr (u ++ "%{" ++ ex ++ "}" ++ rest)%string /\ ~ has "%{" u /\ ~ has "}" ex /\
          never_right (u ++ "%{" ++ ex ++ "}" ++ rest)%string ex x /\ o = Panic x) \/
       (exists y, wf v = true /\ settled v /\ digs ps (Some v) y /\ o = Ok y))).
    { intros k r ps v o Hk Hr Hp Hm H.
      exists [level_out bad_disk "node"], (level_out bad_disk "common"), [], [None], bad_data, [], r, ps, v.
      split; [ exact (levels_resolved bad_w bad_disk (fun _ => []) bad_scope ["node"; "common"] eq_refl) | ].
      split; [ constructor; [ exact (proj1 bad_levels) | constructor ] | ]. split; [ exact (proj2 bad_levels) | ]. split; [ constructor | ].
      split; [ constructor; [ reflexivity | constructor; [ reflexivity | constructor ] ] | ].
      split; [ exact Hk | ]. split; [ exact Hr | ]. split; [ apply plain_key_by; exact Hp | ]. split; [ reflexivity | ].
      split; [ constructor; [ reflexivity | constructor ] | ]. split; [ exact Hm | exact H ]. }
    constructor; [ | constructor; [ | constructor; [ | constructor; [ | constructor ] ] ] ].
    + eapply (G _ "a" []); [ reflexivity | discriminate | reflexivity | reflexivity | ]. left.
      exists "x ", "foo('y')", " %{b}", (EErr "unknown interpolation method 'foo'").
      split; [ reflexivity | ]. split; [ apply contains_not; reflexivity | ]. split; [ apply contains_not; reflexivity | ]. split; [ | reflexivity ].
      apply nr_method with (name := "foo") (arg := "y"); [ apply ex_calls; reflexivity | cbn; intuition discriminate | reflexivity ].
    + eapply (G _ "b" []); [ reflexivity | discriminate | reflexivity | reflexivity | ]. left.
      exists "", "alias('d')", " ". eexists.
      split; [ reflexivity | ]. split; [ apply contains_not; reflexivity | ]. split; [ apply contains_not; reflexivity | ]. split; [ | reflexivity ].
      apply nr_alias with (name := "alias") (arg := "d"); [ apply ex_calls; reflexivity | left; reflexivity | discriminate | reflexivity ].
    + eapply (G _ "c" []); [ reflexivity | discriminate | reflexivity | reflexivity | ]. left.
      exists "", " lookup('d..e') ", "". eexists.
      split; [ reflexivity | ]. split; [ apply contains_not; reflexivity | ]. split; [ apply contains_not; reflexivity | ]. split; [ | reflexivity ].
      apply nr_key with (name := "lookup") (arg := "d..e"); [ apply ex_calls; reflexivity | left; reflexivity | ].
      apply new_key_refused. reflexivity.
    + eapply (G _ "d" [PStr "e"]); [ reflexivity | discriminate | reflexivity | reflexivity | ]. right.
      exists (Some (VInt 5)). split; [ reflexivity | ]. split; [ apply settled_by; reflexivity | ]. split; [ | reflexivity ].
      match goal with |- digs ?ps ?v _ => exact (digs_by ps v) end.
Qed.

(** The string under f: its variable is replaced, and then the lookup of a.z
    fails in the string under a. *)
Example C82_nested_ex :
  leads_to bad_w bad_disk (fun _ => []) (levels_in ["node"; "common"]) 3 (mk_request bad_scope (mk_key "f" [PStr "f"]) None)
    (Panic (EErr "unknown interpolation method 'foo'")) /\
  fst (serve bad_w 6 false [mk_request bad_scope (mk_key "f" [PStr "f"]) None; mk_request bad_scope (mk_key "d" [PStr "d"]) None]
         (init_st bad_scope None)) =
  [Panic (EErr "unknown interpolation method 'foo'"); Ok (Some (VMap [(VStr "e", VInt 5)]))].
Proof.
  split; [ | vm_compute; reflexivity ].
  destruct bad_levels as [L1 L2].
  set (es := [level_out bad_disk "node"; level_out bad_disk "common"]).
  assert (F : forall (vi : value -> option value -> Prop) (vf : value -> err -> Prop) r v x, plain_key r -> mgets r bad_data = Some v -> vf v x -> hierarchy_fails bad_w bad_scope vi vf r SFirst es x).
  { intros vi vf r v x Hp Hm Hf. change es with ([level_out bad_disk "node"] ++ [level_out bad_disk "common"]). apply rf_first.
    - constructor; [ eapply level_none; [ exact Hp | exact L1 | reflexivity ] | constructor ].
    - inversion L2 as [|o p m0 El Ef Ey]; subst. eapply ef_one; [ exact El | ]. split; [ reflexivity | ].
      eapply fa_value; [ exact (plain_root r Hp) | exact Ef | exact (level_hash _ _ _ _ _ Ef Ey) | exact Hm | exact Hf ]. }
  cbn [leads_to]. exists es. split; [ exact (levels_resolved bad_w bad_disk (fun _ => []) bad_scope ["node"; "common"] eq_refl) | ].
  eapply lf_value with (r := "f") (ps := []) (all := None) (lo := None) (mo := None) (s := SFirst) (cv := None);
    [ reflexivity | discriminate | apply plain_correct; apply plain_key_by; reflexivity | | apply plain_options; [ apply plain_key_by; reflexivity | apply of_none; discriminate ] | apply mo_none; discriminate | constructor
    | apply ci_none; discriminate | discriminate | ].
  { unfold all_options, hierarchy_gives. change (@None value) with (pure_lookup (SDeep []) [@None value; None]). apply picks_pure.
    constructor; [ eapply level_none; [ apply plain_key_by; reflexivity | exact L1 | reflexivity ] | ]. constructor; [ eapply level_none; [ apply plain_key_by; reflexivity | exact L2 | reflexivity ] | constructor ]. }
  eapply F; [ apply plain_key_by; reflexivity | reflexivity | ]. apply vf_str. cbn [fails_at].
  apply (wf_expression _ _ _ _ _ _ _ _ [("<", " v ")] "" "hiera('a.z')" [] ">" ["V"]); [ reflexivity | | | ].
  - apply cut_by_tokens. reflexivity.
  - constructor; [ | constructor ]. change "V" with (text bad_w (Some (VStr "V"))).
    eapply ei_scope with (arg := "v") (x := "v") (ps := []) (v := VStr "V") (r := Some (VStr "V")).
    + cbn. intuition discriminate.
    + right. split; [ reflexivity | ]. apply method_match_none. reflexivity.
    + apply written_by. reflexivity.
    + reflexivity.
    + apply quiet_answers. split; [ reflexivity | apply settled_by; reflexivity ].
    + exact (digs_by [] (Some (VStr "V"))).
  - apply xf_lookup with (name := "hiera") (arg := "a.z") (ps := [PStr "a"; PStr "z"]); [ apply ex_calls; reflexivity | right; left; reflexivity | apply written_by; reflexivity | ].
    exists "a", [PStr "z"]. split; [ reflexivity | ]. split; [ discriminate | ]. right. split; [ apply plain_correct; apply plain_key_by; reflexivity | ]. left.
    eapply F; [ apply plain_key_by; reflexivity | reflexivity | ]. apply vf_str. cbn [fails_at].
    apply (wf_expression _ _ _ _ _ _ _ _ [] "x " "foo('y')" [(" ", "b")] "" []); [ reflexivity | apply cut_by_tokens; reflexivity | constructor | ].
    apply xf_unknown with (name := "foo") (arg := "y"); [ apply ex_calls; reflexivity | cbn; intuition discriminate | reflexivity ].
Qed.
