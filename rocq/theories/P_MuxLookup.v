(** Property C72: what a lookup gives when the configuration is one of several
    functions that are asked, as in the lookup command and the REST service. *)

From Coq Require Import String Ascii List ZArith Bool Arith Lia.
From Verif Require Import Str Value Outcome Key Merge Fpath Config Ipl Explain State Engine Session Worlds
  SpecKey SpecIpl SpecInterp SpecConfig SpecMerge SpecLookup SpecMux SpecExplain Transparent
  KeyFacts ValueFacts MergeLookup StrFacts IplFacts InterpFacts IplExact Fuel ResolveFacts LookupTop SettledLookup ExLevels
  AnswerFacts MuxExact P_Lookup RootFacts.
Import ListNotations.
Open Scope nat_scope.
Open Scope string_scope.
Open Scope list_scope.

(** A world whose files stay as they are, with a configuration that can be read,
    in a session that asks the configuration of the session once, among other
    functions. *)
Record steady_mux (w : world) (on_disk : string -> bool) (matching : string -> list string) (c : config)
       (fs : list lkfn) : Prop := mk_steady_mux {
  sm_stat : forall t p, w_stat w t p = on_disk p;
  sm_glob : forall t p, w_glob w t p = matching p;
  sm_top : w_top w = LkMux;
  sm_mux : w_mux w = Some fs;
  sm_once : exists pre post, fs = pre ++ LkConfig :: post /\ ~ In LkConfig pre /\ ~ In LkConfig post;
  sm_config : exists file, (forall t, w_config w t (w_cfgpath w) = file) /\
                           config_new (w_env w) (w_cfgpath w) file = Ok c
}.

(** The answer to one request, in its own scope. *)
Definition mux_answer (w : world) (on_disk : string -> bool) (matching : string -> list string) (c : config)
           (fs : list lkfn) (n : nat) (r : request) (o : option value) : Prop :=
  exists es, hierarchy_is w on_disk matching (q_scope r) c es /\
             mux_gives w (q_scope r) es fs n (q_key r) (q_opts r) o.

Lemma mux_serve_run w od mt c fs n N : steady_mux w od mt c fs -> 2 * n <= S (S N) ->
  forall rs os, Forall2 (mux_answer w od mt c fs n) rs os ->
  forall s, aget (w_cfgpath w) (s_shared s) = None \/ aget (w_cfgpath w) (s_shared s) = Some (ShLoaded c) ->
  fst (serve w (S (S (S (S N)))) false rs s) = map Ok os.
Proof.
  intros [H1 H2 H3 H4 (pre & post & -> & Hpre & Hpost) (file & H5 & H6)] HN rs os H.
  induction H as [|r o rs os (es & Hh & Hl) H IH]; intros s Hs; [ reflexivity | ].
  destruct (mux_lookup_run w n od mt H1 H2 N HN (q_scope r) c file H5 H6 pre post H4 Hpre Hpost H3 es (q_key r) (q_opts r) o
              (invocation (q_scope r) false s) eq_refl eq_refl Hs Hh Hl) as (s' & E & Hs').
  assert (R : run_lookup w (S (S (S (S N)))) (q_key r) (q_opts r) (invocation (q_scope r) false s) = (Ok o, s')).
  { change (run_lookup w (S (S (S (S N)))) (q_key r) (q_opts r))
      with (bind (bind (lookup w (run w (S (S (S N)))) (q_key r) (q_opts r)) (fun v => ret (v, true))) (fun r => ret (fst r))).
    unfold bind. rewrite E. reflexivity. }
  cbn [serve]. rewrite R.
  specialize (IH s' Hs').
  destruct (serve w (S (S (S (S N)))) false rs s') as [os' s2]. simpl in *. congruence.
Qed.

(** ** Any number of lookups in one session *)

(** In any scopes, with interpolation, lookup options and nested lookups,
    explained or not: each gives what the stateless description says, whatever
    was asked before and with any fuel that is enough. *)
Theorem C72_every_lookup_in_a_session : forall w on_disk matching c fs n N rs os,
  steady_mux w on_disk matching c fs -> 2 * n <= N ->
  Forall2 (mux_answer w on_disk matching c fs n) rs os ->
  (forall sc, fst (serve w (4 + N) false rs (init_st sc None)) = map Ok os) /\
  (forall sc options only,
     fst (serve w (4 + N) true rs (init_st sc (Some (new_explainer options only)))) = map Ok os).
Proof.
  intros w od mt c fs n N rs os Hw HN H.
  assert (E : forall sc, fst (serve w (4 + N) false rs (init_st sc None)) = map Ok os).
  { intro sc. apply (mux_serve_run w od mt c fs n N Hw); [ lia | exact H | left; reflexivity ]. }
  split; [ exact E | ]. intros sc options only. rewrite <- (E sc).
  exact (proj1 (sim_serve w (4 + N) rs (init_st sc (Some (new_explainer options only))) (init_st sc None) eq_refl eq_refl)).
Qed.
Print Assumptions C72_every_lookup_in_a_session.

Lemma one_mux_lookup w od mt c fs sc es n k opts o N : steady_mux w od mt c fs -> hierarchy_is w od mt sc c es ->
  mux_gives w sc es fs n k opts o -> fst (run_lookup w (4 + 2 * n + N) k opts (init_st sc None)) = Ok o.
Proof.
  intros Hw Hh L.
  destruct (C72_every_lookup_in_a_session w od mt c fs n (2 * n + N) [mk_request sc k opts] [o] Hw) as [E _]; [ lia | | ].
  { constructor; [ | constructor ]. exists es. split; assumption. }
  specialize (E sc). cbn [serve] in E.
  change (invocation (q_scope (mk_request sc k opts)) false (init_st sc None)) with (init_st sc None) in E.
  cbn [q_key q_opts] in E. change (4 + 2 * n + N) with (4 + (2 * n + N)).
  destruct (run_lookup w (4 + (2 * n + N)) k opts (init_st sc None)) as [x s1]. simpl in E. injection E as ->. reflexivity.
Qed.

(** ** Data files with nothing to interpolate *)

Lemma levels_pure w sc es files (vi : value -> option value -> Prop) r s : plain_key r -> Forall2 (level_is w) es files ->
  (forall v, quiet v -> vi v (Some v)) ->
  Forall (fun f => forall v, under r f = Some v -> quiet v) files ->
  hierarchy_gives w sc vi r s es (pure_lookup s (map (under r) files)).
Proof.
  intros Hp Hf Hv Hq. apply picks_pure. induction Hf as [|e f es files H Hf IH]; [ constructor | ].
  inversion Hq as [|? ? Q Hq']; subst. constructor; [ | apply IH; assumption ].
  apply level_gives; [ exact Hp | exact H | ]. intros v E. apply Hv. apply Q. exact E.
Qed.

Lemma quiet_mux_answers w sc es all fs n v : quiet v -> value_is (fun t => mux_answers w sc es all fs (S n) (QStr t)) v (Some v).
Proof. apply quiet_is. intros t Ht. cbn [mux_answers]. apply plain_text. exact Ht. Qed.

Lemma quiet_levels s r files : Forall (fun f => forall v, under r f = Some v -> quiet v) files ->
  forall v, pure_lookup s (map (under r) files) = Some v -> quiet v.
Proof. intro H. apply quiet_pure. induction H; constructor; assumption. Qed.

Lemma settled_mux w pre post sc es files before after mine lo k r ps opts mo s cv x o all :
  k_parts k = PStr r :: ps -> r <> "lookup_options" -> plain_key r ->
  Forall2 (level_is w) es files ->
  Forall (fun f => forall v, under r f = Some v -> quiet v) files ->
  Forall2 (source_has w sc r) pre before -> Forall2 (source_has w sc r) post after ->
  options_for all r mine ->
  map_of (pure_lookup (SDeep []) (before ++ option_map VMap mine :: after)) lo ->
  merge_option opts lo mo -> strategy_is mo s -> conversion_is lo cv ->
  converted w cv (pure_lookup s (before ++ pure_lookup s (map (under r) files) :: after)) x ->
  (forall v, x = Some v -> quiet v) -> digs ps x o ->
  mux_finds w sc es all (pre ++ LkConfig :: post) 1 k opts o.
Proof.
  intros Hk Hr Hp Hf Hq Hpre Hpost Hmine Hlo Hmo Hs Hcv Hx Hxq Hd.
  exists r, ps, x. split; [ exact Hk | ]. split; [ exact Hr | ]. split; [ exact Hp | ]. split.
  - exists (before ++ option_map VMap mine :: after), lo, mo, s, cv, (pure_lookup s (before ++ pure_lookup s (map (under r) files) :: after)).
    split.
    { apply Forall2_app; [ eapply Forall2_weaken; [ | exact Hpre ]; intros; apply of_source; assumption | ].
      constructor; [ apply of_config; exact Hmine | ].
      eapply Forall2_weaken; [ | exact Hpost ]; intros; apply of_source; assumption. }
    split; [ exact Hlo | ]. split; [ exact Hmo | ]. split; [ exact Hs | ]. split; [ exact Hcv | ]. split; [ | exact Hx ].
    apply picks_pure. apply Forall2_app; [ eapply Forall2_weaken; [ | exact Hpre ]; intros; apply vf_source; assumption | ].
    constructor; [ apply vf_config | eapply Forall2_weaken; [ | exact Hpost ]; intros; apply vf_source; assumption ].
    apply levels_pure; [ exact Hp | exact Hf | intros v; apply (quiet_mux_answers w sc es all _ 0) | exact Hq ].
  - destruct x as [x|]; [ | inversion Hd; reflexivity ]. exists (Some x). split; [ | exact Hd ].
    apply quiet_mux_answers. exact (Hxq x eq_refl).
Qed.

Lemma settled_options w sc es files : Forall2 (level_is w) es files ->
  Forall (fun f => forall v, under "lookup_options" f = Some v -> quiet v) files ->
  all_options w sc es 1 (pure_lookup (SDeep []) (map (under "lookup_options") files)).
Proof. intros Hf Hq. apply levels_pure; [ exact options_key_plain | exact Hf | intros v; apply (quiet_answers w sc es None 0) | exact Hq ]. Qed.

(** The functions before the configuration and after it have what they have for
    the root of the key, for lookup options and for data. *)
Theorem C72_settled_files : forall w on_disk matching c pre post sc es files before after mine lo k r ps opts mo s cv x o N,
  steady_mux w on_disk matching c (pre ++ LkConfig :: post) -> hierarchy_is w on_disk matching sc c es ->
  k_parts k = PStr r :: ps -> r <> "lookup_options" -> plain_key r ->
  Forall2 (level_is w) es files ->
  Forall (fun f => forall v, under "lookup_options" f = Some v -> wf v = true /\ settled v) files ->
  Forall (fun f => forall v, under r f = Some v -> wf v = true /\ settled v) files ->
  Forall2 (source_has w sc r) pre before -> Forall2 (source_has w sc r) post after ->
  options_for (pure_lookup (SDeep []) (map (under "lookup_options") files)) r mine ->
  map_of (pure_lookup (SDeep []) (before ++ option_map VMap mine :: after)) lo ->
  merge_option opts lo mo -> strategy_is mo s -> conversion_is lo cv ->
  converted w cv (pure_lookup s (before ++ pure_lookup s (map (under r) files) :: after)) x ->
  (forall v, x = Some v -> wf v = true /\ settled v) -> digs ps x o ->
  fst (run_lookup w (6 + N) k opts (init_st sc None)) = Ok o.
Proof.
  intros w od mt c pre post sc es files before after mine lo k r ps opts mo s cv x o N
    Hw Hh Hk Hr Hp Hf Hqo Hq Hpre Hpost Hmine Hlo Hmo Hs Hcv Hx Hxq Hd.
  refine (one_mux_lookup w od mt c (pre ++ LkConfig :: post) sc es 1 k opts o N Hw Hh _).
  eexists. split; [ exact (settled_options w sc es files Hf Hqo) | ].
  exact (settled_mux w pre post sc es files before after mine lo k r ps opts mo s cv x o _
           Hk Hr Hp Hf Hq Hpre Hpost Hmine Hlo Hmo Hs Hcv Hx Hxq Hd).
Qed.
Print Assumptions C72_settled_files.

(** Lookup options in the second file ask for a merge and a conversion, and the
    environment is merged too. *)
Definition mux_data : list (string * value) :=
  [("/h/data/node.yaml", vmap [("env::A", VArr [VInt 1])]);
   ("/h/data/common.yaml", vmap [("env::A", VArr [VInt 2; VInt 1]); ("lookup_options", vmap [("env::A", vmap [("merge", VStr "unique"); ("convert_to", VStr "sensitive")])])])].
Definition mux_w : world :=
  with_env [("A", "x")] (with_top LkMux (Some [LkConfig; LkEnv]) (file_world [("/h/hiera.yaml", levels ["node"; "common"])] mux_data)).
Definition mux_disk : string -> bool := fun p => match aget p mux_data with Some _ => true | None => false end.
Definition mux_es : list entry := map (level_out mux_disk) ["node"; "common"].

Lemma mux_w_steady ns env data : config_new env "/h/hiera.yaml" (CfYaml (levels ns)) = Ok (levels_in ns) ->
  steady_mux (with_env env (with_top LkMux (Some [LkConfig; LkEnv]) (file_world [("/h/hiera.yaml", levels ns)] data)))
         (fun p => match aget p data with Some _ => true | None => false end) (fun _ => []) (levels_in ns) ([] ++ LkConfig :: [LkEnv]).
Proof.
  intro H. constructor; try reflexivity.
  - exists [], [LkEnv]. split; [ reflexivity | ]. split; [ intros [] | ]. intros [E|[]]. discriminate E.
  - exists (CfYaml (levels ns)). split; [ reflexivity | exact H ].
Qed.

Example C72_files_ex : forall N,
  fst (run_lookup mux_w (6 + N) (mk_key "env::A" [PStr "env::A"]) None (init_st (ScMap []) None))
  = Ok (Some (VSens (VArr [VInt 1; VInt 2; VStr "x"]))).
Proof.
  intro N. eapply C72_settled_files with
    (sc := ScMap []) (es := mux_es)
    (files := [Some [(VStr "env::A", VArr [VInt 1])];
               Some [(VStr "env::A", VArr [VInt 2; VInt 1]);
                     (VStr "lookup_options", vmap [("env::A", vmap [("merge", VStr "unique"); ("convert_to", VStr "sensitive")])])]])
    (before := []) (after := [Some (VStr "x")])
    (mine := Some [(VStr "merge", VStr "unique"); (VStr "convert_to", VStr "sensitive")])
    (lo := Some [(VStr "merge", VStr "unique"); (VStr "convert_to", VStr "sensitive")])
    (mo := Some (VStr "unique")) (s := SUnique) (cv := Some ("sensitive", None))
    (x := Some (VSens (VArr [VInt 1; VInt 2; VStr "x"]))).
  - exact (mux_w_steady ["node"; "common"] [("A", "x")] mux_data eq_refl).
  - apply levels_resolved; reflexivity.
  - reflexivity.
  - discriminate.
  - apply plain_key_by. reflexivity.
  - constructor; [ eapply li_present; reflexivity | ]. constructor; [ eapply li_present; reflexivity | constructor ].
  - repeat (apply Forall_cons; [ intros v E; vm_compute in E; first [ discriminate E
              | injection E as <-; split; [ reflexivity | apply settled_by; reflexivity ] ] | ]). apply Forall_nil.
  - repeat (apply Forall_cons; [ intros v E; vm_compute in E; first [ discriminate E
              | injection E as <-; split; [ reflexivity | apply settled_by; reflexivity ] ] | ]). apply Forall_nil.
  - constructor.
  - constructor; [ exact (sh_environment mux_w (ScMap []) "env::A") | constructor ].
  - eapply of_map; [ vm_compute; reflexivity | reflexivity ].
  - vm_compute. constructor.
  - eapply mo_option; [ discriminate | reflexivity | reflexivity ].
  - apply si_name. constructor.
  - eapply ci_type; [ reflexivity | left; reflexivity ].
  - match goal with |- converted _ _ ?v _ => change v with (Some (VArr [VInt 1; VInt 2; VStr "x"])) end.
    apply cv_sensitive. reflexivity.
  - intros v E. injection E as <-. split; [ reflexivity | apply settled_by; reflexivity ].
  - match goal with |- digs ?ps ?v _ => exact (digs_by ps v) end.
Qed.

(** ** Nested lookups *)

(** More nested steps. *)
Lemma found_under_more w sc es all fs (vi vi' : value -> option value -> Prop) r opts x :
  (forall v o, vi v o -> vi' v o) -> found_under w sc es all fs vi r opts x -> found_under w sc es all fs vi' r opts x.
Proof.
  intros H (outs & lo & mo & s & c & v & H1 & H2 & H3 & H4 & H5 & H6 & H7).
  exists outs, lo, mo, s, c, v. repeat (split; [ assumption | ]). split; [ | exact H7 ].
  eapply picks_more; [ | exact H6 ]. intros f o [o' G|f' o' G]; [ apply vf_config | apply vf_source; exact G ].
  eapply hierarchy_gives_more; [ exact H | exact G ].
Qed.

Lemma followed_more (vi vi' : value -> option value -> Prop) ps x o :
  (forall v o, vi v o -> vi' v o) -> followed vi ps x o -> followed vi' ps x o.
Proof. intro H. destruct x as [x|]; [ | auto ]. intros (y & H1 & H2). exists y. auto. Qed.

Lemma mux_answers_step w sc es all fs : forall n q o, mux_answers w sc es all fs n q o -> mux_answers w sc es all fs (S n) q o.
Proof.
  induction n as [|n IH]; intros q o H; [ destruct H | ].
  assert (V : forall v o, value_is (fun t => mux_answers w sc es all fs n (QStr t)) v o ->
                          value_is (fun t => mux_answers w sc es all fs (S n) (QStr t)) v o).
  { intros v o'. apply value_is_more. intros t o2. apply IH. }
  destruct q as [t|k].
  - change (mux_answers w sc es all fs (S (S n)) (QStr t) o)
      with (whole_is w sc (fun t => mux_answers w sc es all fs (S n) (QStr t)) (fun k => mux_answers w sc es all fs (S n) (QKey k)) t o).
    change (mux_answers w sc es all fs (S n) (QStr t) o)
      with (whole_is w sc (fun t => mux_answers w sc es all fs n (QStr t)) (fun k => mux_answers w sc es all fs n (QKey k)) t o) in H.
    eapply whole_is_more; [ | | exact H ]; intros; apply IH; assumption.
  - destruct H as (r & ps & x & H1 & H2 & H3 & H4 & H5).
    exists r, ps, x. repeat (split; [ assumption | ]). split.
    + eapply found_under_more; [ exact V | exact H4 ].
    + eapply followed_more; [ exact V | exact H5 ].
Qed.

Lemma all_options_step w sc es n all : all_options w sc es n all -> all_options w sc es (S n) all.
Proof.
  apply hierarchy_gives_more. intros v o. apply value_is_more. intros t o'. apply answers_step.
Qed.
Lemma all_options_more w sc es n m all : n <= m -> all_options w sc es n all -> all_options w sc es m all.
Proof. induction 1; auto using all_options_step. Qed.

(** The lookups of an alias and of the key it stands for give the same, to any
    depth of nesting and whatever the lookup options of that key ask for: the
    merge strategy and the conversion are those of the key.  The alias itself
    has no lookup options and is found in the hierarchy. *)
Theorem C72_nested_same : forall w on_disk matching c pre post sc es all a before e after m x arg k n o N,
  steady_mux w on_disk matching c (pre ++ LkConfig :: post) -> hierarchy_is w on_disk matching sc c es ->
  all_options w sc es n all ->
  (* the first level that has key a has an alias to k under it *)
  a <> "lookup_options" -> plain_key a -> options_for all a None ->
  Forall (fun f => source_has w sc a f None) (pre ++ post) ->
  es = before ++ e :: after ->
  Forall (fun e => exists f, level_is w e f /\ under a f = None) before ->
  level_is w e (Some m) -> mgets a m = Some (VStr ("%{" ++ x ++ "}")) ->
  ~ has "}" x -> calls (trim_space x) "alias" arg -> written_key arg (k_parts k) ->
  (* the lookup of k gives o *)
  mux_finds w sc es all (pre ++ LkConfig :: post) n k None o -> (forall v, o = Some v -> wf v = true /\ settled v) ->
  fst (run_lookup w (4 + 2 * n + N) k None (init_st sc None)) = Ok o /\
  fst (run_lookup w (10 + 2 * n + N) (mk_key a [PStr a]) None (init_st sc None)) =
    Ok (Some (match o with Some v => v | None => VStr "" end)).
Proof.
  intros w od mt c pre post sc es all a before e after m x arg k n o N
    Hw Hh Ha Hal Hap Hao Hsrc Hes Hbef He Hm Hx Hc Hk L Hq.
  split; [ refine (one_mux_lookup w od mt c _ sc es n k None o N Hw Hh _); exists all; split; assumption | ].
  replace (10 + 2 * n + N) with (4 + 2 * (3 + n) + N) by lia.
  refine (one_mux_lookup w od mt c _ sc es (3 + n) _ None _ N Hw Hh _).
  exists all. split; [ refine (all_options_more w sc es n (3 + n) all _ Ha); lia | ].
  set (fs := pre ++ LkConfig :: post) in *.
  set (v := match o with Some v => v | None => VStr "" end).
  assert (Q : quiet v).
  { unfold v. destruct o as [y|]; [ exact (Hq y eq_refl) | ]. split; [ reflexivity | apply settled_by; reflexivity ]. }
  assert (Nest : mux_answers w sc es all fs (S n) (QKey (mk_key arg (k_parts k))) o).
  { destruct L as (r & ps & y & H1 & H2 & H3 & H4 & H5). exists r, ps, y. repeat (split; [ assumption | ]). assumption. }
  apply Forall_app in Hsrc as [S1 S2].
  assert (Nones : forall l, Forall (fun f => source_has w sc a f None) l ->
            Forall2 (options_from w sc all a) l (map (fun _ => None) l)).
  { induction 1; constructor; [ apply of_source; assumption | assumption ]. }
  exists a, [], (Some v). split; [ reflexivity | ]. split; [ exact Hal | ]. split; [ exact Hap | ]. split.
  - exists (map (fun _ => None) pre ++ None :: map (fun _ => None) post), None, None, SFirst, None, (Some v).
    split; [ apply Forall2_app; [ exact (Nones pre S1) | ]; constructor; [ exact (of_config w sc all a None Hao) | exact (Nones post S2) ] | ].
    split.
    { apply mo_no_map. intros m0 E.
      assert (E0 : pure_lookup (SDeep []) (map (fun _ => None) pre ++ None :: map (fun _ : lkfn => None) post) = None).
      { apply pure_lookup_none; [ discriminate | ]. intros y Hy. apply in_app_or in Hy as [Hy|[Hy|Hy]];
          [ apply in_map_iff in Hy as (? & <- & _); reflexivity | congruence | apply in_map_iff in Hy as (? & <- & _); reflexivity ]. }
      congruence. }
    split; [ apply mo_none; discriminate | ]. split; [ apply si_none | ]. split; [ apply ci_none; discriminate | ].
    split; [ | apply cv_no_conversion ].
    unfold fs. apply pk_first.
    + eapply Forall_impl; [ | exact S1 ]. intros f Hf. apply vf_source. exact Hf.
    + apply vf_config. subst es. apply pk_first.
      * eapply Forall_impl; [ | exact Hbef ]. intros e' (f & H1 & H2). exact (level_none w sc _ a SFirst e' f Hap H1 H2).
      * apply (level_value w sc _ a SFirst e (Some m) (VStr ("%{" ++ x ++ "}"))); [ exact Hap | exact He | exact Hm | ].
        apply vi_str. change (3 + n) with (S (S (S n))).
        apply (wi_alias w sc (fun t => mux_answers w sc (before ++ e :: after) all fs (S (S n)) (QStr t))
                 (fun k => mux_answers w sc (before ++ e :: after) all fs (S (S n)) (QKey k)) x arg (k_parts k) o Hx Hc Hk).
        apply mux_answers_step. exact Nest.
  - exists (Some v). split; [ | exact (digs_by [] (Some v)) ]. exact (quiet_mux_answers w sc es all fs (2 + n) v Q).
Qed.
Print Assumptions C72_nested_same.

(** An alias of a key that is to be merged and converted.  The library, which
    asks the configuration alone, gives something else (C27). *)
Definition same_data : list (string * value) :=
  [("/h/data/node.yaml", vmap [("k", VArr [VInt 1]); ("a", VStr "%{alias('k')}")]);
   ("/h/data/common.yaml",
    vmap [("lookup_options", vmap [("k", vmap [("merge", VStr "unique"); ("convert_to", VStr "sensitive")])]); ("k", VArr [VInt 2])])].
Definition same_files : world := file_world [("/h/hiera.yaml", levels ["node"; "common"])] same_data.
Definition same_w : world := with_env [] (with_top LkMux (Some [LkConfig; LkEnv]) same_files).
Definition same_disk : string -> bool := fun p => match aget p same_data with Some _ => true | None => false end.
Definition same_node : entries := [(VStr "k", VArr [VInt 1]); (VStr "a", VStr "%{alias('k')}")].
Definition same_options : entries := [(VStr "merge", VStr "unique"); (VStr "convert_to", VStr "sensitive")].
Definition same_common : entries := [(VStr "lookup_options", VMap [(VStr "k", VMap same_options)]); (VStr "k", VArr [VInt 2])].

Lemma same_levels : Forall2 (level_is same_w) (map (level_out same_disk) ["node"; "common"]) [Some same_node; Some same_common].
Proof. constructor; [ eapply li_present; reflexivity | ]. constructor; [ eapply li_present; reflexivity | constructor ]. Qed.

Example C72_nested_ex : forall N,
  fst (run_lookup same_w (6 + N) (mk_key "k" [PStr "k"]) None (init_st (ScMap []) None)) = Ok (Some (VSens (VArr [VInt 1; VInt 2]))) /\
  fst (run_lookup same_w (12 + N) (mk_key "a" [PStr "a"]) None (init_st (ScMap []) None)) = Ok (Some (VSens (VArr [VInt 1; VInt 2]))).
Proof.
  intro N.
  apply (C72_nested_same same_w same_disk (fun _ => []) (levels_in ["node"; "common"]) [] [LkEnv] (ScMap [])
           (map (level_out same_disk) ["node"; "common"])
           (pure_lookup (SDeep []) (map (under "lookup_options") [Some same_node; Some same_common]))
           "a" [] (level_out same_disk "node") [level_out same_disk "common"] same_node "alias('k')" "k"
           (mk_key "k" [PStr "k"]) 1 (Some (VSens (VArr [VInt 1; VInt 2]))) N).
  - exact (mux_w_steady ["node"; "common"] [] same_data eq_refl).
  - apply levels_resolved. reflexivity.
  - apply settled_options; [ exact same_levels | ].
    repeat (apply Forall_cons; [ intros v E; vm_compute in E; first [ discriminate E
              | injection E as <-; split; [ reflexivity | apply settled_by; reflexivity ] ] | ]). apply Forall_nil.
  - discriminate.
  - apply plain_key_by. reflexivity.
  - eapply of_other; [ reflexivity | discriminate ].
  - constructor; [ exact (sh_environment same_w (ScMap []) "a") | constructor ].
  - reflexivity.
  - constructor.
  - eapply li_present; reflexivity.
  - reflexivity.
  - now apply contains_not.
  - apply ex_calls. reflexivity.
  - apply written_by. reflexivity.
  - apply (settled_mux same_w [] [LkEnv] (ScMap []) (map (level_out same_disk) ["node"; "common"]) [Some same_node; Some same_common]
             [] [None] (Some same_options) (Some same_options) (mk_key "k" [PStr "k"]) "k" [] None (Some (VStr "unique")) SUnique
             (Some ("sensitive", None)) (Some (VSens (VArr [VInt 1; VInt 2])))).
    + reflexivity.
    + discriminate.
    + apply plain_key_by. reflexivity.
    + exact same_levels.
    + repeat (apply Forall_cons; [ intros v E; vm_compute in E; first [ discriminate E
              | injection E as <-; split; [ reflexivity | apply settled_by; reflexivity ] ] | ]). apply Forall_nil.
    + constructor.
    + constructor; [ exact (sh_environment same_w (ScMap []) "k") | constructor ].
    + eapply of_map; reflexivity.
    + vm_compute. constructor.
    + eapply mo_option; [ discriminate | reflexivity | reflexivity ].
    + apply si_name. constructor.
    + eapply ci_type; [ reflexivity | left; reflexivity ].
    + match goal with |- converted _ _ ?v _ => change v with (Some (VArr [VInt 1; VInt 2])) end. apply cv_sensitive. reflexivity.
    + intros v E. injection E as <-. split; [ reflexivity | apply settled_by; reflexivity ].
    + match goal with |- digs ?ps ?v _ => exact (digs_by ps v) end.
  - intros v E. injection E as <-. split; [ reflexivity | apply settled_by; reflexivity ].
Qed.

(** So the same files give different answers to the library and to the command. *)
Theorem C72_library_and_command_agree_refuted : exists w k,
  look w 12 [] k None = Ok (Some (VArr [VInt 1])) /\
  look (with_top LkMux (Some [LkConfig; LkEnv]) w) 12 [] k None = Ok (Some (VSens (VArr [VInt 1; VInt 2]))).
Proof. exists same_files, "a". split; vm_compute; reflexivity. Qed.
Print Assumptions C72_library_and_command_agree_refuted.

(** ** What a nested lookup does to the lookup around it *)

(** The full statement: whether the value of another level is written out or
    looked up makes no difference to the levels that come after it. *)
Definition leak_w (v : value) : world :=
  with_top LkMux (Some [LkConfig; LkModule])
    (with_modules ["web"]
      (file_world
        [("/h/hiera.yaml", levels ["common"]); ("/mods/web/hiera.yaml", levels ["a"; "b"])]
        [("/h/data/common.yaml", vmap [("web::ports", v); ("port", VStr "443");
            ("lookup_options", vmap [("web::ports", vmap [("merge", VStr "unique")])])]);
         ("/mods/web/data/a.yaml", vmap [("web::ports", VArr [VStr "80"])]);
         ("/mods/web/data/b.yaml", vmap [("web::ports", VArr [VStr "8080"])])])).

(** It does: the nested lookup leaves its own strategy behind, and the module is
    searched with that one. *)
Theorem C72_nested_leaves_no_trace_refuted : exists t v,
  look (leak_w v) 20 [] "port" None = Ok (Some (VStr "443")) /\
  v = VStr "443" /\ t = VStr "%{lookup('port')}" /\
  look (leak_w (VArr [v])) 20 [] "web::ports" None = Ok (Some (VArr [VStr "443"; VStr "80"; VStr "8080"])) /\
  look (leak_w (VArr [t])) 20 [] "web::ports" None = Ok (Some (VArr [VStr "443"; VStr "80"])).
Proof.
  exists (VStr "%{lookup('port')}"), (VStr "443").
  split; [ vm_compute; reflexivity | ]. split; [ reflexivity | ]. split; [ reflexivity | ]. split; vm_compute; reflexivity.
Qed.
Print Assumptions C72_nested_leaves_no_trace_refuted.
