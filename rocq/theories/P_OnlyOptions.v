(** What an explainer that only explains options records below any top provider
    that runs no code of users: C30, C31. *)

From Coq Require Import String List ZArith Bool Arith Lia.
From Verif Require Import Str Value Outcome Key Merge Fpath Config Ipl Explain State Engine Worlds Meta Kept Session.
From Verif Require Import SpecExplain Transparent P_Modes.
Import ListNotations.
Open Scope string_scope.
Open Scope list_scope.
Open Scope bool_scope.
Open Scope monad_scope.

(** ** What is about options *)

(** A search for lookup options in a configuration; the one that says that
    lookup_options is no key; and, below several functions, the merge of what
    they come to and the modules they ask, in which there is nothing else. *)
Inductive of_options : node -> Prop :=
| oo_search : forall bs ts e o, of_options (Node NLookup bs ts e o "lookup_options")
| oo_invalid : forall bs ts e o k, of_options (Node NInvalid bs ts e o k)
| oo_module : forall name bs ts e o k, Forall of_options bs -> of_options (Node (NModule name) bs ts e o k)
| oo_merge : forall bs ts e o k, Forall of_options bs -> of_options (Node (NMerge (SDeep [])) bs ts e o k).

(** The functions that are part of hiera. *)
Definition own (f : lkfn) : Prop := match f with LkUser _ => False | _ => True end.
Definition own_functions (w : world) : Prop :=
  own (w_top w) /\ match w_mux w with Some fs => Forall own fs | None => True end.

(** ** Only such nodes are added to the current one *)

Definition cur (x : explainer) : frame := match x_open x with [] => x_root x | (_, f) :: _ => f end.
Definition fine (x : explainer) : Prop := Forall of_options (fr_bs (cur x)).
Definition ready (s : st) : Prop := x_only (s_ex s) = true /\ x_nil (s_ex s) = false /\ data_off s.
Definition safe {A} (m : M st A) : Prop := forall s, ready s -> fine (s_ex s) -> fine (s_ex (snd (m s))).
Definition good {A} (m : M st A) : Prop := steps kept A m m /\ steps placed A m m /\ safe m.

Lemma good_ready {A} (m : M st A) s : good m -> ready s -> ready (snd (m s)).
Proof.
  intros (K & P & _) (R1 & R2 & R3). destruct (P s R2) as (_ & P2 & P3 & _).
  split; [ congruence | split; [ congruence | ] ]. unfold data_off.
  rewrite (kp_mode _ _ (K s)), (kp_expl _ _ (K s)). exact R3.
Qed.

Lemma good_lift (w : world) {A} (o : outcome A) : good (lift o).
Proof.
  split; [ apply (c_lift w _ (kept_closed w)) | split; [ apply (c_lift w _ (placed_closed w)) | ] ].
  intros s _ F. exact F.
Qed.

Lemma good_bind (w : world) {A B} (m : M st A) (f : A -> M st B) : good m -> (forall a, good (f a)) -> good (bind m f).
Proof.
  intros Gm Gf. split; [ | split ].
  - apply (c_bind w _ (kept_closed w)); [ apply Gm | intro; apply Gf ].
  - apply (c_bind w _ (placed_closed w)); [ apply Gm | intro; apply Gf ].
  - intros s R F. pose proof (good_ready m s Gm R) as R1. pose proof (proj2 (proj2 Gm) s R F) as F1.
    unfold bind. destruct (m s) as [[a|e| |] s1]; try exact F1. exact (proj2 (proj2 (Gf a)) s1 R1 F1).
Qed.

Lemma good_node {A} k i (m : M st A) : (forall f, Forall of_options (fr_bs f) -> of_options (close k f)) ->
  good m -> good (run_scoped (SNode k i) m).
Proof.
  intros Hk Gm. pose proof Gm as (K & P & S). split; [ | split ].
  - apply (c_scoped (file_world [] []) _ (kept_closed _)); [ discriminate | exact K ].
  - apply (c_scoped (file_world [] []) _ (placed_closed _)); [ discriminate | exact P ].
  - intros s R F. unfold run_scoped. destruct (iv_expl (s_iv s)) eqn:E; [ | exact (S s R F) ].
    destruct R as (R1 & R2 & R3). unfold xpush. rewrite R2.
    match goal with |- context [m ?y] => set (s1 := y) end.
    assert (R' : ready s1) by (split; [ exact R1 | split; [ reflexivity | exact R3 ] ]).
    specialize (P s1 eq_refl). specialize (S s1 R' (Forall_nil _)).
    destruct (m s1) as [o s']. cbn [snd with_ex s_ex] in *. destruct P as (_ & _ & Pn & P). cbn [x_open s1] in P.
    destruct P as (Pr & f' & P & _). unfold xpop, fine, cur in *. rewrite P in S |- *. specialize (Hk f' S).
    revert F. cbn [x_root s1 s_ex with_ex] in Pr |- *. destruct (x_open (s_ex s)) as [|[k0 f0] r]; intro F; cbn [x_open x_root add_branch fr_bs];
      rewrite ?Pr; apply Forall_app; (split; [ exact F | constructor; [ exact Hk | constructor ] ]).
Qed.

Lemma good_lookup {A} (m : M st A) : good m -> good (run_scoped SLookup m).
Proof.
  intros (K & P & S). split; [ | split ].
  - apply (c_scoped (file_world [] []) _ (kept_closed _)); [ discriminate | exact K ].
  - apply (c_scoped (file_world [] []) _ (placed_closed _)); [ discriminate | exact P ].
  - intros s R F. unfold run_scoped, with_copy. destruct R as (R1 & R2 & R3).
    destruct (iv_mode (s_iv s)) eqn:E; try (apply S; [ split; auto | exact F ]);
      match goal with |- context [m ?y] => specialize (S y) end;
      match type of S with ready ?y -> _ => assert (R' : ready y) by
        (split; [ exact R1 | split; [ exact R2 | intro X; discriminate X ] ]); specialize (S R' F); destruct (m y) as [o s'] end;
      exact S.
Qed.

Lemma safe_data {A} (m : M st A) : silent_off m -> safe (run_scoped SData m).
Proof. intros H s (R1 & R2 & R3) F. rewrite data_silent; assumption. Qed.

(** Code that leaves the explanation alone. *)
Lemma safe_same {A} (m : M st A) : (forall s, s_ex (snd (m s)) = s_ex s) -> safe m.
Proof. intros H s _ F. rewrite H. exact F. Qed.

(** ** The functions *)

Section Fns.
  Variable w : world.
  Variable n : nat.

  Lemma good_search ps : good (options_search w n ps).
  Proof.
    pose proof (kept_closed w) as C. pose proof (placed_closed w) as C2. pose proof (c_run w _ C2 n) as Hrec2.
    unfold options_search. apply good_lookup. set (k := mk_key "lookup_options" [PStr "lookup_options"]).
    set (mm := merging (SDeep []) ps (merge_locations w (run w n) k (SDeep []))).
    assert (K : steps kept _ mm mm) by apply kept_search.
    assert (P : steps placed _ mm mm) by (apply (c_merging w _ C2); intro; apply (c_merge_locations w _ C2); exact Hrec2).
    split; [ | split ].
    - apply (c_scoped w _ C); [ discriminate | exact K ].
    - apply (c_scoped w _ C2); [ discriminate | exact P ].
    - intros s (R1 & R2 & R3) F. unfold run_scoped. destruct (iv_expl (s_iv s)) eqn:E; [ | rewrite (kept_silent mm K s E); exact F ].
      unfold xpush. rewrite R2.
      match goal with |- context [mm ?y] => set (s1 := y) end.
      pose proof (keyed_search w n ps k s1 NLookup (new_frame "lookup_options") _ eq_refl eq_refl) as (f & X & Kf & N). fold mm in X, N.
      specialize (P s1 eq_refl). destruct (mm s1) as [o s']. cbn [snd with_ex s_ex] in *.
      destruct P as (_ & _ & _ & P). cbn [x_open s1] in P. destruct P as (Pr & _).
      unfold xpop, fine, cur in *. rewrite X.
      assert (Hf : of_options (close NLookup f)) by (unfold close; rewrite Kf; constructor).
      revert F. cbn [x_root s1 s_ex with_ex] in Pr |- *. destruct (x_open (s_ex s)) as [|[k0 f0] r]; intro F; cbn [x_open x_root add_branch fr_bs];
        rewrite ?Pr; apply Forall_app; (split; [ exact F | constructor; [ exact Hf | constructor ] ]).
  Qed.

  Lemma good_get_config p md : good (get_config w (run w n) p md).
  Proof.
    pose proof (kept_closed w) as C. pose proof (placed_closed w) as C2.
    split; [ | split ].
    - apply (c_get_config w _ C (run w n) (run w n)); try (intro; apply quiet_run). exact (c_run w _ C n).
    - apply (c_get_config w _ C2 (run w n) (run w n)); try (intro; apply quiet_run). exact (c_run w _ C2 n).
    - intros s R F. destruct (get_config_ex w n p md s) as [E|(ps & s1 & E1 & E2 & E3 & E)]; rewrite E; [ exact F | ].
      apply (proj2 (proj2 (good_search ps))); [ | rewrite E1; exact F ].
      destruct R as (R1 & R2 & R3). split; [ congruence | split; [ congruence | ] ]. unfold data_off. rewrite E2, E3. exact R3.
  Qed.

  Lemma good_config opts p key md : good (config_lookup_at w (run w n) opts p key md).
  Proof.
    pose proof (kept_closed w) as C. pose proof (placed_closed w) as C2. pose proof (c_run w _ C n) as Hrec.
    split; [ | split ].
    - apply (c_config_lookup_at w _ C (run w n) (run w n)); try (intro; apply quiet_run). exact Hrec.
    - apply (c_config_lookup_at w _ C2 (run w n) (run w n)); try (intro; apply quiet_run). exact (c_run w _ C2 n).
    - intros s R F. pose proof (good_ready _ s (good_get_config p md) R) as R1.
      pose proof (proj2 (proj2 (good_get_config p md)) s R F) as F1.
      unfold config_lookup_at, bind at 1. destruct (get_config w (run w n) p md s) as [[cfg|e| |] s1]; try exact F1.
      cbn [snd] in R1, F1. unfold bind at 1, lift. destruct (new_key key) as [k|e| |]; try exact F1.
      unfold bind at 1. change (run_op OMode s1) with (Ok (iv_mode (s_iv s1)), s1). cbv beta iota.
      destruct (iv_mode (s_iv s1)) eqn:Em.
      + apply safe_data; [ | exact R1 | exact F1 ]. apply silent_node. apply kept_silent.
        apply (c_bind w _ C); [ apply (c_lift w _ C) | intro lo ].
        apply (c_bind w _ C); [ apply (c_set_merge w _ C) | intro ].
        apply (c_lookup_and_convert w _ C). apply (c_bind w _ C); [ apply (c_op w _ C); reflexivity | intro ].
        apply (c_merge_hierarchy w _ C). exact Hrec.
      + unfold bind, lift, ret. destruct (lookup_options cfg k); exact F1.
      + rewrite kept_silent; [ exact F1 | | exact (proj2 (proj2 R1) Em) ].
        apply (c_bind w _ C); [ apply (c_op w _ C); reflexivity | intro ].
        apply (c_merge_hierarchy w _ C). exact Hrec.
  Qed.

  Lemma same_module_config name s : s_ex (snd (module_config w name s)) = s_ex s.
  Proof.
    assert (L : forall ps s0, s_ex (snd (load_from w ps name s0)) = s_ex s0).
    { assert (M : forall p s0, s_ex (snd (load_module w p name s0)) = s_ex s0).
      { intros p s0. unfold load_module, bind, ask, run_op. unfold bind, ret, lift.
        destruct (w_readdir w (s_trace s0) p) as [|e|l]; try reflexivity.
        cbv beta iota. destruct (find_module l name) as [[fn [|]]|]; try reflexivity.
        cbv zeta. match goal with |- context [w_lstat w ?t ?c] => destruct (w_lstat w t c) as [|e|[|]] end; reflexivity. }
      induction ps as [|p ps IH]; intro s0; [ reflexivity | ]. cbn [load_from]. unfold bind.
      specialize (M p s0). destruct (load_module w p name s0) as [[[c|]|e| |] s1]; try exact M.
      rewrite IH. exact M. }
    unfold module_config, bind at 1. change (run_op (OMod name) s) with (Ok (aget name (s_mods s)), s).
    cbv beta iota. destruct (aget name (s_mods s)) as [c|]; [ reflexivity | ].
    destruct (w_modpath w) as [mp|]; [ | reflexivity ].
    unfold bind. specialize (L (split_list mp) s). destruct (load_from w (split_list mp) name s) as [[c|e| |] s1]; exact L.
  Qed.

  Lemma good_report r : match r with RModuleNotFound => True | RMergeResult _ => True | RNotFound _ => True | _ => False end ->
    good (run_op (OReport r)).
  Proof.
    intro Hr. split; [ apply (c_op w _ (kept_closed w)); reflexivity | split; [ apply (c_op w _ (placed_closed w)); reflexivity | ] ].
    intros s (_ & R2 & _) F. unfold run_op. destruct (iv_expl (s_iv s)); [ | exact F ].
    unfold xaccept. rewrite R2. unfold fine, cur in *. cbn [snd with_ex s_ex].
    destruct (x_open (s_ex s)) as [|[k f] o]; cbn [x_open x_root]; destruct r; try contradiction; exact F.
  Qed.

  Lemma good_module opts key : good (module_lookup w (run w n) opts key).
  Proof.
    unfold module_lookup. destruct (split_at "::" key) as [[m t]|]; [ | exact (good_lift w (Ok None)) ].
    destruct m as [|a m]; [ exact (good_lift w (Ok None)) | ]. cbv zeta.
    apply (good_bind w).
    - split; [ apply (c_module w _ (kept_closed w)) | split; [ apply (c_module w _ (placed_closed w)) | ] ].
      apply safe_same. apply same_module_config.
    - intro cp. apply good_node; [ intros f Hf; unfold close; apply oo_module; exact Hf | ].
      destruct cp as [c|]; [ apply good_config | ].
      apply (good_bind w); [ apply good_report; exact I | intro; exact (good_lift w (Ok None)) ].
  Qed.

  Lemma same_yaml key s : s_ex (snd (yaml_lookup w key s)) = s_ex s.
  Proof.
    unfold yaml_lookup, bind at 1. change (run_op (OCached "yaml::data") s) with (Ok (aget "yaml::data" (s_tpc s)), s).
    cbv beta iota. destruct (aget "yaml::data" (s_tpc s)) as [d|].
    - unfold bind, ret, lift. destruct d; reflexivity.
    - unfold file_data. match goal with |- context [mgets "path" ?m] => destruct (mgets "path" m) as [pv|] end; [ | reflexivity ].
      unfold bind, ask, ret, lift, run_op, bind. cbv zeta beta iota.
      match goal with |- context [w_yaml w ?t ?c] => destruct (w_yaml w t c) as [|e|v] end; try reflexivity.
      destruct v; reflexivity.
  Qed.

  Lemma good_call f opts key : own f -> (forall opts key, good (run w n (RMux opts key))) -> good (call_lk w (run w n) f opts key).
  Proof.
    pose proof (kept_closed w) as C. pose proof (placed_closed w) as C2.
    intros Of Hm. destruct f; cbn [call_lk]; try contradiction; try exact (good_lift w (Ok _)).
    - apply good_config.
    - apply good_module.
    - split; [ apply (c_yaml_lookup w _ C) | split; [ apply (c_yaml_lookup w _ C2) | ] ].
      apply safe_same. apply same_yaml.
    - split; [ apply (c_scope_lookup w _ C) | split; [ apply (c_scope_lookup w _ C2) | ] ].
      apply safe_same. reflexivity.
    - apply (good_bind w); [ apply Hm | intro; exact (good_lift w (Ok _)) ].
  Qed.

  Lemma good_loop {L} (g : L -> M st (option value)) : forall s vs memo, Forall (fun v => good (g v)) vs ->
    good (merge_loop g s memo vs).
  Proof.
    intros s. induction vs as [|v vs IH]; intros memo H; cbn [merge_loop]; [ exact (good_lift w (Ok _)) | ].
    inversion H; subst. apply (good_bind w); [ assumption | intro x ].
    destruct x as [x|]; [ | apply IH; assumption ].
    destruct memo as [y|]; apply IH; assumption.
  Qed.

  Lemma good_merging {L} (g : L -> M st (option value)) vs : Forall (fun v => good (g v)) vs -> good (merging (SDeep []) vs g).
  Proof.
    intro H. unfold merging, merge_lookup. destruct vs as [|v [|v' vs]].
    - exact (good_lift w (Ok _)).
    - inversion H; subst. apply (good_bind w); [ assumption | intro; exact (good_lift w _) ].
    - unfold with_merge. apply good_node; [ intros f Hf; unfold close; apply oo_merge; exact Hf | ].
      apply (good_bind w); [ apply good_loop; exact H | intro x ].
      unfold report_some, report_result. destruct x as [x|]; [ | exact (good_lift w (Ok _)) ].
      apply (good_bind w); [ apply good_report; exact I | intro; exact (good_lift w (Ok _)) ].
  Qed.
End Fns.

Lemma good_mux w : own_functions w -> forall n opts key, good (run w n (RMux opts key)).
Proof.
  intros [_ Ow]. pose proof (kept_closed w) as C. pose proof (placed_closed w) as C2.
  induction n as [|n IH]; intros opts key.
  - split; [ apply (c_run w _ C) | split; [ apply (c_run w _ C2) | intros s _ F; exact F ] ].
  - split; [ apply (c_run w _ C) | split; [ apply (c_run w _ C2) | ] ].
    cbn [run body]. pose proof (c_run w _ C n) as Hrec.
    assert (G : safe (mux_lookup w (run w n) opts key)).
    { unfold mux_lookup. destruct (w_mux w) as [fs|]; [ | exact (proj2 (proj2 (good_lift w (Ok None)))) ].
      assert (Gl : good (run_scoped SLookup (merging (SDeep []) fs (fun f => call_lk w (run w n) f opts key)))).
      { apply good_lookup. apply (good_merging w). revert Ow. apply Forall_impl. intros f Of. apply good_call; assumption. }
      intros s R F. pose proof (good_ready _ s Gl R) as R1. pose proof (proj2 (proj2 Gl) s R F) as F1.
      unfold bind at 1. match goal with |- context [run_scoped SLookup ?m s] => destruct (run_scoped SLookup m s) as [[lo|e| |] s1] end; try exact F1.
      apply safe_data; [ | exact R1 | exact F1 ]. apply kept_silent.
      apply (c_bind w _ C); [ apply (c_lift w _ C) | intro k ].
      apply (c_scoped w _ C); [ discriminate | ].
      apply (c_bind w _ C); [ apply (c_set_merge w _ C) | intro ].
      apply (c_lookup_and_convert w _ C). apply (c_bind w _ C); [ apply (c_op w _ C); reflexivity | intro ].
      destruct a0 as [x|]; [ | apply (c_lift w _ C) ].
      apply (c_merging w _ C). intro f. apply (c_call_lk w _ C (run w n) (run w n)); try (intro; apply quiet_run). exact Hrec. }
    intros s R F. unfold bind. specialize (G s R F). destruct (mux_lookup w (run w n) opts key s) as [[v|e| |] s1]; exact G.
Qed.

Lemma good_lookups w n k opts : own_functions w -> good (run_lookup w n k opts).
Proof.
  intros Ow. pose proof (kept_closed w) as C. pose proof (placed_closed w) as C2. unfold run_lookup.
  apply (good_bind w); [ | intro; exact (good_lift w (Ok _)) ].
  split; [ apply (c_run w _ C) | split; [ apply (c_run w _ C2) | ] ].
  destruct n as [|n]; [ intros s _ F; exact F | ]. cbn [run body]. pose proof (c_run w _ C n) as Hrec.
  assert (G : safe (lookup w (run w n) k opts)).
  { unfold lookup. intros s R F. unfold bind at 1, lift. destruct (root k) as [r|e| |]; try exact F.
    destruct (String.eqb r "lookup_options").
    - refine (proj2 (proj2 (_ : good _)) s R F). apply good_node; [ intros f _; unfold close; apply oo_invalid | ].
      apply (good_bind w); [ apply (good_report w); exact I | intro; exact (good_lift w (Ok None)) ].
    - pose proof (good_call w n (w_top w) (match opts with Some o => o | None => [] end) r (proj1 Ow) (good_mux w Ow n)) as Gc.
      pose proof (good_ready _ s Gc R) as R1. pose proof (proj2 (proj2 Gc) s R F) as F1.
      unfold bind at 1. match goal with |- context [call_lk w ?a ?b ?c ?d s] => destruct (call_lk w a b c d s) as [[[x|]|e| |] s1] end; try exact F1.
      apply safe_data; [ | exact R1 | exact F1 ]. apply kept_silent.
      apply (c_bind w _ C); [ apply (c_interpolate w _ C); exact Hrec | intro; apply (c_dig_in w _ C) ]. }
  intros s R F. unfold bind. specialize (G s R F). destruct (lookup w (run w n) k opts s) as [[v|e| |] s1]; exact G.
Qed.

(** ** C30 *)

(** Sessions with an explainer that only explains options, whatever function of
    hiera is the top provider, among them the one of the lookup command and of
    the REST service that asks several functions: all that is below the root of
    the explanation, after any lookups with whatever outcomes, are searches for
    lookup options and nodes that say that lookup_options is no key, some of
    them below modules and below merges of the options that the functions come
    to. *)
Theorem C30_functions_only_options : forall w n rs sc options,
  own_functions w ->
  let x := s_ex (snd (serve w n true rs (init_st sc (Some (new_explainer options true))))) in
  x_open x = [] /\ Forall of_options (fr_bs (x_root x)).
Proof.
  intros w n rs sc options Ow x.
  assert (S : forall rs s, x_open (s_ex s) = [] -> x_nil (s_ex s) = false -> x_only (s_ex s) = true -> Forall of_options (fr_bs (x_root (s_ex s))) ->
            let y := s_ex (snd (serve w n true rs s)) in x_open y = [] /\ Forall of_options (fr_bs (x_root y))).
  { clear - Ow. induction rs as [|r rs IH]; intros s X1 X2 X3 X4; [ split; assumption | ]. cbn [serve].
    pose proof (good_lookups w n (q_key r) (q_opts r) Ow) as (_ & P & L).
    set (s0 := invocation (q_scope r) true s). specialize (P s0 X2). specialize (L s0).
    assert (R : ready s0) by (split; [ exact X3 | split; [ exact X2 | intro H; discriminate H ] ]).
    assert (F : fine (s_ex s0)) by (unfold fine, cur; change (s_ex s0) with (s_ex s); rewrite X1; exact X4).
    specialize (L R F). destruct (run_lookup w n (q_key r) (q_opts r) s0) as [o s1]. cbn [snd] in L, P.
    destruct P as (_ & P2 & P3 & P). change (s_ex s0) with (s_ex s) in *. rewrite X1 in P. destruct P as (P & _).
    unfold fine, cur in L. rewrite P in L.
    specialize (IH s1 P ltac:(congruence) ltac:(congruence) L). destruct (serve w n true rs s1) as [os s2]. exact IH. }
  apply S; try reflexivity. constructor.
Qed.
Print Assumptions C30_functions_only_options.

(** The functions of the lookup command and of the REST service, a module, and
    lookup options that say to convert the environment to Sensitive. *)
Definition env_options : value := vmap [("env", vmap [("convert_to", VStr "sensitive")])].
Definition env_w : world :=
  with_env [("PW", "s3cret")]
    (with_top LkMux (Some [LkConfig; LkEnv; LkModule])
       (file_world [("/h/hiera.yaml", levels ["common"])]
          [("/h/data/common.yaml", vmap [("lookup_options", env_options); ("m::k", VStr "v")])])).
Definition env_key : key := mk_key "env" [PStr "env"].
Definition env_rs : list request :=
  [mk_request (ScMap []) env_key None; mk_request (ScMap []) (mk_key "m::k" [PStr "m::k"]) None;
   mk_request (ScMap []) (mk_key "lookup_options" [PStr "lookup_options"]) None].
Definition env_x (options only : bool) : explainer :=
  s_ex (snd (serve env_w 9 true env_rs (init_st (ScMap []) (Some (new_explainer options only))))).
(** The kinds of the nodes below the root, and those below them. *)
Definition kinds (x : explainer) : list (nkind * list nkind) :=
  map (fun b => match b with Node k bs _ _ _ _ => (k, map (fun b => match b with Node k _ _ _ _ _ => k end) bs) end) (fr_bs (x_root x)).

Example C30_functions_only_options_ex :
  Forall of_options (fr_bs (x_root (env_x false true))) /\
  kinds (env_x false true) =
    [(NMerge (SDeep []), [NLookup]); (NMerge (SDeep []), [NLookup; NModule "m"]); (NInvalid, [])] /\
  kinds (env_x false false) = let yaml := NProvider "data_hash function 'yaml_data'" in
    [(NLookup, [yaml]); (NLookup, [yaml]); (NInvalid, [])].
Proof.
  split; [ | vm_compute; split; reflexivity ].
  refine (proj2 (C30_functions_only_options env_w 9 env_rs (ScMap []) false _)).
  split; [ exact I | repeat constructor ].
Qed.

(** ** C31 *)

(** With the functions of the lookup command and of the REST service even an
    explainer that only explains options shows what it should not: the function
    that reads the environment answers the search for the lookup options with
    the environment, so that the merged lookup options, which are shown, hold
    the values that are converted to Sensitive. *)
Theorem C31_options_shown_refuted : exists w k m options,
  own_functions w /\ w_mux w = Some [LkConfig; LkEnv] /\
  let r := run_lookup w 9 k None (init_st (ScMap []) (Some (new_explainer options true))) in
  fst r = Ok (Some (VSens (VMap m))) /\
  exists m' p x, revealed (VMap m') (s_ex (snd r)) /\ mget p m = Some x /\ mget p m' = Some x.
Proof.
  exists (with_top LkMux (Some [LkConfig; LkEnv]) env_w), env_key, [(VStr "PW", VStr "s3cret")], false.
  split; [ split; [ exact I | repeat constructor ] | split; [ reflexivity | ] ]. cbv zeta. split; [ vm_compute; reflexivity | ].
  exists [(VStr "convert_to", VStr "sensitive"); (VStr "PW", VStr "s3cret")], (VStr "PW"), (VStr "s3cret").
  split; [ | split; reflexivity ].
  unfold revealed. match goal with |- context [fr_bs ?x] => set (bs := fr_bs x) end.
  vm_compute in bs. subst bs. eexists. split; [ left; reflexivity | ]. apply sh_here.
Qed.
Print Assumptions C31_options_shown_refuted.
