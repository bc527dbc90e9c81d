(** C97: earlier requests to a session change neither the answers to later ones
    nor their explanations. *)

From Coq Require Import String List ZArith Bool Arith Lia Permutation.
From Verif Require Import Str Value Outcome Key Merge Fpath Config Ipl Explain State Engine Session Worlds Meta Kept Transparent P_Explain SpecAlone Alone Locality.
Import ListNotations.
Open Scope string_scope.

(** One request made of a session in state [s], with the explainer [x] or
    without. *)
Definition asked_of (w : world) (n : nat) (q : request) (explain : bool) (x : explainer) (s : st)
  : outcome (option value) * st :=
  run_lookup w n (q_key q) (q_opts q) (invocation (q_scope q) explain (with_ex x s)).

(** A session nobody has asked anything. *)
Definition nobody_asked : st := init_st (ScMap []) None.

Lemma own_new : forall w sc x, own w (init_st sc x).
Proof. intros w sc x. split; intros; discriminate. Qed.

Lemma sim_new : forall w sc x, sim w 0 0 (init_st sc x) (init_st sc x).
Proof.
  intros w sc x. apply mk_sim; [ reflexivity | reflexivity | | apply own_new | apply own_new | | ].
  - intro p. exact I.
  - intro p. reflexivity.
  - exists 0. repeat split.
Qed.

(** Whatever a session has been asked before, and however that ended, a request
    is answered and explained as in a new session, unless a configuration read
    before could not be read. *)
Theorem C97_each_alone : forall w sc x0 N ex rs, lasting w -> without_memory w ->
  let s := snd (serve w N ex rs (init_st sc x0)) in
  all_could_be_read w s ->
  forall n q explain x,
    fst (asked_of w n q explain x s) = fst (asked_of w n q explain x nobody_asked) /\
    s_ex (snd (asked_of w n q explain x s)) = s_ex (snd (asked_of w n q explain x nobody_asked)).
Proof.
  intros w sc x0 N ex rs La Me s R n q explain x. unfold nobody_asked.
  destruct (a_serve w La Me 0 0 N ex rs _ _ (sim_new w sc x0)) as [_ H]. fold s in H.
  assert (H0 : sim w (s_next s) 0 (invocation (q_scope q) explain (with_ex x s))
                                  (invocation (q_scope q) explain (with_ex x nobody_asked))).
  { pose proof (sm_own _ _ _ _ _ H) as O.
    apply mk_sim; [ reflexivity | reflexivity | intro; exact I | apply own_configs, own_iv, own_ex, O
                  | apply own_configs, own_iv, own_ex, own_new | | ].
    - intro p. split; [ | discriminate ]. intro E. cbn in E. destruct (ow_locked w s O p E) as [I0 F].
      destruct (R p I0) as [c Hc]. destruct (F c Hc).
    - exists 0. cbn. repeat split; try lia. }
  destruct (a_run_lookup w La Me (s_next s) 0 n 0 (q_key q) (q_opts q) _ _ H0 (Nat.le_0_l _)) as (H1 & _ & O1).
  apply out_eq in O1. unfold asked_of. split; [ symmetry; exact O1 | symmetry; apply (sm_ex _ _ _ _ _ H1) ].
Qed.
Print Assumptions C97_each_alone.

(** *** Sessions as a whole *)

Lemma serve_grows : forall w N ex rs s, exists d, s_trace (snd (serve w N ex rs s)) = (s_trace s ++ d)%list.
Proof.
  intros w N ex rs s. destruct (l_serve w w N ex rs s) as (d & E & _). exists d.
  destruct (serve w N ex rs s). exact E.
Qed.

Lemma serve_app : forall w N ex a c s,
  serve w N ex (a ++ c) s =
  (let (os, s1) := serve w N ex a s in let (os', s2) := serve w N ex c s1 in ((os ++ os')%list, s2)).
Proof.
  intros w N ex a c. induction a as [|r t IH]; intro s; cbn [app serve].
  - destruct (serve w N ex c s). reflexivity.
  - destruct (run_lookup w N (q_key r) (q_opts r) (invocation (q_scope r) ex s)) as [o s1]. rewrite IH.
    destruct (serve w N ex t s1) as [os s2]. destruct (serve w N ex c s2). reflexivity.
Qed.

Lemma with_ex_same : forall s, with_ex (s_ex s) s = s.
Proof. intros []. reflexivity. Qed.

Lemma silent_serve : forall w N rs s, s_ex (snd (serve w N false rs s)) = s_ex s.
Proof.
  intros w N. induction rs as [|q t IH]; intro s; cbn [serve]; [ reflexivity | ].
  pose proof (c_run w _ (kept_closed w) N (RLookup (q_key q) (q_opts q)) (invocation (q_scope q) false s)) as K.
  unfold run_lookup, bind.
  destruct (run w N (RLookup (q_key q) (q_opts q)) (invocation (q_scope q) false s)) as [o s1]. cbn [snd] in K.
  pose proof (kp_ex _ _ K eq_refl) as Ks. change (s_ex (invocation (q_scope q) false s)) with (s_ex s) in Ks.
  destruct o; cbn [ret lift]; specialize (IH s1); destruct (serve w N false t s1); cbn [snd] in *; congruence.
Qed.

(** A session gives every request the answer it gets on its own, with
    explanations and without. *)
Theorem C97_sessions : forall w sc N rs, lasting w -> without_memory w ->
  all_could_be_read w (snd (serve w N false rs (init_st sc None))) ->
  let alone := map (fun q => fst (asked_of w N q false (new_explainer false false) nobody_asked)) rs in
  fst (serve w N false rs (init_st sc None)) = alone /\
  forall options only, fst (serve w N true rs (init_st sc (Some (new_explainer options only)))) = alone.
Proof.
  intros w sc N rs La Me R alone.
  assert (G : fst (serve w N false rs (init_st sc None)) = alone).
  2:{ split; [ exact G | ]. intros options only. rewrite <- G.
      apply (C28_explaining_changes_nothing w N rs sc sc options only). }
  subst alone. revert R. induction rs as [|q rs IH] using rev_ind; intro R; [ reflexivity | ].
  pose proof (C97_each_alone w sc None N false rs La Me) as One. cbn zeta in One.
  pose proof (silent_serve w N rs (init_st sc None)) as Ex. change (s_ex (init_st sc None)) with (new_explainer false false) in Ex.
  rewrite serve_app in *. destruct (serve w N false rs (init_st sc None)) as [os s1]. cbn [fst snd] in *.
  destruct (serve w N false [q] s1) as [os' s2] eqn:E2. cbn [fst snd] in *.
  assert (R1 : all_could_be_read w s1).
  { intros p Hp. apply R. destruct (serve_grows w N false [q] s1) as [d D]. rewrite E2 in D. cbn [snd] in D.
    rewrite D. apply in_or_app. left. exact Hp. }
  rewrite (IH R1), map_app. f_equal.
  destruct (One R1 N q false (new_explainer false false)) as [A _]. cbn [map]. rewrite <- A.
  cbn [serve] in E2. unfold asked_of. rewrite <- Ex, with_ex_same.
  destruct (run_lookup w N (q_key q) (q_opts q) (invocation (q_scope q) false s1)) as [o t].
  injection E2 as <- _. reflexivity.
Qed.
Print Assumptions C97_sessions.

(** The condition on functions is needed: one that remembers makes a difference. *)
Definition counter : args -> prog := fun _ =>
  PCached "n" (fun x => match x with Some v => PRet (Some v) | None => PCache "n" (VStr "again") (fun _ => PRet (Some (VStr "first"))) end).
Definition counting_w : world := with_top (LkUser "count") None (with_funs [("count", counter)] (file_world [] [])).

Theorem C97_memory_matters :
  exists w rs, lasting w /\
    all_could_be_read w (snd (serve w 3 false rs nobody_asked)) /\
    fst (serve w 3 false rs nobody_asked) <>
    map (fun q => fst (asked_of w 3 q false (new_explainer false false) nobody_asked)) rs.
Proof.
  exists counting_w, [ask_for "k"; ask_for "k"]. split; [ split; reflexivity | split ].
  - intros p H. vm_compute in H. repeat destruct H as [H|H]; try discriminate; contradiction.
  - vm_compute. discriminate.
Qed.
Print Assumptions C97_memory_matters.

(** *** Example: a session with a configuration, a module, a YAML file and a
    function that looks up another key.  The first requests find a module, fail
    and find nothing. *)
Definition greet : args -> prog := fun a =>
  match a with
  | ALookupKey _ k => if String.eqb k "greeting"
                      then PScope "who" (fun x => PLookup "web::port" None (fun y =>
                             PExplain "greeted" (PRet (Some (VArr (match x with Some v => [v] | None => [] end ++ match y with Some v => [v] | None => [] end)%list)))))
                      else PRet None
  | _ => PRet None
  end.
Definition al_w : world :=
  let w := with_funs [("greet", greet)]
    (with_top LkMux (Some [LkConfig; LkModule; LkYaml; LkUser "greet"])
      (with_modules ["Web"]
        (file_world [("/h/hiera.yaml", levels ["common"]); ("/mods/Web/hiera.yaml", levels ["a"])]
                    [("/h/data/common.yaml", vmap [("bad", VStr "x%{alias('a')}"); ("url", VStr "%{lookup('web::port')}/%{who}")]);
                     ("/mods/Web/data/a.yaml", vmap [("web::port", VStr "80")]);
                     ("/y.yaml", vmap [("other", VStr "%{lookup('greeting.0')}")])]))) in
  mk_world (w_stat w) (w_glob w) (w_config w) (w_yaml w) (w_json w) (w_readdir w) (w_lstat w)
           (w_fun w) (w_plugin w) (w_call w) (w_dig w) (w_env w) (w_cwd w) (w_show w) (w_parse_type w) (w_new w)
           (w_top w) (w_cfgpath w) (w_mux w) (w_modpath w) (Some (VStr "/y.yaml")).
Definition al_rs : list request := map ask_for ["url"; "bad"; "db::port"; "other"; "greeting"].
Definition al_q : request := mk_request (ScMap [(VStr "who", VStr "me")]) (q_key (ask_for "greeting")) None.

Example C97_ex_world : lasting al_w /\ without_memory al_w.
Proof.
  split; [ split; reflexivity | ]. intros f a. cbn.
  destruct f as [n|p n|n]; cbn; try (destruct (String.eqb n "greet"); [ | constructor ]); try constructor;
    destruct a as [o|o k]; cbn; try constructor; destruct (String.eqb k "greeting"); repeat constructor.
Qed.

Lemma configs_in : forall ps (l : list event),
  forallb (fun e => match e with EvConfig p => existsb (String.eqb p) ps | _ => true end) l = true ->
  forall p, In (EvConfig p) l -> In p ps.
Proof.
  intros ps l H p Hp. rewrite forallb_forall in H. specialize (H _ Hp). cbn in H.
  apply existsb_exists in H as (q & Hq & E). apply String.eqb_eq in E. subst q. exact Hq.
Qed.

Example C97_ex_history :
  all_could_be_read al_w (snd (serve al_w 20 true al_rs (init_st (ScMap []) (Some (new_explainer true false))))) /\
  fst (serve al_w 20 true al_rs (init_st (ScMap []) (Some (new_explainer true false)))) =
  [Ok (Some (VStr "80/")); Panic alias_misplaced; Ok None; Ok (Some (VStr "80")); Ok (Some (VArr [VStr "80"]))].
Proof.
  split; [ | vm_compute; reflexivity ].
  intros p Hp. apply (configs_in ["/h/hiera.yaml"; "/mods/Web/hiera.yaml"]) in Hp; [ | vm_compute; reflexivity ].
  destruct Hp as [<- | [<- | []]]; eexists; unfold can_be_read; vm_compute; reflexivity.
Qed.

(** The answer and the explanation of the next request are those of a new
    session, which reads the files the first one already has. *)
Example C97_ex_next :
  let x := new_explainer false false in
  let s := snd (serve al_w 20 true al_rs (init_st (ScMap []) (Some (new_explainer true false)))) in
  fst (asked_of al_w 20 al_q true x s) = Ok (Some (VArr [VStr "me"; VStr "80"])) /\
  s_ex (snd (asked_of al_w 20 al_q true x s)) = s_ex (snd (asked_of al_w 20 al_q true x nobody_asked)) /\
  s_trace (snd (asked_of al_w 20 al_q true x s)) <> (s_trace s ++ s_trace (snd (asked_of al_w 20 al_q true x nobody_asked)))%list.
Proof.
  cbv zeta.
  pose proof (C97_each_alone al_w (ScMap []) (Some (new_explainer true false)) 20 true al_rs
                (proj1 C97_ex_world) (proj2 C97_ex_world) (proj1 C97_ex_history) 20 al_q true (new_explainer false false)) as [A B].
  split; [ rewrite A; vm_compute; reflexivity | split; [ exact B | ] ].
  intro E. apply (f_equal (@length event)) in E. vm_compute in E. discriminate.
Qed.

Example C97_ex_session :
  all_could_be_read al_w (snd (serve al_w 20 false (al_rs ++ rev al_rs) nobody_asked)) /\
  map (fun q => fst (asked_of al_w 20 q false (new_explainer false false) nobody_asked)) al_rs =
  [Ok (Some (VStr "80/")); Panic alias_misplaced; Ok None; Ok (Some (VStr "80")); Ok (Some (VArr [VStr "80"]))].
Proof.
  split; [ | vm_compute; reflexivity ].
  intros p Hp. apply (configs_in ["/h/hiera.yaml"; "/mods/Web/hiera.yaml"]) in Hp; [ | vm_compute; reflexivity ].
  destruct Hp as [<- | [<- | []]]; eexists; unfold can_be_read; vm_compute; reflexivity.
Qed.
