(** C96: the requests of a session do not influence each other. *)

From Coq Require Import String Ascii List ZArith Bool Arith Lia Permutation.
From Verif Require Import Str Value Outcome Key Merge Fpath Config Ipl Explain State Engine Session Worlds
  SpecKey SpecKeyErr SpecIpl SpecInterp SpecConfig SpecMerge SpecPath SpecLookup SpecExplain SpecFail SpecMux SpecMany SpecWorld SpecDeep Transparent
  KeyFacts KeyErrFacts ValueFacts MergeLookup StrFacts IplFacts InterpFacts IplExact Fuel ResolveFacts LookupTop SettledLookup ExLevels
  AnswerFacts FailMore FailTop P_Lookup P_Nested P_Fail RootFacts Cycles Decided DecidedOptions DecidedTop P_Complete DeepExact DeepEntry
  DeepConfig ConfigEnds P_MuxLookup P_Deep ManyNested ManyTop
  P_Many Transparent.
Import ListNotations.
Open Scope nat_scope.
Open Scope string_scope.
Open Scope list_scope.

(** With enough steps. *)
Lemma uniform {A B} (P : nat -> A -> B -> Prop) : (forall n m a b, n <= m -> P n a b -> P m a b) ->
  forall l l', Forall2 (fun a b => exists n, P n a b) l l' -> exists n, Forall2 (P n) l l'.
Proof.
  intros Hm l l' H. induction H as [|a b l l' (n & Hn) H (m & IH)]; [ exists 0; constructor | ].
  exists (Nat.max n m). constructor; [ exact (Hm n _ _ _ (Nat.le_max_l _ _) Hn) | ].
  clear H. induction IH as [|x y l l' Hx _ IH]; constructor; [ exact (Hm m _ _ _ (Nat.le_max_r _ _) Hx) | exact IH ].
Qed.

Lemma pairs_in {A B} (P : A -> B -> Prop) : forall qs, Forall2 P (map fst qs) (map snd qs) <-> forall a b, In (a, b) qs -> P a b.
Proof.
  induction qs as [|[a b] qs IH]; cbn [map fst snd].
  - split; [ intros _ ? ? [] | constructor ].
  - split.
    + intros H. inversion H as [|? ? ? ? H1 H2]; subst. intros x y [E|I]; [ injection E as <- <-; exact H1 | exact (proj1 IH H2 x y I) ].
    + intro H. constructor; [ apply H; left; reflexivity | apply IH; intros; apply H; right; assumption ].
Qed.

(** Requests with the outcomes they have, one after the other in one session; all
    of them end or are known never to. *)
Definition session_has (w : world) (explain : bool) (qs : list (request * outcome (option value))) : Prop :=
  exists N, fst (serve w N explain (map fst qs) (init_st (ScMap []) (if explain then Some (new_explainer true false) else None))) = map snd qs /\
            Forall (fun o => o <> NoFuel) (map snd qs).

Section Sessions.
  Variables (w : world) (od : string -> bool) (mt : string -> list string) (file : cfg_file) (pre post : list lkfn) (c : config).
  Hypothesis Hst : asks w od mt file pre post.
  Hypothesis Hconf : config_new (w_env w) (w_cfgpath w) file = Ok c.
  Hypothesis Hw : dependable w.
  Let s0 := init_st (ScMap []) None.

  (** A request in a session of its own. *)
  Let own n q o := fst (serve w n false [q] s0) = [o] /\ o <> NoFuel.

  Lemma own_more n m q o : n <= m -> own n q o -> own m q o.
  Proof.
    intros H [E F]. split; [ | exact F ]. rewrite (serve_more w n m H [q] s0); [ exact E | ]. rewrite E. constructor; [ exact F | constructor ].
  Qed.

  Lemma own_ends n q o : wellformed q -> own n q o -> ends_as w od mt c (pre ++ LkConfig :: post) (S (S (S (S n)))) q o.
  Proof.
    intros Hq H. assert (HN : n <= S (S (S (S n)))) by lia. apply (own_more _ _ _ _ HN) in H as [E F].
    assert (G : Forall2 (ends_as w od mt c (pre ++ LkConfig :: post) (S (S (S (S n))))) [q] (fst (serve w (S (S (S (S n)))) false [q] s0))).
    { apply (serve_outcomes w od mt file pre post c Hst Hconf Hw n [q] s0); [ constructor; [ exact Hq | constructor ] | left; reflexivity | ].
      rewrite E. constructor; [ exact F | constructor ]. }
    rewrite E in G. inversion G; assumption.
  Qed.

  Lemma as_alone rs os : Forall wellformed rs ->
    ((exists N, fst (serve w N false rs s0) = os /\ Forall (fun o => o <> NoFuel) os) <->
     Forall2 (fun q o => exists n, own n q o) rs os).
  Proof.
    intro Hp. split.
    - intros (N & <- & Hf). assert (HN : N <= S (S (S (S N)))) by lia.
      rewrite <- (serve_more w N (S (S (S (S N)))) HN rs s0 Hf) in Hf |- *.
      pose proof (serve_outcomes w od mt file pre post c Hst Hconf Hw N rs s0 Hp (or_introl eq_refl) Hf) as G.
      revert G Hf Hp. generalize (fst (serve w (S (S (S (S N)))) false rs s0)). intros os G. induction G as [|q o rs os Hq G IH]; intros Hf Hp; constructor.
      + inversion Hf; inversion Hp; subst. exists (S (S (S (S (S (S (S (S N)))))))). split; [ | assumption ].
        apply (serve_ends w od mt file pre post c Hst Hconf Hw (S (S (S (S N)))) (S (S (S (S N)))));
          [ lia | constructor; [ assumption | constructor ] | constructor; [ exact Hq | constructor ] | left; reflexivity ].
      + inversion Hf; inversion Hp; subst. apply IH; assumption.
    - intro H. destruct (uniform own own_more rs os H) as (n & Hn).
      assert (G : Forall2 (ends_as w od mt c (pre ++ LkConfig :: post) (S (S (S (S n))))) rs os).
      { clear H. revert Hp. induction Hn as [|q o rs os Hq _ IH]; intro Hp; constructor; inversion Hp; subst; [ apply own_ends; assumption | apply IH; assumption ]. }
      exists (S (S (S (S (S (S (S (S n)))))))). split.
      + apply (serve_ends w od mt file pre post c Hst Hconf Hw (S (S (S (S n)))) (S (S (S (S n))))); [ lia | exact Hp | exact G | left; reflexivity ].
      + clear - H. induction H as [|q o rs os (n & _ & F) _ IH]; constructor; assumption.
  Qed.

  Lemma explained_as_silent qs : session_has w true qs <-> session_has w false qs.
  Proof.
    split; intros (N & E & F); exists N; (split; [ | exact F ]); rewrite <- E.
    - symmetry. exact (proj1 (sim_serve w N (map fst qs) (init_st (ScMap []) (Some (new_explainer true false))) (init_st (ScMap []) None) eq_refl eq_refl)).
    - exact (proj1 (sim_serve w N (map fst qs) (init_st (ScMap []) (Some (new_explainer true false))) (init_st (ScMap []) None) eq_refl eq_refl)).
  Qed.

  Lemma has_iff explain qs : Forall wellformed (map fst qs) -> (session_has w explain qs <-> forall q o, In (q, o) qs -> session_has w false [(q, o)]).
  Proof.
    intro Hp. transitivity (session_has w false qs).
    - destruct explain; [ apply explained_as_silent | reflexivity ].
    - transitivity (Forall2 (fun q o => exists n, own n q o) (map fst qs) (map snd qs)); [ exact (as_alone (map fst qs) (map snd qs) Hp) | ].
      rewrite (pairs_in (fun q o => exists n, own n q o) qs).
      split; intros H q o I; specialize (H q o I).
      + destruct H as (n & E & F). exists n. split; [ exact E | constructor; [ exact F | constructor ] ].
      + destruct H as (n & E & F). exists n. split; [ exact E | inversion F; assumption ].
  Qed.
End Sessions.

(** The full claim, for every session: each request has the outcome that it has in
    a session of its own. *)
Definition each_alone (w : world) (rs : list request) : Prop :=
  forall explain qs, map fst qs = rs -> (session_has w explain qs <-> forall q o, In (q, o) qs -> session_has w explain [(q, o)]).

(** It is so if the configuration can be read. *)
Theorem C96_each_alone_partial : forall w on_disk matching file pre post c rs,
  asks w on_disk matching file pre post -> config_new (w_env w) (w_cfgpath w) file = Ok c -> dependable w -> Forall wellformed rs ->
  each_alone w rs.
Proof.
  intros w od mt file pre post c rs Hst Hc Hw Hp explain qs <-.
  rewrite (has_iff w od mt file pre post c Hst Hc Hw explain qs Hp).
  split; intros H q o I; specialize (H q o I); destruct explain; try exact H; apply (explained_as_silent w); exact H.
Qed.
Print Assumptions C96_each_alone_partial.

(** So requests may come in any order, any number of times, with others between
    them or without, explained or not. *)
Theorem C96_any_order_partial : forall w on_disk matching file pre post c explain explain' qs qs',
  asks w on_disk matching file pre post -> config_new (w_env w) (w_cfgpath w) file = Ok c -> dependable w -> Forall wellformed (map fst qs) ->
  incl qs' qs -> session_has w explain qs -> session_has w explain' qs'.
Proof.
  intros w od mt file pre post c ex ex' qs qs' Hst Hc Hw Hp I H.
  assert (Hp' : Forall wellformed (map fst qs')).
  { rewrite Forall_forall in *. intros q Hq. apply in_map_iff in Hq as ([q' o] & <- & J). apply Hp. apply in_map_iff. exists (q', o). split; [ reflexivity | exact (I _ J) ]. }
  pose proof (proj1 (has_iff w od mt file pre post c Hst Hc Hw ex qs Hp) H) as G. clear H.
  apply (has_iff w od mt file pre post c Hst Hc Hw ex' qs' Hp'). intros q o J. exact (G q o (I _ J)).
Qed.
Print Assumptions C96_any_order_partial.

(** If it cannot be read, the first request has the error and the others, though
    they would have it too, never end. *)
Theorem C96_each_alone_refuted : exists w on_disk matching file pre post rs,
  asks w on_disk matching file pre post /\ dependable w /\ Forall wellformed rs /\ ~ each_alone w rs.
Proof.
  set (q := deep_ask (ScMap []) "a").
  exists (many_w old_cfg), many_disk, (fun _ => []), (CfYaml old_cfg), [LkEnv], [LkScope; LkUser "fn"], [q; q].
  assert (W : wellformed q) by apply old_wellformed.
  assert (O : ~ for_options q) by (intros (ps & E); discriminate E).
  split; [ apply many_asks; reflexivity | ]. split; [ apply many_dependable | ]. split; [ exact (Forall_cons q W (Forall_cons q W (Forall_nil _))) | ].
  intro H.
  assert (U : forall N rs, Forall wellformed (q :: rs) -> Forall (fun q => ~ for_options q) (q :: rs) ->
    fst (serve (many_w old_cfg) (S (S N)) false (q :: rs) (init_st (ScMap []) None)) = Panic old_err :: map (fun _ => Hang) rs).
  { intros N rs H1 H2. apply (C86_unreadable (many_w old_cfg) many_disk (fun _ => []) (CfYaml old_cfg) [LkEnv] [LkScope; LkUser "fn"] old_err N);
      [ apply many_asks; reflexivity | apply many_dependable | vm_compute; reflexivity | exact H1 | exact H2 ]. }
  destruct (proj1 (H false [(q, Panic old_err); (q, Hang)] eq_refl)) with (q := q) (o := @Hang (option value)) as (N & E & _).
  - exists 2. split; [ exact (U 0 [q] (Forall_cons q W (Forall_cons q W (Forall_nil _))) (Forall_cons q O (Forall_cons q O (Forall_nil _)))) | ].
    cbn [map snd]. constructor; [ discriminate | ]. constructor; [ discriminate | constructor ].
  - right. left. reflexivity.
  - cbn [map fst snd] in E. destruct N as [|[|N]]; [ vm_compute in E; discriminate E .. | ].
    rewrite (U N [] (Forall_cons q W (Forall_nil _)) (Forall_cons q O (Forall_nil _))) in E. discriminate E.
Qed.
Print Assumptions C96_each_alone_refuted.

(** ** The service *)
From Verif Require Import Api Rest Cmd New Args Flags RestArgs Program SpecApi SpecArgs SpecPrograms P_Api P_Rest P_Cmd P_Command P_FromFiles P_Program ProgramsExact P_Programs.
Section Service.
  Context {T : Type}.
  Variable inst : T -> option value -> bool.
  Variable conv : T -> option value -> outcome (option value).
  Variable any : T.
  Variable parse_type : dialect -> string -> outcome T.
  Variable struct_of : T -> option (list (string * T)).
  Variable parse : dialect -> string -> outcome value.
  Variable file : string -> var_file.
  Variable stdin : var_file.
  Variable render : string -> value -> outcome string.
  Variable render_explainer : string -> M st string.
  Variable outside : dialect -> world.
  Variable show : value -> string.
  Hypothesis show_text : forall t, show (VStr t) = t.
  Variable env : environ.
  Variable cwd : string.
  Variable clean : string -> string.
  Variable parse_int : string -> option Z.
  Variable load_pair : string -> string -> bool.
  Variable load_pool : string -> bool.
  Notation serves fuel := (service inst conv any parse_type struct_of parse file stdin render render_explainer outside show env (Ok cwd) fuel
                             clean parse_int load_pair load_pool).
  Notation responding server keys := (responds clean server
    (looked_up inst conv any (parse_type DDgo) struct_of (parse DDgo) file stdin render keys (ScMap []))).
  Notation world_for d path := (session_world (outside d) LkMux path [LkConfig; LkEnv]).

  (** Requests with the responses they have when they are sent one after the other
      to a service that has just been started with these arguments. *)
  Definition service_has (args : list string) (qs : list ((string * params) * outcome response)) : Prop :=
    exists N a l, serves N args (map fst qs) = Some (a, l, map snd qs) /\ Forall (fun r => r <> NoFuel) (map snd qs).

  Theorem C96_service_partial : forall args config opts address l on_disk matching cfg c qs,
    starts parse_int load_pair load_pool args config opts address l ->
    asks (world_for DDgo config) on_disk matching cfg [] [LkEnv] -> dependable (world_for DDgo config) ->
    usable conv (parse_type DDgo) (parse DDgo) file stdin render ->
    config_new (w_env (world_for DDgo config)) (w_cfgpath (world_for DDgo config)) cfg = Ok c ->
    (service_has args qs <-> forall q r, In (q, r) qs -> service_has args [(q, r)]).
  Proof.
    intros args config opts address l od mt cfg c qs Hargs Hst Hw [U1 U2 U3 U4 U5 U6 U7] Hc.
    destruct (service_run inst conv any parse_type struct_of parse file stdin render render_explainer outside show show_text env cwd
                clean parse_int load_pair load_pool args config opts address l Hargs) as (Hs & Hl & a & Run).
    set (w := world_for DDgo config) in *. set (s0 := init_st (ScMap []) None) in *.
    set (handled N rs := respond (route (lookup_and_render inst conv any (parse_type DDgo) struct_of (parse DDgo) file stdin (engine_invoke (ScMap []))
                               (engine_ask w N) render render_explainer) opts clean) rs s0).
    assert (Fr : fresh w c s0) by (left; reflexivity).
    set (own n q o := handled n [q] = [o] /\ o <> NoFuel).
    assert (More : forall n m q o, n <= m -> own n q o -> own m q o).
    { intros n m q o H [E F]. split; [ | exact F ]. unfold handled in *.
      rewrite (responds_more inst conv any (parse_type DDgo) struct_of (parse DDgo) file stdin render render_explainer (ScMap []) w clean opts n m H [q] s0); [ exact E | ].
      rewrite E. constructor; [ exact F | constructor ]. }
    assert (Total : forall N rs, Forall (fun o => o <> NoFuel) (handled N rs) ->
      Forall2 (responding opts
                 (keys_with w od mt ([] ++ LkConfig :: [LkEnv]) (S (S (S (S N)))) c)) rs (handled N rs)).
    { intros N rs Hf. exact (with_total inst conv any (parse_type DDgo) struct_of (parse DDgo) file stdin render render_explainer (ScMap []) w
                 U1 U2 U3 U4 U5 U6 U7 empty_wf clean opts Hs od mt cfg [] [LkEnv] c Hst Hc Hw N rs _ Fr Hf). }
    assert (Sound : forall N rs os, Forall2 (responding opts
                 (keys_with w od mt ([] ++ LkConfig :: [LkEnv]) (S (S N)) c)) rs os -> handled (S (S (S (S N)))) rs = os).
    { intros N rs os H. exact (with_sound inst conv any (parse_type DDgo) struct_of (parse DDgo) file stdin render render_explainer (ScMap []) w
                   U5 U6 U7 empty_wf clean opts Hs od mt cfg [] [LkEnv] c Hst Hc Hw (S (S N)) N rs os (le_n _) H _ Fr). }
    transitivity (Forall2 (fun q o => exists n, own n q o) (map fst qs) (map snd qs)).
    - split.
      + intros (N & a' & l' & E & F). rewrite Run in E. injection E as <- <- E.
        change (handled N (map fst qs) = map snd qs) in E. rewrite <- E in F. specialize (Total N (map fst qs) F). rewrite E in Total, F.
        revert Total F. generalize (map fst qs), (map snd qs). intros rs os G. induction G as [|q o rs os Hq _ IH]; intro F; constructor.
        * inversion F; subst. exists (S (S (S (S (S (S N)))))). split; [ | assumption ]. apply Sound. constructor; [ exact Hq | constructor ].
        * inversion F; subst. apply IH. assumption.
      + intro H. destruct (uniform own More _ _ H) as (n & Hn). exists (S (S (S (S (S (S n)))))), a, l. rewrite Run.
        assert (G : handled (S (S (S (S (S (S n)))))) (map fst qs) = map snd qs).
        { apply Sound. clear H. induction Hn as [|q o rs os [E F] _ IH]; constructor; [ | exact IH ].
          specialize (Total n [q]). rewrite E in Total. specialize (Total (Forall_cons o F (Forall_nil _))). inversion Total; assumption. }
        split; [ unfold handled in G; rewrite G; reflexivity | ].
        clear - H. induction H as [|q o rs os (n & _ & F) _ IH]; constructor; assumption.
    - rewrite (pairs_in (fun q o => exists n, own n q o) qs). split; intros H q r I; specialize (H q r I).
      + destruct H as (n & E & F). exists n, a, l. rewrite Run. cbn [map fst snd]. split; [ unfold handled in E; rewrite E; reflexivity | constructor; [ exact F | constructor ] ].
      + destruct H as (n & a' & l' & E & F). exists n. rewrite Run in E. injection E as _ _ E. split; [ exact E | inversion F; assumption ].
  Qed.

  Theorem C96_service_any_order_partial : forall args config opts address l on_disk matching cfg c qs qs',
    starts parse_int load_pair load_pool args config opts address l ->
    asks (world_for DDgo config) on_disk matching cfg [] [LkEnv] -> dependable (world_for DDgo config) ->
    usable conv (parse_type DDgo) (parse DDgo) file stdin render ->
    config_new (w_env (world_for DDgo config)) (w_cfgpath (world_for DDgo config)) cfg = Ok c ->
    incl qs' qs -> service_has args qs -> service_has args qs'.
  Proof.
    intros args config opts address l od mt cfg c qs qs' H1 H2 H3 H4 H5 I H.
    pose proof (proj1 (C96_service_partial args config opts address l od mt cfg c qs H1 H2 H3 H4 H5) H) as G.
    apply (C96_service_partial args config opts address l od mt cfg c qs' H1 H2 H3 H4 H5). intros q r J. exact (G q r (I _ J)).
  Qed.
End Service.
Print Assumptions C96_service_partial.
Print Assumptions C96_service_any_order_partial.

(** ** Examples: the sessions of C86 and C87 in reverse order with repeated
    requests, and one request alone. *)
Example C96_each_alone_ex : each_alone (many_w deep_cfg) many_rs /\ session_has (many_w deep_cfg) false (combine many_rs many_os).
Proof.
  split.
  - eapply C96_each_alone_partial; [ exact (many_asks deep_cfg eq_refl) | vm_compute; reflexivity | exact (many_dependable deep_cfg) | exact many_wellformed ].
  - exists 14. split; [ vm_compute; reflexivity | ]. cbn. repeat (constructor; [ discriminate | ]). constructor.
Qed.

Example C96_any_order_ex : session_has (many_w deep_cfg) true (rev (combine many_rs many_os) ++ combine many_rs many_os).
Proof.
  eapply (C96_any_order_partial (many_w deep_cfg) many_disk (fun _ => []) (CfYaml deep_cfg) [LkEnv] [LkScope; LkUser "fn"] _ false true (combine many_rs many_os));
    [ exact (many_asks deep_cfg eq_refl) | vm_compute; reflexivity | exact (many_dependable deep_cfg) | exact many_wellformed | | exact (proj2 C96_each_alone_ex) ].
  intros x I. apply in_app_or in I as [I|I]; [ apply in_rev; exact I | exact I ].
Qed.

Notation served_here := (service_has (T := unit) (fun _ _ => true) (fun _ v => Ok v) tt two_types (fun _ => None) (fun _ => ex_parse) ex_file VfEmpty
  rendered (fun _ => ret "") (files_here deep_cfg) shown [] "/h" (fun p => p) P_RestArgs.ex_port (fun _ _ => true) (fun _ => true) svc_args).
Lemma here_has : served_here (combine here_rs here_os).
Proof. exists 12, ":9000", Rest.Plain. split; [ exact here_runs | ]. cbn. repeat (constructor; [ discriminate | ]). constructor. Qed.

Example C96_service_ex : forall qs, incl qs (combine here_rs here_os) -> served_here qs.
Proof.
  intros qs I.
  eapply (C96_service_any_order_partial (T := unit) (fun _ _ => true) (fun _ v => Ok v) tt two_types (fun _ => None) (fun _ => ex_parse) ex_file VfEmpty
           rendered (fun _ => ret "") (files_here deep_cfg) shown (fun t => eq_refl) [] "/h" (fun p => p) P_RestArgs.ex_port (fun _ _ => true) (fun _ => true)
           svc_args "/h/hiera.yaml" (mk_command "" "" None [] [] [] "" false false false) ":9000" Rest.Plain many_disk (fun _ => []) (CfYaml deep_cfg) _
           (combine here_rs here_os) qs svc_starts);
    [ exact (here_asks deep_cfg DDgo eq_refl) | exact (here_dependable deep_cfg DDgo) | exact (here_usable _ two_types_work) | vm_compute; reflexivity
    | exact I | exact here_has ].
Qed.
