(** Property C73: from the files to what the library returns, what the lookup
    command writes and what the REST service answers. *)

From Coq Require Import String Ascii List ZArith Bool Arith Lia.
From Verif Require Import Str Value Outcome Key Merge Fpath Config Ipl Explain State Engine Session Worlds Api Rest Cmd
  SpecKey SpecIpl SpecInterp SpecConfig SpecMerge SpecLookup SpecMux SpecApi
  Meta SpecExplain Transparent KeyFacts ValueFacts MergeLookup StrFacts IplExact LookupTop SettledLookup ExLevels
  InterpFacts AnswerFacts MuxExact P_Api P_Command P_Rest P_Lookup P_Cmd P_MuxLookup RootFacts.
Import ListNotations.
Open Scope nat_scope.
Open Scope string_scope.
Open Scope list_scope.

(** ** Several names in one invocation *)

(** What a name stands for in the files, asking the configuration alone, or one of
    several functions. *)
Definition name_is (w : world) (sc : scope) (es : list entry) (all : option value) (n : nat) (opts : option entries)
           (name : string) (o : option value) : Prop :=
  exists ps, written_key name ps /\ lookup_finds w sc es all n (mk_key name ps) opts o.
Definition mux_name_is (w : world) (sc : scope) (es : list entry) (all : option value) (fs : list lkfn) (n : nat) (opts : option entries)
           (name : string) (o : option value) : Prop :=
  exists ps, written_key name ps /\ mux_finds w sc es all fs n (mk_key name ps) opts o.

Section Names.
  Variables (ask : string -> M st (option value)) (Q : st -> Prop) (is : string -> option value -> Prop).
  Hypothesis Hask : forall name o, is name o -> forall s, Q s -> exists s', ask name s = (Ok o, s') /\ Q s'.

  Lemma names_nothing names : Forall (fun n => is n None) names -> forall s, Q s -> exists s', nothing_for ask names s s' /\ Q s'.
  Proof.
    induction 1 as [|n names H _ IH]; intros s Hs; [ exists s; split; [ constructor | exact Hs ] | ].
    destruct (Hask n None H s Hs) as (s1 & E1 & Q1). destruct (IH s1 Q1) as (s2 & E2 & Q2).
    exists s2. split; [ exact (nf_cons _ _ _ _ _ _ E1 E2) | exact Q2 ].
  Qed.

  (** The value of the first name that has one, or else the default. *)
  Lemma names_answer names o dv : picks is SFirst names o -> forall s, Q s ->
    exists s', SpecApi.answer ask names None None dv None s (match o with Some v => Some (Some v) | None => option_map Some dv end) s' /\ Q s'.
  Proof.
    assert (W : forall l, Forall (without None) l).
    { induction l; constructor; [ | assumption ]. intros v (e & E & _). discriminate E. }
    intros H s Hs. remember SFirst as f eqn:Ef. destruct H as [pre n post v H1 H2|l H1|f' l outs Hne _]; [ | | congruence ].
    - destruct (names_nothing pre H1 s Hs) as (s1 & E1 & Q1). destruct (Hask n (Some v) H2 s1 Q1) as (s2 & E2 & Q2).
      exists s2. split; [ | exact Q2 ]. apply an_data; [ apply W | ]. exists pre, n, post, s1. auto.
    - destruct (names_nothing l H1 s Hs) as (s1 & E1 & Q1). exists s1. split; [ | exact Q1 ]. destruct dv as [d|]; cbn [option_map].
      + apply an_value; auto.
      + apply an_nothing; auto.
  Qed.
End Names.

(** The type that a map type, if any, has for a name. *)
Inductive entry_type {T} (types : option (list (string * T))) (x : string) : option T -> Prop :=
| et_untyped : types = None -> entry_type types x None
| et_typed : forall pre t post, types = Some (pre ++ (x, t) :: post) -> ~ In x (map fst pre) -> entry_type types x (Some t).

(** A map with those of the names that have a value, in the order in which they are
    first asked for, each with its value as its type asks for. *)
Definition collected {T} (inst : T -> option value -> bool) (conv : T -> option value -> outcome (option value))
           (is : string -> option value -> Prop) (types : option (list (string * T))) (names : list string) (m : entries) : Prop :=
  exists found shown,
    (forall x, In x names -> is x (found x)) /\
    (forall x v, In x names -> found x = Some v ->
       exists t r, entry_type types x t /\ of_type inst conv t (Some v) (Ok r) /\ shown x = match r with Some y => y | None => VNil end) /\
    m = map (fun x => (VStr x, shown x)) (firsts (filter (fun x => match found x with Some _ => true | None => false end) names)).

Section All.
  Context {T : Type}.
  Variables (inst : T -> option value -> bool) (conv : T -> option value -> outcome (option value)).
  Variables (ask : string -> M st (option value)) (Q : st -> Prop) (is : string -> option value -> Prop).
  Hypothesis Hask : forall name o, is name o -> forall s, Q s -> exists s', ask name s = (Ok o, s') /\ Q s'.

  Lemma entry_type_ensured types x t v r : entry_type types x t -> of_type inst conv t (Some v) (Ok r) ->
    ensure_type_from_map inst conv types x v = Ok r.
  Proof.
    intros [->|pre t' post -> N] H.
    - inversion H; reflexivity.
    - assert (F : find (fun e : string * T => String.eqb (fst e) x) (pre ++ (x, t') :: post) = Some (x, t')).
      { induction pre as [|[a b] pre IH]; cbn [app find fst]; [ rewrite String.eqb_refl; reflexivity | ].
        destruct (String.eqb_spec a x) as [->|_]; [ elim N; left; reflexivity | ]. apply IH. intro I. apply N. right. exact I. }
      cbn [ensure_type_from_map]. rewrite F. cbn [snd ensure_type]. inversion H as [|t0 v0 E|t0 v0 r0 E C]; subst; rewrite E; auto.
  Qed.

  Lemma put_shown (shown : string -> value) x d : mput (VStr x) (shown x) (map (fun x => (VStr x, shown x)) d)
    = map (fun x => (VStr x, shown x)) (d ++ if existsb (String.eqb x) d then [] else [x]).
  Proof.
    induction d as [|y d IH]; [ reflexivity | ]. cbn [map app existsb mput fst veq].
    destruct (String.eqb_spec x y) as [->|N].
    - cbn [orb]. rewrite app_nil_r. reflexivity.
    - cbn [orb]. destruct (String.eqb_spec y x) as [->|_]; [ congruence | ]. cbn [map]. rewrite IH. reflexivity.
  Qed.

  Lemma all_collected types (found : string -> option value) (shown : string -> value) : forall names done s,
    (forall x, In x names -> is x (found x)) ->
    (forall x v, In x names -> found x = Some v ->
       exists t r, entry_type types x t /\ of_type inst conv t (Some v) (Ok r) /\ shown x = match r with Some y => y | None => VNil end) ->
    Q s ->
    exists s', all_of inst conv ask names types None None (map (fun x => (VStr x, shown x)) done) s
      = (Ok (map (fun x => (VStr x, shown x)) (fold_left (fun acc n => acc ++ if existsb (String.eqb n) acc then [] else [n])
                (filter (fun x => match found x with Some _ => true | None => false end) names) done)), s') /\ Q s'.
  Proof.
    induction names as [|x names IH]; intros done s Hf Ht Hs; [ exists s; auto | ].
    destruct (Hask x (found x) (Hf x (or_introl eq_refl)) s Hs) as (s1 & E & Q1).
    cbn [all_of lookup_in_map filter]. unfold bind at 1. rewrite E. destruct (found x) as [v|] eqn:F.
    - destruct (Ht x v (or_introl eq_refl) F) as (t & r & Et & Ot & Es). unfold bind, lift. rewrite (entry_type_ensured types x t v r Et Ot).
      unfold or_null. rewrite <- Es, put_shown. cbn [fold_left].
      apply IH; [ intros y I; apply Hf; right; exact I | intros y u I; apply Ht; right; exact I | exact Q1 ].
    - apply IH; [ intros y I; apply Hf; right; exact I | intros y u I; apply Ht; right; exact I | exact Q1 ].
  Qed.

  Lemma names_collected types names m : collected inst conv is types names m -> forall s, Q s ->
    exists s', lookup_all inst conv ask names types None None s = (Ok (VMap m), s') /\ Q s'.
  Proof.
    intros (found & shown & Hf & Ht & ->) s Hs. destruct (all_collected types found shown names [] s Hf Ht Hs) as (s' & E & Q').
    exists s'. split; [ | exact Q' ]. unfold lookup_all, bind. change ([] : entries) with (map (fun x => (VStr x, shown x)) []). rewrite E.
    rewrite firsts_app. cbn [existsb negb app].
    match goal with |- context [filter (fun _ => true) ?l] => replace (filter (fun _ => true) l) with l; [ reflexivity | ] end.
    match goal with |- ?l = _ => induction l as [|y q IHq]; [ reflexivity | ] end. cbn [filter]. f_equal. exact IHq.
  Qed.
End All.

(** A session with an invocation in scope [sc]: nothing was looked up in it yet, or
    the hierarchy has been resolved. *)
Definition in_invocation (w : world) (c : config) (sc : scope) (es : list entry) (all : option value) (s : st) : Prop :=
  s_iv s = new_iv sc false /\ ready w c es all s.

Lemma name_asked w od mt c sc es all n N opts : steady w od mt c -> hierarchy_is w od mt sc c es -> all_options w sc es n all ->
  n + 1 <= N -> forall name o, name_is w sc es all n opts name o ->
  forall s, in_invocation w c sc es all s ->
  exists s', engine_ask w (2 + N) opts name s = (Ok o, s') /\ in_invocation w c sc es all s'.
Proof.
  intros [H1 H2 H3 (file & H4 & H5)] Hh Ha HN name o (ps & Hk & F) s [I R]. destruct N as [|N]; [ lia | ].
  destruct (lookup_again w n N ltac:(lia) sc c file H4 H5 H3 es all (mk_key name ps) opts o s I R (hierarchy_created w od mt sc c es N H1 H2 Hh) Ha F) as (s' & E & I' & R').
  exists s'. split; [ | split; assumption ]. unfold engine_ask. unfold bind at 1, lift at 1.
  rewrite (written_key_new name ps Hk).
  change (run_lookup w (2 + S N) (mk_key name ps) opts)
    with (bind (bind (lookup w (run w (S (S N))) (mk_key name ps) opts) (fun v => ret (v, true))) (fun r => ret (fst r))).
  unfold bind. rewrite E. reflexivity.
Qed.

Lemma mux_name_asked w od mt c fs sc es all n N opts : steady_mux w od mt c fs -> hierarchy_is w od mt sc c es -> all_options w sc es n all ->
  2 * n <= N -> forall name o, mux_name_is w sc es all fs n opts name o ->
  forall s, in_invocation w c sc es all s ->
  exists s', engine_ask w (4 + N) opts name s = (Ok o, s') /\ in_invocation w c sc es all s'.
Proof.
  intros [H1 H2 H3 H4 (pre & post & -> & Hpre & Hpost) (file & H5 & H6)] Hh Ha HN name o (ps & Hk & F) s [I R].
  destruct (mux_lookup_again w n od mt H1 H2 N ltac:(lia) sc c file H5 H6 pre post H4 Hpre Hpost H3 es all (mk_key name ps) opts o s I R Hh Ha F) as (s' & E & I' & R').
  exists s'. split; [ | split; assumption ]. unfold engine_ask. unfold bind at 1, lift at 1.
  rewrite (written_key_new name ps Hk).
  change (run_lookup w (4 + N) (mk_key name ps) opts)
    with (bind (bind (lookup w (run w (S (S (S N)))) (mk_key name ps) opts) (fun v => ret (v, true))) (fun r => ret (fst r))).
  unfold bind. rewrite E. reflexivity.
Qed.

Lemma in_new_invocation w c sc es all s : shared_ok w c s -> in_invocation w c sc es all (invocation sc false s).
Proof. intro H. split; [ reflexivity | ]. left. split; [ reflexivity | exact H ]. Qed.

(** The same session with an explainer: its open node is the root. *)
Definition explained (P : st -> Prop) (s : st) : Prop :=
  exists q, P q /\ sim s q /\ x_nil (s_ex s) = false /\ x_open (s_ex s) = [].

Lemma sim_ask w n opts name : sim_run _ (engine_ask w n opts name) (engine_ask w n opts name).
Proof.
  unfold engine_ask. apply sim_bind; [ apply (f_lift _ sim_run_full) | ]. intro k.
  exact (sim_bind _ _ _ _ _ _ (sim_engine w n (RLookup k opts)) (fun x => f_lift _ sim_run_full _ (Ok (fst x)))).
Qed.

Lemma ask_explained (P : st -> Prop) w n opts (is : string -> option value -> Prop) :
  (forall name o, is name o -> forall s, P s -> exists s', engine_ask w n opts name s = (Ok o, s') /\ P s') ->
  forall name o, is name o -> forall s, explained P s -> exists s', engine_ask w n opts name s = (Ok o, s') /\ explained P s'.
Proof.
  intros H name o Hi s (q & Pq & Sq & Nq & Oq). destruct (H name o Hi q Pq) as (q' & E & Pq').
  destruct (sim_ask w n opts name s q Sq Nq) as (S1 & S2 & S3 & S4). rewrite E in *. cbn [fst snd] in *.
  destruct (engine_ask w n opts name s) as [r s'] eqn:Es. cbn [fst snd] in *. subst r. destruct (S3 I) as [S5 _].
  exists s'. split; [ reflexivity | ]. exists q'. split; [ exact Pq' | ]. split; [ split; assumption | ].
  destruct S4 as (_ & _ & S6 & S7). rewrite Oq in S7. split; [ congruence | apply S7 ].
Qed.

Lemma fresh_root : forall options only s, x_nil (s_ex (with_ex (new_explainer options only) s)) = false /\ x_open (s_ex (with_ex (new_explainer options only) s)) = [].
Proof. intros. split; reflexivity. Qed.

Lemma explanation_asked opts : co_explain_data opts = true \/ co_explain_options opts = true ->
  exists options only, asked_explanation opts (Some (options, only)).
Proof.
  destruct (co_explain_data opts) eqn:D, (co_explain_options opts) eqn:O; intros [H|H]; try discriminate H; eexists _, _;
    solve [ apply ae_both; assumption | apply ae_data; assumption | apply ae_options; assumption ].
Qed.

(** ** The library *)

(** Several names, with a type and a default: the value in the files of the first
    name that has one, or else the default, as the type asks for. *)
Theorem C73_names : forall {T} (inst : T -> option value -> bool) (conv : T -> option value -> outcome (option value))
    w on_disk matching c sc es all n N names opts t dv o r,
  steady w on_disk matching c -> hierarchy_is w on_disk matching sc c es -> all_options w sc es n all -> n + 1 <= N ->
  picks (name_is w sc es all n opts) SFirst names o ->
  delivered inst conv t (match o with Some v => Some (Some v) | None => option_map Some dv end) r ->
  fst (lookup2 inst conv (engine_ask w (2 + N) opts) names t dv None None None (init_st sc None)) = r.
Proof.
  intros T inst conv w od mt c sc es all n N names opts t dv o r Hw Hh Ha HN Hp Hd.
  destruct (names_answer (engine_ask w (2 + N) opts) (in_invocation w c sc es all) (name_is w sc es all n opts)
              (name_asked w od mt c sc es all n N opts Hw Hh Ha HN) names o dv Hp (init_st sc None)) as (s' & A & _).
  { split; [ reflexivity | ]. left. split; [ reflexivity | left; reflexivity ]. }
  rewrite (proj2 (C35_first_source _ inst conv names t dv None None None (init_st sc None) r s') (or_introl (ex_intro _ _ (conj A Hd)))).
  reflexivity.
Qed.
Print Assumptions C73_names.

(** All of several names, with a map type or without: a map with the values of those
    that have one, and nothing else, in the order asked for. *)
Theorem C73_all_names : forall {T} (inst : T -> option value -> bool) (conv : T -> option value -> outcome (option value))
    w on_disk matching c sc es all n N names opts types m,
  steady w on_disk matching c -> hierarchy_is w on_disk matching sc c es -> all_options w sc es n all -> n + 1 <= N ->
  collected inst conv (name_is w sc es all n opts) types names m ->
  fst (lookup_all inst conv (engine_ask w (2 + N) opts) names types None None (init_st sc None)) = Ok (VMap m).
Proof.
  intros T inst conv w od mt c sc es all n N names opts types m Hw Hh Ha HN Hc.
  destruct (names_collected inst conv (engine_ask w (2 + N) opts) (in_invocation w c sc es all) (name_is w sc es all n opts)
              (name_asked w od mt c sc es all n N opts Hw Hh Ha HN) types names m Hc (init_st sc None)) as (s' & E & _).
  { split; [ reflexivity | ]. left. split; [ reflexivity | left; reflexivity ]. }
  rewrite E. reflexivity.
Qed.
Print Assumptions C73_all_names.

(** ** The command and the server *)

Section Programs.
  Context {T : Type}.
  Variable inst : T -> option value -> bool.
  Variable conv : T -> option value -> outcome (option value).
  Variable any : T.
  Variable parse_type : string -> outcome T.
  Variable struct_of : T -> option (list (string * T)).
  Variable parse : string -> outcome value.
  Variable file : string -> var_file.
  Variable stdin : var_file.
  Variable render : string -> value -> outcome string.
  Variable render_explainer : string -> M st string.

  (** LookupAndRender in a session of the engine. *)
  Definition look_and_render (w : world) (n : nat) (session_scope : scope) : command_options -> list string -> M st (bool * string) :=
    lookup_and_render inst conv any parse_type struct_of parse file stdin (engine_invoke session_scope) (engine_ask w n)
      render render_explainer.

  (** What is written about what was found. *)
  Inductive shows (format : string) : option value -> bool * string -> Prop :=
  | sh_nothing : shows format None (false, "")
  | sh_value : forall v out, render format v = Ok out -> shows format (Some v) (true, out).

  (** What the command is to show: the value of the first name that has one, or the
      default, as the type asks for; or with --all a map of all values. *)
  Inductive found_for (is : string -> option value -> Prop) (opts : command_options) (args : list string) (t : T) (dv : option value)
    : option value -> Prop :=
  | ff_first : forall o found, co_lookup_all opts = false -> picks is SFirst args o ->
      delivered inst conv (Some t) (match o with Some v => Some (Some v) | None => option_map Some dv end) (Ok found) ->
      found_for is opts args t dv found
  | ff_all : forall m, co_lookup_all opts = true -> (co_type opts = "" \/ struct_of t <> None) ->
      collected inst conv is (struct_of t) args m -> found_for is opts args t dv (Some (VMap m)).

  Lemma found_finds (is : string -> option value -> Prop) ask (Q : st -> Prop) opts args t dv mo found :
    (forall name o, is name o -> forall s, Q s -> exists s', ask mo name s = (Ok o, s') /\ Q s') ->
    found_for is opts args t dv found -> forall s, Q s ->
    exists s', finds inst conv struct_of ask opts args t dv mo s found s' /\ Q s'.
  Proof.
    intros Hask [o found' El Hp Hd|m El Ht Hc] s Hs.
    - destruct (names_answer (ask mo) Q is Hask args o dv Hp s Hs) as (s' & A & Q'). exists s'. split; [ | exact Q' ]. eapply fi_one; eassumption.
    - destruct (names_collected inst conv (ask mo) Q is Hask (struct_of t) args m Hc s Hs) as (s' & A & Q'). exists s'. split; [ | exact Q' ].
      apply fi_all; assumption.
  Qed.

  (** The names are looked up in the scope of the variables and, below it, of the
      session; the type, the default, the merge strategy and the format are those
      of the options. *)
  Theorem C73_command : forall w on_disk matching c fs ssc opts args t dv vars mo es all n N found b out,
    steady_mux w on_disk matching c fs ->
    asked_type any parse_type opts t -> asked_default parse opts dv ->
    create_scope parse file (co_variables opts) (co_var_paths opts) (co_fact_paths opts) stdin = Ok vars ->
    co_explain_data opts = false -> co_explain_options opts = false -> asked_merge opts mo ->
    hierarchy_is w on_disk matching (ScNest ssc vars) c es -> all_options w (ScNest ssc vars) es n all -> 2 * n <= N ->
    found_for (mux_name_is w (ScNest ssc vars) es all fs n mo) opts args t dv found ->
    shows (if String.eqb (co_render_as opts) "" then "yaml" else co_render_as opts) found (b, out) ->
    forall s, shared_ok w c s ->
    exists s', look_and_render w (4 + N) ssc opts args s = (Ok (b, out), s') /\ shared_ok w c s'.
  Proof.
    intros w od mt c fs ssc opts args t dv vars mo es all n N found b out Hw Ht Hd Hv Ed Eo Hm Hh Ha HN Hf Hs s Hsh.
    destruct (found_finds (mux_name_is w (ScNest ssc vars) es all fs n mo) (engine_ask w (4 + N)) (in_invocation w c (ScNest ssc vars) es all)
                opts args t dv mo found (mux_name_asked w od mt c fs (ScNest ssc vars) es all n N mo Hw Hh Ha HN) Hf
                (invocation (ScNest ssc vars) false s) (in_new_invocation w c (ScNest ssc vars) es all s Hsh)) as (s' & A & [_ R]).
    exists s'. split; [ | exact (ready_shared w c es all s' R) ].
    apply (proj2 (C68_output inst conv any parse_type struct_of parse file stdin (engine_invoke ssc) (engine_ask w (4 + N)) render
                    render_explainer opts args s b out s')).
    exists t, dv, vars, None, mo, (invocation (ScNest ssc vars) false s), found, s'.
    split; [ exact Ht | ]. split; [ exact Hd | ]. split; [ exact Hv | ]. split; [ apply ae_none; assumption | ].
    split; [ exact Hm | ]. split; [ reflexivity | ]. split; [ exact A | ].
    inversion Hs as [|v out' Hr]; subst.
    - split; [ apply wr_nothing; auto | ]. split; [ discriminate | congruence ].
    - split; [ eapply wr_value; eauto | ]. split; [ discriminate | reflexivity ].
  Qed.

  (** With an explanation the same is found, and the command reports the same
      success.  What it writes is the explanation, which is complete: the node of
      the explainer that is open is its root. *)
  Theorem C73_command_explained : forall w on_disk matching c fs ssc opts args t dv vars mo es all n N found,
    steady_mux w on_disk matching c fs ->
    asked_type any parse_type opts t -> asked_default parse opts dv ->
    create_scope parse file (co_variables opts) (co_var_paths opts) (co_fact_paths opts) stdin = Ok vars ->
    co_explain_data opts = true \/ co_explain_options opts = true -> asked_merge opts mo ->
    hierarchy_is w on_disk matching (ScNest ssc vars) c es -> all_options w (ScNest ssc vars) es n all -> 2 * n <= N ->
    found_for (mux_name_is w (ScNest ssc vars) es all fs n mo) opts args t dv found ->
    forall s, shared_ok w c s ->
    exists s2, shared_ok w c s2 /\ x_open (s_ex s2) = [] /\
      forall out s3, render_explainer (if String.eqb (co_render_as opts) "" then "s" else co_render_as opts) s2 = (Ok out, s3) ->
      look_and_render w (4 + N) ssc opts args s = (Ok (match found with Some _ => true | None => false end, out), s3).
  Proof.
    intros w od mt c fs ssc opts args t dv vars mo es all n N found Hw Ht Hd Hv Hx Hm Hh Ha HN Hf s Hsh.
    destruct (explanation_asked opts Hx) as (options & only & Ex).
    destruct (found_finds (mux_name_is w (ScNest ssc vars) es all fs n mo) (engine_ask w (4 + N))
                (explained (in_invocation w c (ScNest ssc vars) es all)) opts args t dv mo found
                (ask_explained _ w (4 + N) mo _ (mux_name_asked w od mt c fs (ScNest ssc vars) es all n N mo Hw Hh Ha HN)) Hf
                (with_ex (new_explainer options only) (invocation (ScNest ssc vars) true s)))
      as (s2 & A & (q & [_ R] & [Hq _] & _ & P)).
    { exists (invocation (ScNest ssc vars) false s). split; [ apply in_new_invocation; exact Hsh | ]. split; [ split; reflexivity | ].
      apply fresh_root. }
    exists s2. split; [ | split; [ exact P | ] ].
    - apply ready_shared in R. unfold shared_ok in *. apply strip_fields in Hq as (_ & -> & _). exact R.
    - intros out s3 E.
      apply (proj2 (C68_output inst conv any parse_type struct_of parse file stdin (engine_invoke ssc) (engine_ask w (4 + N)) render
                    render_explainer opts args s _ out s3)).
      exists t, dv, vars, (Some (options, only)), mo, (with_ex (new_explainer options only) (invocation (ScNest ssc vars) true s)), found, s2.
      split; [ exact Ht | ]. split; [ exact Hd | ]. split; [ exact Hv | ]. split; [ exact Ex | ].
      split; [ exact Hm | ]. split; [ reflexivity | ]. split; [ exact A | ].
      split; [ apply wr_explanation; assumption | ]. destruct found; split; congruence.
  Qed.

  (** *** The server *)
  Variable clean : string -> string.
  Variables server_vars server_paths : list string.

  Definition handled (w : world) (n : nat) (ssc : scope) : string -> params -> M st response :=
    serve_request inst conv any parse_type struct_of parse file stdin (engine_invoke ssc) (engine_ask w n) render render_explainer
      clean server_vars server_paths.

  (** Requests one after the other. *)
  Fixpoint handle_all (w : world) (n : nat) (ssc : scope) (rs : list (string * params)) (s : st) : list (outcome response) :=
    match rs with
    | [] => []
    | (path, p) :: rs => let (o, s1) := handled w n ssc path p s in o :: handle_all w n ssc rs s1
    end.

  (** The response to one request. *)
  Inductive response_is (w : world) (on_disk : string -> bool) (matching : string -> list string) (c : config) (fs : list lkfn)
            (ssc : scope) (n : nat) : string * params -> response -> Prop :=
  | re_lookup : forall path key p tp options dv vars es all o found r,
      lookup_path path key -> clean path = path -> path <> "/lookup" ->
      type_of any parse_type p (Ok tp) -> merge_of p options -> default_of parse p dv ->
      create_scope parse file (server_vars ++ pa_var p) server_paths [] stdin = Ok vars ->
      hierarchy_is w on_disk matching (ScNest ssc vars) c es -> all_options w (ScNest ssc vars) es n all ->
      mux_name_is w (ScNest ssc vars) es all fs n options key o ->
      delivered inst conv (Some tp) (match o with Some v => Some (Some v) | None => option_map Some dv end) (Ok found) ->
      match found with
      | Some v => exists body, render "json" v = Ok body /\ r = Respond 200 body
      | None => r = Respond 404 ("404 value not found" ++ str1 c_nl)
      end ->
      response_is w on_disk matching c fs ssc n (path, p) r
  | re_refused : forall path key p m e,
      lookup_path path key -> clean path = path -> path <> "/lookup" -> e = EErr m \/ e = EStr m ->
      (type_of any parse_type p (Panic e) \/
       (exists tp d r, type_of any parse_type p (Ok tp) /\ pa_default p = d :: r /\ d <> "" /\ parse_command_line_value parse d = Panic e) \/
       (exists tp dv, type_of any parse_type p (Ok tp) /\ default_of parse p dv /\
                      create_scope parse file (server_vars ++ pa_var p) server_paths [] stdin = Panic e)) ->
      response_is w on_disk matching c fs ssc n (path, p) (Respond 500 (m ++ str1 c_nl)).

  Lemma handled_is w od mt c fs ssc n N q r : steady_mux w od mt c fs -> 2 * n <= N ->
    response_is w od mt c fs ssc n q r -> forall s, shared_ok w c s ->
    exists s', handled w (4 + N) ssc (fst q) (snd q) s = (Ok r, s') /\ shared_ok w c s'.
  Proof.
    intros Hw HN H s Hs.
    destruct H as [path key p tp options dv vars es all o found r H1 H2 H3 H4 H5 H6 H7 H8 H9 H10 H11 H12|path key p m e H1 H2 H3 H4 H5].
    - destruct (names_answer (engine_ask w (4 + N) options) (in_invocation w c (ScNest ssc vars) es all)
                  (mux_name_is w (ScNest ssc vars) es all fs n options)
                  (mux_name_asked w od mt c fs (ScNest ssc vars) es all n N options Hw H8 H9 HN) [key] o dv) with (s := invocation (ScNest ssc vars) false s)
        as (s' & A & [_ R]).
      { destruct o as [v|]; [ apply (pk_first _ [] key []); [ constructor | exact H10 ] | apply pk_none; constructor; [ exact H10 | constructor ] ]. }
      { apply in_new_invocation. exact Hs. }
      exists s'. split; [ | exact (ready_shared w c es all s' R) ].
      destruct (C53_answers inst conv any parse_type struct_of parse file stdin (engine_invoke ssc) (engine_ask w (4 + N)) render render_explainer
                  clean server_vars server_paths path key p tp options dv vars s (invocation (ScNest ssc vars) false s)
                  H1 H2 H3 H4 H5 H6 H7 eq_refl) as (C1 & C2 & _).
      cbn [fst snd]. unfold handled. destruct found as [v|].
      + destruct H12 as (body & Hb & ->). exact (C1 _ s' v body A H11 Hb).
      + subst r. exact (C2 _ s' A H11).
    - exists s. split; [ | exact Hs ].
      exact (C53_refused inst conv any parse_type struct_of parse file stdin (engine_invoke ssc) (engine_ask w (4 + N)) render render_explainer
               clean server_vars server_paths path key p s m e H1 H2 H3 H4 H5).
  Qed.
  (** Any number of requests, in any order: each gets the response that the files,
      its key and its parameters determine. *)
  Theorem C73_server : forall w on_disk matching c fs ssc n N rs os,
    steady_mux w on_disk matching c fs -> 2 * n <= N ->
    Forall2 (response_is w on_disk matching c fs ssc n) rs os ->
    handle_all w (4 + N) ssc rs (init_st ssc None) = map Ok os.
  Proof.
    intros w od mt c fs ssc n N rs os Hw HN H.
    assert (G : forall s, shared_ok w c s -> handle_all w (4 + N) ssc rs s = map Ok os).
    { induction H as [|[path p] r rs os H1 H IH]; intros s Hs; [ reflexivity | ].
      destruct (handled_is w od mt c fs ssc n N (path, p) r Hw HN H1 s Hs) as (s' & E & Hs').
      cbn [handle_all map]. cbn [fst snd] in E. rewrite E. f_equal. exact (IH s' Hs'). }
    apply G. left. reflexivity.
  Qed.
End Programs.
Print Assumptions C73_command.
Print Assumptions C73_command_explained.
Print Assumptions C73_server.


(** ** Examples *)

(** The files of C55: the lookup options say that a is merged with unique. *)
Definition cmd_all : option value := pure_lookup (SDeep []) (map (under "lookup_options") cmd_files).
Definition cmd_mux : world := with_env [] (with_top LkMux (Some [LkConfig; LkEnv]) cmd_w).

Lemma cmd_mux_steady : steady_mux cmd_mux cmd_disk (fun _ => []) (levels_in ["node"; "common"]) ([] ++ LkConfig :: [LkEnv]).
Proof. exact (mux_w_steady ["node"; "common"] [] cmd_data eq_refl). Qed.
Lemma cmd_mux_levels : Forall2 (level_is cmd_mux) cmd_es cmd_files.
Proof. constructor; [ eapply li_present; reflexivity | ]. constructor; [ eapply li_present; reflexivity | constructor ]. Qed.
Lemma cmd_quiet r : Forall (fun f => forall v, under r f = Some v -> quiet v) cmd_files.
Proof.
  assert (G : forall m, (forall k v, In (k, v) m -> quiet v) -> forall v, mgets r m = Some v -> quiet v).
  { intros m Hm v E. unfold mgets in E. apply mget_in in E as (k' & Hin & _). exact (Hm _ _ Hin). }
  constructor; [ | constructor; [ | constructor ] ]; intros v E; (eapply G; [ | exact E ]); intros k x H; cbn [In] in H;
    repeat (destruct H as [H|H]; [ injection H as <- <-; split; [ reflexivity | apply settled_by; reflexivity ] | ]); destruct H.
Qed.
Lemma cmd_mux_options sc : all_options cmd_mux sc cmd_es 1 cmd_all.
Proof. apply settled_options; [ exact cmd_mux_levels | apply cmd_quiet ]. Qed.
Lemma cmd_mux_hierarchy sc : hierarchy_is cmd_mux cmd_disk (fun _ => []) sc (levels_in ["node"; "common"]) cmd_es.
Proof. apply levels_resolved. reflexivity. Qed.

Lemma cmd_mux_a sc : mux_name_is cmd_mux sc cmd_es cmd_all ([] ++ LkConfig :: [LkEnv]) 1 None "a" (Some (VArr [VInt 1; VInt 2; VInt 3])).
Proof.
  exists [PStr "a"]. split; [ apply written_by; reflexivity | ].
  apply (settled_mux cmd_mux [] [LkEnv] sc cmd_es cmd_files [] [None] (Some [(VStr "merge", VStr "unique")]) (Some [(VStr "merge", VStr "unique")])
           (mk_key "a" [PStr "a"]) "a" [] None (Some (VStr "unique")) SUnique None (Some (VArr [VInt 1; VInt 2; VInt 3]))).
  - reflexivity.
  - discriminate.
  - apply plain_key_by. reflexivity.
  - exact cmd_mux_levels.
  - apply cmd_quiet.
  - constructor.
  - constructor; [ exact (sh_environment cmd_mux sc "a") | constructor ].
  - eapply of_map; reflexivity.
  - vm_compute. constructor.
  - eapply mo_option; [ discriminate | reflexivity | reflexivity ].
  - apply si_name. constructor.
  - apply ci_none. intros l E. injection E as <-. left. reflexivity.
  - apply cv_no_conversion.
  - intros v E. injection E as <-. split; [ reflexivity | apply settled_by; reflexivity ].
  - match goal with |- digs ?ps ?v _ => exact (digs_by ps v) end.
Qed.

Lemma cmd_mux_none sc : mux_name_is cmd_mux sc cmd_es cmd_all ([] ++ LkConfig :: [LkEnv]) 1 None "none.x" None.
Proof.
  exists [PStr "none"; PStr "x"]. split; [ apply written_by; reflexivity | ].
  apply (settled_mux cmd_mux [] [LkEnv] sc cmd_es cmd_files [] [None] None None
           (mk_key "none.x" [PStr "none"; PStr "x"]) "none" [PStr "x"] None None SFirst None None).
  - reflexivity.
  - discriminate.
  - apply plain_key_by. reflexivity.
  - exact cmd_mux_levels.
  - apply cmd_quiet.
  - constructor.
  - constructor; [ exact (sh_environment cmd_mux sc "none") | constructor ].
  - eapply of_other; [ reflexivity | discriminate ].
  - vm_compute. constructor. discriminate.
  - apply mo_none; discriminate.
  - apply si_none.
  - apply ci_none. discriminate.
  - apply cv_no_conversion.
  - discriminate.
  - constructor.
Qed.

(** The first of two names has no value. *)
Example C73_command_ex : forall N,
  fst (look_and_render (T := unit) (fun _ _ => true) (fun _ v => Ok v) tt (fun _ => Ok tt) (fun _ => None) ex_parse ex_file VfEmpty
         ex_render (fun _ => ret "") cmd_mux (6 + N) (ScMap []) (plain_command "" "json" ["x=1"]) ["none.x"; "a"] (init_st (ScMap []) None))
  = Ok (true, "json of 1 2 3").
Proof.
  intro N.
  destruct (C73_command (T := unit) (fun _ _ => true) (fun _ v => Ok v) tt (fun _ => Ok tt) (fun _ => None) ex_parse ex_file VfEmpty
         ex_render (fun _ => ret "") cmd_mux cmd_disk (fun _ => []) (levels_in ["node"; "common"]) _ (ScMap []) (plain_command "" "json" ["x=1"])
         ["none.x"; "a"] tt None [(VStr "x", VStr "1")] None cmd_es cmd_all 1 (2 + N) (Some (VArr [VInt 1; VInt 2; VInt 3]))
         true "json of 1 2 3" cmd_mux_steady) with (s := init_st (ScMap []) None) as (s' & E & _);
    try reflexivity.
  - left. auto.
  - apply am_none. left. reflexivity.
  - apply cmd_mux_hierarchy.
  - apply cmd_mux_options.
  - lia.
  - eapply ff_first; [ reflexivity | | ].
    + apply (pk_first _ ["none.x"] "a" []); [ constructor; [ apply cmd_mux_none | constructor ] | apply cmd_mux_a ].
    + apply dl_value. apply ot_instance. reflexivity.
  - apply sh_value. reflexivity.
  - left. reflexivity.
Qed.

(** Three requests: a key, one that has no value, and a type that is none. *)
Definition no_params : params := mk_params [] [] [] [].
Definition bad_type : params := mk_params [] [] ["[["] [].
Example C73_server_ex : forall N,
  handle_all (T := unit) (fun _ _ => true) (fun _ v => Ok v) tt (fun _ => Panic (EErr "not a type")) (fun _ => None) ex_parse ex_file VfEmpty
    ex_render (fun _ => ret "") (fun p => p) ["x=1"] [] cmd_mux (6 + N) (ScMap [])
    [("/lookup/a", no_params); ("/lookup/none.x", no_params); ("/lookup/a", bad_type); ("/lookup/a", no_params)] (init_st (ScMap []) None)
  = [Ok (Respond 200 "json of 1 2 3"); Ok (Respond 404 ("404 value not found" ++ str1 c_nl));
     Ok (Respond 500 ("not a type" ++ str1 c_nl)); Ok (Respond 200 "json of 1 2 3")].
Proof.
  intro N.
  assert (A : response_is (T := unit) (fun _ _ => true) (fun _ v => Ok v) tt (fun _ => Panic (EErr "not a type")) ex_parse ex_file VfEmpty
    ex_render (fun p => p) ["x=1"] [] cmd_mux cmd_disk (fun _ => []) (levels_in ["node"; "common"]) ([] ++ LkConfig :: [LkEnv]) (ScMap []) 1
    ("/lookup/a", no_params) (Respond 200 "json of 1 2 3")).
  { apply (re_lookup _ _ _ _ _ _ _ _ _ _ _ _ _ _ _ _ _ _ "/lookup/a" "a" no_params tt None None [(VStr "x", VStr "1")] cmd_es cmd_all
             (Some (VArr [VInt 1; VInt 2; VInt 3])) (Some (VArr [VInt 1; VInt 2; VInt 3]))); try reflexivity; try discriminate.
    - split; [ reflexivity | ]. apply one_line_spec. reflexivity.
    - apply ty_any. reflexivity.
    - apply me_none. left. reflexivity.
    - apply de_none. reflexivity.
    - apply cmd_mux_hierarchy.
    - apply cmd_mux_options.
    - apply cmd_mux_a.
    - apply dl_value. apply ot_instance. reflexivity.
    - exists "json of 1 2 3". split; reflexivity. }
  refine (C73_server (T := unit) _ _ _ _ _ _ _ _ _ _ _ _ _ cmd_mux cmd_disk (fun _ => []) (levels_in ["node"; "common"]) _ (ScMap []) 1 (2 + N) _
           [Respond 200 "json of 1 2 3"; Respond 404 ("404 value not found" ++ str1 c_nl);
            Respond 500 ("not a type" ++ str1 c_nl); Respond 200 "json of 1 2 3"] cmd_mux_steady ltac:(lia) _).
  constructor; [ exact A | ]. constructor; [ | constructor; [ | constructor; [ exact A | constructor ] ] ].
  - apply (re_lookup _ _ _ _ _ _ _ _ _ _ _ _ _ _ _ _ _ _ "/lookup/none.x" "none.x" no_params tt None None [(VStr "x", VStr "1")] cmd_es cmd_all
             None None); try reflexivity; try discriminate.
    + split; [ reflexivity | ]. apply one_line_spec. reflexivity.
    + apply ty_any. reflexivity.
    + apply me_none. left. reflexivity.
    + apply de_none. reflexivity.
    + apply cmd_mux_hierarchy.
    + apply cmd_mux_options.
    + apply cmd_mux_none.
    + apply dl_nothing.
  - apply (re_refused _ _ _ _ _ _ _ _ _ _ _ _ _ _ _ _ _ _ "/lookup/a" "a" bad_type "not a type" (EErr "not a type")); try reflexivity; try discriminate.
    + split; [ reflexivity | ]. apply one_line_spec. reflexivity.
    + left. reflexivity.
    + left. apply (ty_given tt (fun _ => Panic (EErr "not a type")) bad_type "[["); [ reflexivity | discriminate ].
Qed.

(** The library: the same names, and both at once. *)
Lemma cmd_name_a sc : name_is cmd_w sc cmd_es cmd_all 1 None "a" (Some (VArr [VInt 1; VInt 2; VInt 3])).
Proof.
  exists [PStr "a"]. split; [ apply written_by; reflexivity | ].
  exists "a", [], (Some [(VStr "merge", VStr "unique")]), (Some (VStr "unique")), SUnique, None,
    (Some (VArr [VInt 1; VInt 2; VInt 3])), (Some (VArr [VInt 1; VInt 2; VInt 3])).
  split; [ reflexivity | ]. split; [ discriminate | ]. split; [ apply plain_correct; apply plain_key_by; reflexivity | ].
  split; [ apply plain_options; [ apply plain_key_by; reflexivity | eapply of_map; reflexivity ] | ]. split; [ eapply mo_option; [ discriminate | reflexivity | reflexivity ] | ].
  split; [ apply si_name; constructor | ]. split; [ apply ci_none; intros l E; injection E as <-; left; reflexivity | ].
  split; [ | split; [ apply cv_no_conversion | ] ].
  - change (Some (VArr [VInt 1; VInt 2; VInt 3])) with (pure_lookup SUnique (map (under "a") cmd_files)).
    apply levels_pure; [ apply plain_key_by; reflexivity | exact cmd_levels | | apply cmd_quiet ]. intros v. apply (quiet_answers cmd_w sc cmd_es (Some SUnique) 0).
  - exists (Some (VArr [VInt 1; VInt 2; VInt 3])). split; [ | exact (digs_by [] _) ].
    apply (quiet_answers cmd_w sc cmd_es None 0). split; [ reflexivity | apply settled_by; reflexivity ].
Qed.

Lemma cmd_name_none sc : name_is cmd_w sc cmd_es cmd_all 1 None "none.x" None.
Proof.
  exists [PStr "none"; PStr "x"]. split; [ apply written_by; reflexivity | ].
  exists "none", [PStr "x"], None, None, SFirst, None, None, None.
  split; [ reflexivity | ]. split; [ discriminate | ]. split; [ apply plain_correct; apply plain_key_by; reflexivity | ].
  split; [ apply plain_options; [ apply plain_key_by; reflexivity | eapply of_other; [ reflexivity | discriminate ] ] | ]. split; [ apply mo_none; discriminate | ].
  split; [ apply si_none | ]. split; [ apply ci_none; discriminate | ].
  split; [ | split; [ apply cv_no_conversion | reflexivity ] ].
  change None with (pure_lookup SFirst (map (under "none") cmd_files)).
  apply levels_pure; [ apply plain_key_by; reflexivity | exact cmd_levels | | apply cmd_quiet ]. intros v. apply (quiet_answers cmd_w sc cmd_es (Some SFirst) 0).
Qed.

Lemma cmd_options sc : all_options cmd_w sc cmd_es 1 cmd_all.
Proof. apply settled_options; [ exact cmd_levels | apply cmd_quiet ]. Qed.

Example C73_names_ex : forall N,
  fst (lookup2 (T := unit) (fun _ _ => true) (fun _ v => Ok v) (engine_ask cmd_w (4 + N) None) ["none.x"; "a"; "%{"] (Some tt) None None None None
         (init_st (ScMap []) None)) = Ok (Some (VArr [VInt 1; VInt 2; VInt 3])) /\
  fst (lookup2 (T := unit) (fun _ _ => true) (fun _ v => Ok v) (engine_ask cmd_w (4 + N) None) ["none.x"] (Some tt) (Some (VInt 9)) None None None
         (init_st (ScMap []) None)) = Ok (Some (VInt 9)).
Proof.
  intro N. change (4 + N) with (2 + (2 + N)). split.
  - apply (C73_names (fun _ _ => true) (fun _ v => Ok v) cmd_w cmd_disk (fun _ => []) (levels_in ["node"; "common"]) (ScMap []) cmd_es cmd_all 1 (2 + N)
             ["none.x"; "a"; "%{"] None (Some tt) None (Some (VArr [VInt 1; VInt 2; VInt 3])) _ cmd_steady); [ apply levels_resolved; reflexivity | apply cmd_options | lia | | ].
    + apply (pk_first _ ["none.x"] "a" ["%{"]); [ constructor; [ apply cmd_name_none | constructor ] | apply cmd_name_a ].
    + apply dl_value. apply ot_instance. reflexivity.
  - apply (C73_names (fun _ _ => true) (fun _ v => Ok v) cmd_w cmd_disk (fun _ => []) (levels_in ["node"; "common"]) (ScMap []) cmd_es cmd_all 1 (2 + N)
             ["none.x"] None (Some tt) (Some (VInt 9)) None _ cmd_steady); [ apply levels_resolved; reflexivity | apply cmd_options | lia | | ].
    + apply pk_none. constructor; [ apply cmd_name_none | constructor ].
    + apply dl_value. apply ot_instance. reflexivity.
Qed.

Lemma cmd_collected {T} (inst : T -> option value -> bool) conv (is : string -> option value -> Prop) types :
  is "none.x" None -> is "a" (Some (VArr [VInt 1; VInt 2; VInt 3])) ->
  (exists t, entry_type types "a" t /\ of_type inst conv t (Some (VArr [VInt 1; VInt 2; VInt 3])) (Ok (Some (VArr [VInt 1; VInt 2; VInt 3])))) ->
  collected inst conv is types ["none.x"; "a"; "a"] [(VStr "a", VArr [VInt 1; VInt 2; VInt 3])].
Proof.
  intros Hn Ha (t & Et & Ot).
  exists (fun x => if String.eqb x "a" then Some (VArr [VInt 1; VInt 2; VInt 3]) else None), (fun _ => VArr [VInt 1; VInt 2; VInt 3]).
  split; [ | split; [ | reflexivity ] ].
  - intros x [<-|[<-|[<-|[]]]]; assumption.
  - intros x v [<-|[<-|[<-|[]]]] E; [ discriminate E | | ]; injection E as <-; exists t; eexists; (split; [ exact Et | split; [ exact Ot | reflexivity ] ]).
Qed.

Example C73_all_names_ex : forall N,
  fst (lookup_all (T := unit) (fun _ _ => true) (fun _ v => Ok v) (engine_ask cmd_w (4 + N) None) ["none.x"; "a"; "a"] (Some [("b", tt); ("a", tt)]) None None
         (init_st (ScMap []) None)) = Ok (VMap [(VStr "a", VArr [VInt 1; VInt 2; VInt 3])]).
Proof.
  intro N. change (4 + N) with (2 + (2 + N)).
  apply (C73_all_names (T := unit) (fun _ _ => true) (fun _ v => Ok v) cmd_w cmd_disk (fun _ => []) (levels_in ["node"; "common"]) (ScMap []) cmd_es cmd_all 1 (2 + N)).
  - exact cmd_steady.
  - apply levels_resolved; reflexivity.
  - apply cmd_options.
  - lia.
  - apply cmd_collected; [ apply cmd_name_none | apply cmd_name_a | ]. exists (Some tt). split; [ | apply ot_instance; reflexivity ].
    apply (et_typed _ "a" [("b", tt)] tt []); [ reflexivity | ]. intros [E|[]]. discriminate E.
Qed.

(** The command with --all, explained. *)
Definition all_explained : command_options :=
  mk_command "" "" None [] [] ["x=1"] "" true false true.
Example C73_command_explained_ex : forall N, exists s2,
  shared_ok cmd_mux (levels_in ["node"; "common"]) s2 /\ x_open (s_ex s2) = [] /\
  look_and_render (T := unit) (fun _ _ => true) (fun _ v => Ok v) tt (fun _ => Ok tt) (fun _ => None) ex_parse ex_file VfEmpty
    ex_render (fun f => ret ("explanation as " ++ f)%string) cmd_mux (6 + N) (ScMap []) all_explained ["none.x"; "a"; "a"] (init_st (ScMap []) None)
  = (Ok (true, "explanation as s"), s2).
Proof.
  intro N.
  destruct (C73_command_explained (T := unit) (fun _ _ => true) (fun _ v => Ok v) tt (fun _ => Ok tt) (fun _ => None) ex_parse ex_file VfEmpty
         ex_render (fun f => ret ("explanation as " ++ f)%string) cmd_mux cmd_disk (fun _ => []) (levels_in ["node"; "common"]) _ (ScMap []) all_explained
         ["none.x"; "a"; "a"] tt None [(VStr "x", VStr "1")] None cmd_es cmd_all 1 (2 + N)
         (Some (VMap [(VStr "a", VArr [VInt 1; VInt 2; VInt 3])])) cmd_mux_steady) with (s := init_st (ScMap []) None) as (s2 & A & B & E);
    [ left; auto | reflexivity | reflexivity | left; reflexivity | apply am_none; left; reflexivity | apply cmd_mux_hierarchy | apply cmd_mux_options | lia | | left; reflexivity | ].
  - apply ff_all; [ reflexivity | left; reflexivity | ].
    apply cmd_collected; [ apply cmd_mux_none | apply cmd_mux_a | ]. exists None. split; [ apply et_untyped; reflexivity | constructor ].
  - exists s2. split; [ exact A | ]. split; [ exact B | ]. apply E. reflexivity.
Qed.

(** An instance of C72_every_lookup_in_a_session: three requests in different
    scopes, explained or not. *)
Definition session_requests : list request :=
  [mk_request (ScMap []) (mk_key "a" [PStr "a"]) None;
   mk_request (ScNest (ScMap []) [(VStr "x", VStr "1")]) (mk_key "none.x" [PStr "none"; PStr "x"]) None;
   mk_request (ScMap [(VStr "y", VInt 2)]) (mk_key "a" [PStr "a"]) None].
Example C72_session_ex : forall N,
  fst (serve cmd_mux (6 + N) false session_requests (init_st (ScMap []) None))
  = [Ok (Some (VArr [VInt 1; VInt 2; VInt 3])); Ok None; Ok (Some (VArr [VInt 1; VInt 2; VInt 3]))] /\
  fst (serve cmd_mux (6 + N) true session_requests (init_st (ScMap []) (Some (new_explainer true false))))
  = [Ok (Some (VArr [VInt 1; VInt 2; VInt 3])); Ok None; Ok (Some (VArr [VInt 1; VInt 2; VInt 3]))].
Proof.
  intro N.
  destruct (C72_every_lookup_in_a_session cmd_mux cmd_disk (fun _ => []) (levels_in ["node"; "common"]) ([] ++ LkConfig :: [LkEnv]) 1 (2 + N)
             session_requests [Some (VArr [VInt 1; VInt 2; VInt 3]); None; Some (VArr [VInt 1; VInt 2; VInt 3])] cmd_mux_steady) as [A B].
  - lia.
  - assert (Ha : forall sc name ps o, mux_name_is cmd_mux sc cmd_es cmd_all ([] ++ LkConfig :: [LkEnv]) 1 None name o -> new_key name = Ok (mk_key name ps) ->
                 mux_answer cmd_mux cmd_disk (fun _ => []) (levels_in ["node"; "common"]) ([] ++ LkConfig :: [LkEnv]) 1 (mk_request sc (mk_key name ps) None) o).
    { intros sc name ps o (ps' & W & F) E. exists cmd_es. split; [ apply cmd_mux_hierarchy | ]. exists cmd_all. split; [ apply cmd_mux_options | ].
      rewrite (written_key_new _ _ W) in E. injection E as ->. exact F. }
    constructor; [ apply Ha; [ apply cmd_mux_a | reflexivity ] | ].
    constructor; [ apply Ha; [ apply cmd_mux_none | reflexivity ] | ].
    constructor; [ apply Ha; [ apply cmd_mux_a | reflexivity ] | constructor ].
  - split; [ apply A | apply B ].
Qed.
