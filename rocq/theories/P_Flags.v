(** C77: what the arguments of the lookup command mean. *)

From Coq Require Import String Ascii List Bool Lia Arith.
From Verif Require Import Str Value Outcome State Api Args Flags SpecFlags ArgsFacts FlagsFacts.
Import ListNotations.
Open Scope string_scope.

(** The options of a lookup, from the settings: an option is what it was set to
    last, or its default; a list has all the values in order; a default that was
    not given is not a default that is empty; a switch is on when its last
    setting says so. *)
Record options_from (ss : list (string * string)) (o : command_options) (dialect config : string) : Prop := mk_options_from {
  of_type : option_is "type" "" ss (co_type o);
  of_merge : option_is "merge" "first" ss (co_merge o);
  of_default : last_set "default" ss (co_default o);
  of_facts : all_set "facts" ss (co_fact_paths o);
  of_vars : all_set "vars" ss (co_var_paths o);
  of_var : all_set "var" ss (co_variables o);
  of_render : option_is "render-as" "" ss (co_render_as o);
  of_explain : co_explain_data o = true <-> switched "explain" ss;
  of_options : co_explain_options o = true <-> switched "explain-options" ss;
  of_all : co_lookup_all o = true <-> switched "all" ss;
  of_dialect : option_is "dialect" "pcore" ss dialect;
  of_config : option_is "config" "" ss config
}.

Lemma sensible_sane : forall ss, sensible ss <-> Forall sane ss.
Proof.
  intro ss. unfold sensible, sane. rewrite Forall_forall. split.
  - intros H [n v] Hi Hn. cbn in *. destruct (H n v Hi Hn) as [Hy|Hy].
    + apply parse_bool_yes in Hy. now rewrite Hy.
    + apply parse_bool_no in Hy. now rewrite Hy.
  - intros H n v Hi Hn. specialize (H (n, v) Hi Hn). cbn in H.
    destruct (parse_bool v) as [[]|] eqn:E; [left; now apply parse_bool_yes|right; now apply parse_bool_no|contradiction].
Qed.

Lemma options_from_det : forall ss o o' d d' c c',
  options_from ss o d c -> options_from ss o' d' c' -> o = o' /\ d = d' /\ c = c'.
Proof.
  intros ss [a1 a2 a3 a4 a5 a6 a7 a8 a9 a10] [b1 b2 b3 b4 b5 b6 b7 b8 b9 b10] d d' c c' A B.
  destruct A as [A1 A2 A3 A4 A5 A6 A7 A8 A9 A10 A11 A12], B as [B1 B2 B3 B4 B5 B6 B7 B8 B9 B10 B11 B12]. cbn in *.
  apply option_is_final in A1, A2, A7, A11, A12, B1, B2, B7, B11, B12.
  apply last_set_det in A3, B3. apply all_set_det in A4, A5, A6, B4, B5, B6.
  assert (T : forall x y : bool, (x = true <-> y = true) -> x = y)
    by (intros [] [] H; try reflexivity; [symmetry; now apply H|now apply H]).
  assert (a8 = b8) by (apply T; rewrite A8, B8; reflexivity).
  assert (a9 = b9) by (apply T; rewrite A9, B9; reflexivity).
  assert (a10 = b10) by (apply T; rewrite A10, B10; reflexivity).
  subst. repeat split.
Qed.

(** A command whose variable for --default has nothing in it. *)
Section Fresh.
  Variable g : flags.
  Hypothesis Hd : fl_dflt g = None.

  Lemma execute_reads : forall args ss ns, reads args ss ns -> sensible ss ->
    (switched "help" ss -> snd (execute g args) = AcHelp) /\
    (~ switched "help" ss -> switched "version" ss -> snd (execute g args) = AcVersion) /\
    (~ switched "help" ss -> ~ switched "version" ss -> ns = [] -> snd (execute g args) = AcRefuse) /\
    (~ switched "help" ss -> ~ switched "version" ss -> ns <> [] ->
       exists o d c, snd (execute g args) = AcLookup o d c ns /\ options_from ss o d c).
  Proof.
    intros args ss ns Hr Hs. apply sensible_sane in Hs.
    pose proof (reads_known _ _ _ Hr) as Hk.
    destruct (apply_total ss (new_command g) Hk Hs) as (g' & Ha).
    pose proof (apply_leaves _ _ _ Hk Ha) as L.
    pose proof (reads_parse _ _ _ Hr [] (new_command g)) as Hp. rewrite Ha in Hp. cbn [rev app] in Hp.
    unfold execute. rewrite Hp.
    assert (Hh : fl_help g' = true <-> switched "help" ss) by (rewrite (lv_help _ _ _ L); apply switched_on).
    assert (Hv : fl_version g' = true <-> switched "version" ss) by (rewrite (lv_version _ _ _ L); apply switched_on).
    split; [|split; [|split]].
    - intro H. apply Hh in H. rewrite H. reflexivity.
    - intros H1 H2. apply Hv in H2. rewrite H2.
      destruct (fl_help g'); [exfalso; apply H1; now apply Hh|reflexivity].
    - intros H1 H2 ->. destruct (fl_help g'); [exfalso; apply H1; now apply Hh|].
      destruct (fl_version g'); [exfalso; apply H2; now apply Hv|reflexivity].
    - intros H1 H2 H3. destruct (fl_help g'); [exfalso; apply H1; now apply Hh|].
      destruct (fl_version g'); [exfalso; apply H2; now apply Hv|].
      destruct ns as [|x ns]; [contradiction|]. do 3 eexists. split; [reflexivity|].
      destruct L. constructor; cbn.
      + apply option_is_final. assumption.
      + apply option_is_final. assumption.
      + rewrite lv_default. cbn. rewrite Hd. pose proof (final_last "default" ss) as F.
        destruct (final "default" ss); exact F.
      + rewrite lv_facts. apply collect_all.
      + rewrite lv_vars. apply collect_all.
      + rewrite lv_var. apply collect_all.
      + apply option_is_final. assumption.
      + rewrite lv_explain. apply switched_on.
      + rewrite lv_options. apply switched_on.
      + rewrite lv_all. apply switched_on.
      + apply option_is_final. assumption.
      + apply option_is_final. assumption.
  Qed.

  Lemma execute_back : forall args,
    match snd (execute g args) with
    | AcHelp | AcVersion | AcLookup _ _ _ _ => exists ss ns, reads args ss ns /\ sensible ss
    | _ => True
    end.
  Proof.
    intro args. unfold execute.
    destruct (parse_args args [] (new_command g)) as [g' ns|g'|] eqn:E; cbn; try exact I.
    apply (parse_reads (length args)) in E; [|lia]. destruct E as (ss & ns' & Hr & Ha & _).
    assert (H : exists ss ns, reads args ss ns /\ sensible ss).
    { exists ss, ns'. split; [exact Hr|]. apply sensible_sane. exact (apply_sane _ _ _ Ha). }
    destruct (fl_help g'); [exact H|]. destruct (fl_version g'); [exact H|].
    destruct ns; [exact I|exact H].
  Qed.

  Lemma execute_lookup_iff : forall args o d c ns,
    snd (execute g args) = AcLookup o d c ns <->
    exists ss, reads args ss ns /\ sensible ss /\ ~ switched "help" ss /\ ~ switched "version" ss /\ ns <> [] /\
      options_from ss o d c.
  Proof.
    intros args o d c ns. split.
    - intro H. pose proof (execute_back args) as B. rewrite H in B.
      destruct B as (ss & ns' & Hr & Hs). destruct (execute_reads _ _ _ Hr Hs) as (A1 & A2 & A3 & A4).
      destruct (switched_dec "help" ss) as [Hh|Hh]; [rewrite (A1 Hh) in H; discriminate|].
      destruct (switched_dec "version" ss) as [Hv|Hv]; [rewrite (A2 Hh Hv) in H; discriminate|].
      destruct ns' as [|x ns']; [rewrite (A3 Hh Hv eq_refl) in H; discriminate|].
      destruct (A4 Hh Hv) as (o' & d' & c' & E & Ho); [discriminate|].
      rewrite E in H. injection H as -> -> -> <-. exists ss. repeat (split; [assumption|]). split; [discriminate|exact Ho].
    - intros (ss & Hr & Hs & Hh & Hv & Hn & Ho). destruct (execute_reads _ _ _ Hr Hs) as (_ & _ & _ & A4).
      destruct (A4 Hh Hv Hn) as (o' & d' & c' & E & Ho'). rewrite E.
      destruct (options_from_det _ _ _ _ _ _ _ Ho Ho') as (-> & -> & ->). reflexivity.
  Qed.

  Lemma execute_help_iff : forall args,
    snd (execute g args) = AcHelp <-> exists ss ns, reads args ss ns /\ sensible ss /\ switched "help" ss.
  Proof.
    intro args. split.
    - intro H. pose proof (execute_back args) as B. rewrite H in B. destruct B as (ss & ns & Hr & Hs).
      destruct (execute_reads _ _ _ Hr Hs) as (A1 & A2 & A3 & A4).
      destruct (switched_dec "help" ss) as [Hh|Hh]; [eauto|].
      destruct (switched_dec "version" ss) as [Hv|Hv]; [rewrite (A2 Hh Hv) in H; discriminate|].
      destruct ns as [|x ns]; [rewrite (A3 Hh Hv eq_refl) in H; discriminate|].
      destruct (A4 Hh Hv) as (o' & d' & c' & E & Ho); [discriminate|]. rewrite E in H. discriminate.
    - intros (ss & ns & Hr & Hs & Hh). exact (proj1 (execute_reads _ _ _ Hr Hs) Hh).
  Qed.

  Lemma execute_refuse_iff : forall args, (forall a, In a args -> ~ short a) ->
    (snd (execute g args) = AcRefuse <->
     forall ss ns, reads args ss ns -> sensible ss -> ns = [] /\ ~ switched "help" ss /\ ~ switched "version" ss).
  Proof.
    intros args Hns. split.
    - intros H ss ns Hr Hs. destruct (execute_reads _ _ _ Hr Hs) as (A1 & A2 & A3 & A4).
      destruct (switched_dec "help" ss) as [Hh|Hh]; [rewrite (A1 Hh) in H; discriminate|].
      destruct (switched_dec "version" ss) as [Hv|Hv]; [rewrite (A2 Hh Hv) in H; discriminate|].
      destruct ns as [|x ns]; [auto|].
      destruct (A4 Hh Hv) as (o' & d' & c' & E & Ho); [discriminate|]. rewrite E in H. discriminate.
    - intro H. pose proof (execute_back args) as B.
      assert (Hsh : snd (execute g args) <> AcShort).
      { unfold execute. pose proof (parse_not_short (length args) args [] (new_command g) (le_n _) Hns) as P.
        destruct (parse_args args [] (new_command g)) as [g' ns|g'|]; [|discriminate|contradiction].
        destruct (fl_help g'); [discriminate|]. destruct (fl_version g'); [discriminate|]. destruct ns; discriminate. }
      destruct (snd (execute g args)) as [| | |o d c ns|] eqn:E; try reflexivity; try contradiction;
        destruct B as (ss & ns' & Hr & Hs); destruct (H _ _ Hr Hs) as (-> & Hh & Hv);
        destruct (execute_reads _ _ _ Hr Hs) as (_ & _ & A3 & _); rewrite (A3 Hh Hv eq_refl) in E; discriminate.
  Qed.
End Fresh.

(** ** C77

    The keys and the options of a lookup are those that the arguments of
    ExecuteLookup say, whatever commands were executed in the process before
    ([g]).  Full statement with [C77_help], [C77_refused] and [C77_program]. *)
Theorem C77_lookup : forall g args o dialect config names,
  snd (execute_lookup g args) = AcLookup o dialect config names <->
  exists ss, reads args ss names /\ sensible ss /\ ~ switched "help" ss /\ ~ switched "version" ss /\ names <> [] /\
    options_from ss o dialect config.
Proof. intros g args o d c ns. apply execute_lookup_iff. reflexivity. Qed.

(** Help is written exactly when it is asked for. *)
Theorem C77_help : forall g args,
  snd (execute_lookup g args) = AcHelp <-> exists ss names, reads args ss names /\ sensible ss /\ switched "help" ss.
Proof. intros g args. apply execute_help_iff. reflexivity. Qed.

(** The arguments are refused exactly when they cannot be read, when a switch is
    set to something that is neither yes nor no, or when there is no name. *)
Theorem C77_refused : forall g args, (forall a, In a args -> ~ short a) ->
  (snd (execute_lookup g args) = AcRefuse <->
   forall ss names, reads args ss names -> sensible ss ->
     names = [] /\ ~ switched "help" ss /\ ~ switched "version" ss).
Proof. intros g args H. apply execute_refuse_iff; [reflexivity|exact H]. Qed.

(** The program lookup, which executes one command, reads its arguments like
    ExecuteLookup does. *)
Theorem C77_program : forall g args, snd (execute first_flags args) = snd (execute_lookup g args).
Proof.
  intros g args. unfold execute_lookup, execute.
  change (new_command (mk_flags no_options None "" "" (fl_dialect g) (fl_help g) (fl_version g)))
    with (new_command first_flags).
  destruct (parse_args args [] (new_command first_flags)) as [g' ns|g'|]; try reflexivity.
Qed.

(** Commands executed one after the other do not change what later ones do. *)
Theorem C77_independent : forall g argss,
  execute_all g argss = map (fun args => snd (execute first_flags args)) argss.
Proof.
  intros g argss. revert g. induction argss as [|args r IH]; intro g; [reflexivity|].
  cbn [execute_all map]. rewrite (C77_program g args). destruct (execute_lookup g args) as [g' a]. cbn. now rewrite IH.
Qed.

(** The last setting counts, a value may follow in the next argument even when
    it looks like a flag, and what comes after two dashes are names. *)
Example C77_args : list string :=
  ["--var"; "a:1"; "x.y"; "--merge=deep"; "--var=b=2"; "--merge"; "hash"; "--explain"; "--explain=false";
   "--default="; "--render-as"; "--all"; "--"; "--z"].

Example C77_ex : snd (execute_lookup first_flags C77_args) =
  AcLookup (mk_command "" "hash" (Some "") [] [] ["a:1"; "b=2"] "--all" false false false) "pcore" "" ["x.y"; "--z"].
Proof. reflexivity. Qed.

Example C77_reads_ex :
  reads C77_args [("var", "a:1"); ("merge", "deep"); ("var", "b=2"); ("merge", "hash"); ("explain", "true");
                  ("explain", "false"); ("default", ""); ("render-as", "--all")] ["x.y"; "--z"].
Proof.
  unfold C77_args.
  apply (rd_value "var"); [cbn; tauto|].
  apply rd_name; [right; intros t H; discriminate|].
  apply (rd_equals "merge" "deep"); [left; cbn; tauto|].
  apply (rd_equals "var" "b=2"); [left; cbn; tauto|].
  apply (rd_value "merge"); [cbn; tauto|].
  apply (rd_switch "explain"); [cbn; tauto|].
  apply (rd_equals "explain" "false"); [right; cbn; tauto|].
  apply (rd_equals "default" ""); [left; cbn; tauto|].
  apply (rd_value "render-as"); [cbn; tauto|].
  apply rd_rest.
Qed.

Example C77_help_ex : snd (execute_lookup first_flags ["a"; "--all"; "--help"]) = AcHelp.
Proof. reflexivity. Qed.

Example C77_refused_ex :
  snd (execute_lookup first_flags ["a"; "--explain=maybe"]) = AcRefuse /\
  (forall a, In a ["a"; "--explain=maybe"] -> ~ short a) /\
  snd (execute_lookup first_flags ["--merge"]) = AcRefuse /\
  snd (execute_lookup first_flags ["a"; "--color"]) = AcRefuse.
Proof.
  split; [reflexivity|]. split; [|split; reflexivity].
  intros a [<-|[<-|[]]] (c & t & Hc & E); cbn in E; [discriminate|]. injection E as <- _. apply Hc. reflexivity.
Qed.

Example C77_independent_ex :
  execute_all first_flags [["a"; "--default"; "x"; "--dialect"; "dgo"]; ["a"]] =
  [AcLookup (mk_command "" "first" (Some "x") [] [] [] "" false false false) "dgo" "" ["a"];
   AcLookup (mk_command "" "first" None [] [] [] "" false false false) "pcore" "" ["a"]].
Proof. reflexivity. Qed.

(** Commands made with NewCommand, without ExecuteLookup, are not independent:
    a default given to one stays for the next.  Full statement: *)
Definition C77_new_command : Prop := forall g before args,
  snd (execute (fst (execute g before)) args) = snd (execute first_flags args).
Theorem C77_new_command_refuted : exists g before args,
  snd (execute g before) <> AcRefuse /\
  snd (execute (fst (execute g before)) args) <> snd (execute first_flags args).
Proof. exists first_flags, ["a"; "--default"; "x"], ["a"]. split; discriminate. Qed.

(** What cmdOpts.Default holds makes no difference: cmdLookup overwrites it,
    /repo/cli/hiera.go:123. *)
Definition keep (d : option string) (g : flags) : flags :=
  let o := fl_opts g in
  with_opts (mk_command (co_type o) (co_merge o) d (co_fact_paths o) (co_var_paths o) (co_variables o)
               (co_render_as o) (co_explain_data o) (co_explain_options o) (co_lookup_all o)) g.

Lemma set_flag_keep : forall n v d g,
  set_flag n v (keep d g) = match set_flag n v g with Some g' => Some (keep d g') | None => None end.
Proof.
  intros n v d g. unfold set_flag.
  repeat match goal with |- context [String.eqb n ?t] => destruct (String.eqb n t); [reflexivity|] end.
  destruct (parse_bool v) as [b|]; [|reflexivity].
  repeat match goal with |- context [String.eqb n ?t] => destruct (String.eqb n t); [reflexivity|] end.
  reflexivity.
Qed.

Lemma parse_keep : forall m args acc d g, length args <= m ->
  parse_args args acc (keep d g) =
  match parse_args args acc g with
  | Parsed g' ns => Parsed (keep d g') ns
  | Refused g' => Refused (keep d g')
  | Short => Short
  end.
Proof.
  induction m as [|m IH]; intros args acc d g Hl.
  - destruct args; [reflexivity|cbn in Hl; lia].
  - destruct args as [|a r]; [reflexivity|]. cbn in Hl.
    destruct (arg_cases a) as [Hp|[-> |[(t & Ht & ->)|Hs]]].
    + rewrite !parse_plain by exact Hp. apply IH. lia.
    + reflexivity.
    + rewrite !parse_long by exact Ht. unfold long_step.
      destruct (split_equals t) as [n [v|]]; destruct (aget n flag_kinds) as [k|]; try reflexivity.
      * rewrite set_flag_keep. destruct (set_flag n v g) as [g'|]; [|destruct k; reflexivity].
        rewrite (IH r acc d g') by lia. destruct k; reflexivity.
      * destruct k.
        2:{ rewrite set_flag_keep. destruct (set_flag n "true" g) as [g'|]; [apply IH; lia|reflexivity]. }
        all: destruct r as [|v r]; [reflexivity|]; cbn in Hl; rewrite set_flag_keep;
             destruct (set_flag n v g) as [g'|]; [apply IH; lia|reflexivity].
    + rewrite !parse_short by exact Hs. reflexivity.
Qed.

Lemma execute_dflt : forall g args, fl_dflt g = None -> snd (execute g args) = snd (execute first_flags args).
Proof.
  intros g args H. unfold execute.
  assert (E : new_command g = keep (co_default (fl_opts g)) (new_command first_flags))
    by (unfold new_command, keep; rewrite H; reflexivity).
  rewrite E, (parse_keep (length args)) by lia.
  destruct (parse_args args [] (new_command first_flags)) as [g' ns|g'|]; try reflexivity.
  cbn [keep with_opts fl_help fl_version fl_opts fl_dflt fl_dialect fl_config].
  destruct (fl_help g'); [reflexivity|]. destruct (fl_version g'); [reflexivity|]. destruct ns; reflexivity.
Qed.

(** It is only the default that stays: after a command that was not given one,
    a command does what it would do first.  Missing: commands before that were
    given a default, or whose arguments were refused. *)
Theorem C77_new_command_partial : forall before ss names args,
  reads before ss names -> sensible ss -> ~ In "default" (map fst ss) ->
  snd (execute (fst (execute first_flags before)) args) = snd (execute first_flags args).
Proof.
  intros before ss ns args Hr Hs Hn. apply execute_dflt.
  apply sensible_sane in Hs. pose proof (reads_known _ _ _ Hr) as Hk.
  destruct (apply_total ss (new_command first_flags) Hk Hs) as (g' & Ha).
  pose proof (apply_leaves _ _ _ Hk Ha) as L.
  pose proof (reads_parse _ _ _ Hr [] (new_command first_flags)) as Hp. rewrite Ha in Hp. cbn [rev app] in Hp.
  assert (F : final "default" ss = None) by (symmetry; apply (last_set_det "default" ss None); exact Hn).
  assert (D : fl_dflt g' = None) by (rewrite (lv_default _ _ _ L), F; reflexivity).
  unfold execute. rewrite Hp.
  destruct (fl_help g'); [exact D|]. destruct (fl_version g'); [exact D|]. destruct ns; exact D.
Qed.

Example C77_new_command_ex :
  reads ["a"; "--merge"; "deep"] [("merge", "deep")] ["a"] /\ sensible [("merge", "deep")] /\
  ~ In "default" (map fst [("merge", "deep")]) /\
  snd (execute (fst (execute first_flags ["a"; "--merge"; "deep"])) ["b"; "--all"]) =
  AcLookup (mk_command "" "first" None [] [] [] "" false false true) "pcore" "" ["b"].
Proof.
  split; [|split; [|split; [|reflexivity]]].
  - apply rd_name; [right; intros t H; discriminate|]. apply (rd_value "merge"); [cbn; tauto|constructor].
  - intros n v Hi Hs. destruct Hi as [Hi|[]]. injection Hi as <- <-. exfalso. unfold switch in Hs. cbn in Hs.
    repeat (destruct Hs as [Hs|Hs]; [discriminate|]). destruct Hs.
  - intros [H|[]]. discriminate.
Qed.

(** The level for log messages changes nothing (finding 55). *)
Theorem C77_loglevel_ignored : forall l l' key,
  snd (execute_lookup first_flags ["--loglevel"; l; key]) = snd (execute_lookup first_flags ["--loglevel"; l'; key]).
Proof.
  intros l l' key.
  assert (E : forall x, snd (execute_lookup first_flags ["--loglevel"; x; key]) =
                        snd (execute_lookup first_flags ["--loglevel"; "debug"; key])).
  { intro x. unfold execute_lookup, execute.
    change (new_command (mk_flags no_options None "" "" (fl_dialect first_flags) (fl_help first_flags) (fl_version first_flags)))
      with (new_command first_flags).
    change "--loglevel" with ("--" ++ "loglevel"). rewrite !parse_long by discriminate.
    destruct (arg_cases key) as [Hp|[-> |[(t & Ht & ->)|Hs]]].
    - unfold long_step. cbn [split_equals]. cbn -[parse_args]. rewrite !parse_plain by exact Hp. reflexivity.
    - reflexivity.
    - unfold long_step at 1 2. cbn -[parse_args append]. rewrite !parse_long by exact Ht. unfold long_step.
      destruct (split_equals t) as [n [v|]]; destruct (aget n flag_kinds) as [k|]; try reflexivity.
      + unfold set_flag.
        repeat match goal with |- context [String.eqb n ?t] => destruct (String.eqb n t); [destruct k; reflexivity|] end.
        destruct (parse_bool v) as [b|]; [|destruct k; reflexivity].
        repeat match goal with |- context [String.eqb n ?t] => destruct (String.eqb n t); [destruct k, b; reflexivity|] end.
        destruct k, b; reflexivity.
      + destruct k; try reflexivity. unfold set_flag.
        repeat match goal with |- context [String.eqb n ?t] => destruct (String.eqb n t); [reflexivity|] end.
        reflexivity.
    - unfold long_step. cbn -[parse_args]. rewrite !parse_short by exact Hs. reflexivity. }
  rewrite (E l), (E l'). reflexivity.
Qed.

Example C77_loglevel_ex : snd (execute_lookup first_flags ["--loglevel"; "debug"; "a"]) =
  AcLookup (mk_command "" "first" None [] [] [] "" false false false) "pcore" "" ["a"].
Proof. reflexivity. Qed.

Print Assumptions C77_lookup.
Print Assumptions C77_help.
Print Assumptions C77_refused.
Print Assumptions C77_program.
Print Assumptions C77_independent.
Print Assumptions C77_new_command_refuted.
Print Assumptions C77_new_command_partial.
Print Assumptions C77_loglevel_ignored.
