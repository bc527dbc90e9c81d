(** Facts about the flags of the lookup command, for P_Flags.v. *)

From Coq Require Import String Ascii List Bool Lia Arith.
From Verif Require Import Str Value Outcome State Api Args Flags SpecFlags ArgsFacts.
Import ListNotations.
Open Scope string_scope.

Lemma kind_switch : forall n, switch n -> aget n flag_kinds = Some FkSwitch.
Proof. intros n H. unfold switch in H. each_in H; reflexivity. Qed.

Lemma kind_valued : forall n, valued n -> exists k, aget n flag_kinds = Some k /\ k <> FkSwitch.
Proof. intros n H. unfold valued in H. each_in H; eexists; (split; [reflexivity|discriminate]). Qed.

Lemma kind_known : forall n k, aget n flag_kinds = Some k -> (k = FkSwitch /\ switch n) \/ (k <> FkSwitch /\ valued n).
Proof.
  intros n k H. apply aget_in in H. unfold valued, switch. cbn in H.
  repeat (destruct H as [[= <- <-]|H]; [first [left; split; [reflexivity|cbn; tauto] | right; split; [discriminate|cbn; tauto]]|]).
  destruct H.
Qed.

Lemma known_text : forall n, valued n \/ switch n -> n <> "" /\ split_equals n = (n, None).
Proof. intros n [H|H]; unfold valued, switch in H; each_in H; (split; [discriminate|reflexivity]). Qed.

(** A setting of an option that there is, and the settings one after the other
    (/repo/cli/hiera.go:90-115). *)
Definition known : string * string -> Prop := ArgsFacts.known valued switch.
Definition apply_sets : list (string * string) -> flags -> option flags := ArgsFacts.apply_sets set_flag.
(** What the reader does with a long flag (/repo/cli/hiera.go:80-117). *)
Definition long_step (t : string) (r ns : list string) (g : flags) : parsed flags :=
  let (n, v) := split_equals t in
  match aget n flag_kinds, v with
  | None, _ => Refused g
  | Some _, Some v => match set_flag n v g with Some g' => parse_args r ns g' | None => Refused g end
  | Some FkSwitch, None => match set_flag n "true" g with Some g' => parse_args r ns g' | None => Refused g end
  | Some _, None =>
      match r with
      | [] => Refused g
      | v :: r' => match set_flag n v g with Some g' => parse_args r' ns g' | None => Refused g end
      end
  end.

Lemma parse_plain : forall a r ns g, plain a -> parse_args (a :: r) ns g = parse_args r (a :: ns) g.
Proof. exact (ArgsFacts.parse_plain flag_kinds set_flag). Qed.
Lemma parse_long : forall t r ns g, t <> "" -> parse_args (("--" ++ t) :: r) ns g = long_step t r ns g.
Proof. exact (ArgsFacts.parse_long flag_kinds set_flag). Qed.
Lemma parse_short : forall a r ns g, short a -> parse_args (a :: r) ns g = Short.
Proof. exact (ArgsFacts.parse_short flag_kinds set_flag). Qed.
Lemma reads_known : forall args ss ns, reads args ss ns -> Forall known ss.
Proof. exact (ArgsFacts.reads_known flag_kinds set_flag valued switch). Qed.
Lemma reads_parse : forall args ss ns, reads args ss ns -> forall acc g,
  match apply_sets ss g with
  | Some g' => parse_args args acc g = Parsed g' (rev acc ++ ns)%list
  | None => exists g', parse_args args acc g = Refused g'
  end.
Proof. exact (ArgsFacts.reads_parse flag_kinds set_flag valued switch kind_switch kind_valued known_text). Qed.
Lemma parse_reads : forall m args acc g g' ns, length args <= m ->
  parse_args args acc g = Parsed g' ns ->
  exists ss ns', reads args ss ns' /\ apply_sets ss g = Some g' /\ ns = (rev acc ++ ns')%list.
Proof. exact (ArgsFacts.parse_reads flag_kinds set_flag valued switch kind_known). Qed.
Lemma parse_not_short : forall m args acc g, length args <= m -> (forall a, In a args -> ~ short a) ->
  parse_args args acc g <> Short.
Proof. exact (ArgsFacts.parse_not_short flag_kinds set_flag). Qed.

(** All the variables after the settings (/repo/cli/hiera.go:90-115). *)
Record leaves (ss : list (string * string)) (g g' : flags) : Prop := mk_leaves {
  lv_loglevel : fl_loglevel g' = or_else (final "loglevel" ss) (fl_loglevel g);
  lv_config : fl_config g' = or_else (final "config" ss) (fl_config g);
  lv_dialect : fl_dialect g' = or_else (final "dialect" ss) (fl_dialect g);
  lv_default : fl_dflt g' = match final "default" ss with Some v => Some v | None => fl_dflt g end;
  lv_merge : co_merge (fl_opts g') = or_else (final "merge" ss) (co_merge (fl_opts g));
  lv_type : co_type (fl_opts g') = or_else (final "type" ss) (co_type (fl_opts g));
  lv_render : co_render_as (fl_opts g') = or_else (final "render-as" ss) (co_render_as (fl_opts g));
  lv_facts : co_fact_paths (fl_opts g') = (co_fact_paths (fl_opts g) ++ collect "facts" ss)%list;
  lv_vars : co_var_paths (fl_opts g') = (co_var_paths (fl_opts g) ++ collect "vars" ss)%list;
  lv_var : co_variables (fl_opts g') = (co_variables (fl_opts g) ++ collect "var" ss)%list;
  lv_explain : co_explain_data (fl_opts g') = on_off "explain" ss (co_explain_data (fl_opts g));
  lv_options : co_explain_options (fl_opts g') = on_off "explain-options" ss (co_explain_options (fl_opts g));
  lv_all : co_lookup_all (fl_opts g') = on_off "all" ss (co_lookup_all (fl_opts g));
  lv_help : fl_help g' = on_off "help" ss (fl_help g);
  lv_version : fl_version g' = on_off "version" ss (fl_version g)
}.

(** A switch set to something that means yes or no (/repo/cli/hiera.go:104-115). *)
Definition sane (nv : string * string) : Prop := switch (fst nv) -> parse_bool (snd nv) <> None.

Lemma set_flag_sane : forall n v g g', set_flag n v g = Some g' -> sane (n, v).
Proof.
  intros n v g g' H Hs. cbn in *. unfold switch in Hs.
  each_in Hs; cbn in H; destruct (parse_bool v); discriminate.
Qed.

Lemma set_flag_total : forall n v g, known (n, v) -> sane (n, v) -> exists g', set_flag n v g = Some g'.
Proof.
  intros n v g [Hk|Hk] Hs; cbn in Hk.
  - unfold valued in Hk. each_in Hk; eexists; reflexivity.
  - specialize (Hs Hk). cbn in Hs. unfold switch in Hk.
    each_in Hk; cbn; (destruct (parse_bool v); [|contradiction]); eexists; reflexivity.
Qed.

Lemma set_flag_leaves : forall n v g g', known (n, v) -> set_flag n v g = Some g' -> leaves [(n, v)] g g'.
Proof.
  intros n v g g' [Hk|Hk] H; cbn in Hk; [unfold valued in Hk|unfold switch in Hk]; each_in Hk; cbn in H.
  all: try (destruct (parse_bool v) as [b|] eqn:Eb; [|discriminate]).
  all: injection H as <-; constructor; cbn; unfold on_off; cbn; rewrite ?app_nil_r, ?Eb; reflexivity.
Qed.

Lemma apply_sane : forall ss g g', apply_sets ss g = Some g' -> Forall sane ss.
Proof. exact (ArgsFacts.apply_sane set_flag sane set_flag_sane). Qed.
Lemma apply_total : forall ss g, Forall known ss -> Forall sane ss -> exists g', apply_sets ss g = Some g'.
Proof. exact (ArgsFacts.apply_total set_flag valued switch sane set_flag_total). Qed.

Lemma apply_leaves : forall ss g g', Forall known ss -> apply_sets ss g = Some g' -> leaves ss g g'.
Proof.
  induction ss as [|[n v] r IH]; intros g g' Hk H.
  - cbn in H. injection H as <-. constructor; cbn; unfold on_off; cbn; rewrite ?app_nil_r; reflexivity.
  - cbn in H. destruct (set_flag n v g) as [g1|] eqn:E; [|discriminate].
    inversion Hk as [|? ? Hkn Hkr]; subst.
    pose proof (set_flag_leaves _ _ _ _ Hkn E) as L1. pose proof (IH _ _ Hkr H) as L2.
    pose proof (apply_sane _ _ _ H) as Hs.
    pose proof (fun m => final_cons m (n, v) r) as Fc. pose proof (fun m => collect_cons m (n, v) r) as Cc.
    assert (Oc : forall m d, switch m -> on_off m ((n, v) :: r) d = on_off m r (on_off m [(n, v)] d)).
    { intros m d Hm. apply on_off_cons. intros w Hw. rewrite Forall_forall in Hs. exact (Hs _ Hw Hm). }
    destruct L1, L2. constructor.
    1-7: rewrite Fc.
    8-10: rewrite Cc, app_assoc.
    11-15: rewrite Oc by (unfold switch; cbn [In]; tauto).
    8-15: congruence.
    all: match goal with |- context [final ?m ?q] => destruct (final m q) end; cbn [or_else] in *; congruence.
Qed.
