(** Property C93: what an explanation says about values that are given to
    Lookup2 and LookupAll, as overrides or as defaults. *)

From Coq Require Import String Ascii List ZArith Bool Arith Lia.
From Verif Require Import Str Value Outcome Key Merge Fpath Config Ipl Explain State Engine Session Api Worlds
  SpecApi Meta P_Api.
Import ListNotations.
Open Scope nat_scope.
Open Scope string_scope.
Open Scope list_scope.

(** An explanation has a node for an event. *)
Inductive tells (e : string) : node -> Prop :=
| te_here : forall k bs ts v key, tells e (Node k bs ts e v key)
| te_below : forall k bs ts e' v key n, In n bs -> tells e n -> tells e (Node k bs ts e' v key).
Definition frame_tells (e : string) (f : frame) : Prop := fr_e f = e \/ Exists (tells e) (fr_bs f).
Definition told (e : string) (x : explainer) : Prop :=
  frame_tells e (x_root x) \/ Exists (fun o => frame_tells e (snd o)) (x_open x).

(** The events for values that are given, /repo/explain/explainer.go:21-22. *)
Definition given_events : list string := ["found_in_defaults"; "found_in_overrides"].

(** The full statement: a value that is an override, or a default because the
    data have none, is told as such. *)
Definition C93_full : Prop :=
  forall w N opts names override defaults default_value sc v s' s0,
    lookup2 (T := unit) (fun _ _ => true) (fun _ v => Ok v) (engine_ask w N opts) names None default_value override defaults None
      (init_st sc (Some (new_explainer true false))) = (Ok (Some v), s') ->
    (first_in override names v -> told "found_in_overrides" (s_ex s')) /\
    (Forall (without override) names ->
     nothing_for (engine_ask w N opts) names (init_st sc (Some (new_explainer true false))) s0 ->
     told "found_in_defaults" (s_ex s')).

(** ** Nothing is ever said about them *)

Lemma tells_add e n f : frame_tells e (add_branch n f) -> frame_tells e f \/ tells e n.
Proof.
  intros [H|H]; [ left; left; exact H | ]. cbn [add_branch fr_bs] in H. apply Exists_app in H as [H|H]; [ left; right; exact H | ].
  right. inversion H as [? ? H1|? ? H1]; [ exact H1 | inversion H1 ].
Qed.

Lemma tells_close e k f : tells e (close k f) -> frame_tells e f.
Proof. intro H. inversion H; subst; [ now left | right; apply Exists_exists; eauto ]. Qed.

Lemma told_pop e x : told e (xpop x) -> told e x.
Proof.
  unfold xpop. intros [H|H]; destruct (x_open x) as [|[k f] [|[k' f'] r]] eqn:E; cbn [x_root x_open] in H;
    try (now left); try (now inversion H).
  - apply tells_add in H as [H|H]; [ now left | ]. right. rewrite E. constructor. now apply tells_close in H.
  - right. rewrite E. inversion H as [? ? H1|? ? H1]; [ | right; right; exact H1 ].
    apply tells_add in H1 as [H1|H1]; [ right; left; exact H1 | left; now apply tells_close in H1 ].
Qed.

Lemma told_push e k i x y : e <> "" -> xpush k i x = Some y -> told e y -> told e x.
Proof.
  intros He. unfold xpush. destruct (x_nil x); [ discriminate | ]. intro E. injection E as <-.
  intros [H|H]; [ now left | ]. right. cbn [x_open] in H. inversion H as [? ? H1|? ? H1]; [ | exact H1 ].
  destruct H1 as [H1|H1]; [ cbn in H1; congruence | inversion H1 ].
Qed.

Lemma told_report e r f : In e given_events -> frame_tells e (report_frame r f) -> frame_tells e f.
Proof.
  intros He. destruct r; cbn [report_frame]; intros H;
    try (destruct H as [H|H]; [ exfalso; cbn in H; subst e; cbn in He; intuition discriminate | right; exact H ]).
  - apply tells_add in H as [H|H]; [ exact H | ]. exfalso. inversion H; subst; [ cbn in He; intuition discriminate | contradiction ].
  - destruct H as [H|H]; [ left | right ]; exact H.
Qed.

Lemma told_accept e r x y : In e given_events -> xaccept r x = Some y -> told e y -> told e x.
Proof.
  intros He. unfold xaccept. destruct (x_nil x); [ discriminate | ]. intro E. injection E as <-.
  destruct (x_open x) as [|[k f] o] eqn:E; intros [H|H]; cbn [x_root x_open] in H.
  - left. exact (told_report e r _ He H).
  - inversion H.
  - now left.
  - right. rewrite E. inversion H as [? ? H1|? ? H1]; [ left; exact (told_report e r _ He H1) | right; exact H1 ].
Qed.

Definition tells_no_more (e : string) : rel := fun A m _ => forall s, told e (s_ex (snd (m s))) -> told e (s_ex s).

Lemma tells_no_more_full e : In e given_events -> full (tells_no_more e).
Proof.
  intro He. assert (He' : e <> "") by (intros ->; cbn in He; intuition discriminate). constructor.
  - intros A o s H. exact H.
  - intros A B m m' f f' H1 H2 s H. unfold bind in H. specialize (H1 s). destruct (m s) as [[a|x| |] s1]; try exact (H1 H).
    exact (H1 (H2 a s1 H)).
  - intros A o s. destruct o; try (intro H; exact H). cbv beta iota delta [run_op]. destruct (iv_expl (s_iv s)); [ | intro H; exact H ].
    destruct (xaccept r (s_ex s)) as [x|] eqn:E; [ exact (told_accept e r _ x He E) | intro H; exact H ].
  - intros A sc m m' _ H s. destruct sc; cbv beta iota zeta delta [run_scoped with_copy].
    + destruct (iv_expl (s_iv s)); [ | exact (H s) ]. destruct (xpush k init (s_ex s)) as [x|] eqn:E; [ | exact (told_pop e _) ].
      specialize (H (with_ex x s)). destruct (m (with_ex x s)) as [o s']. intro G. apply told_pop in G.
      exact (told_push e k init _ x He' E (H G)).
    + destruct (iv_mode (s_iv s)); [ | | exact (H s) ];
        match goal with |- context [m ?t] => specialize (H t); destruct (m t) as [o s']; exact H end.
    + destruct (iv_mode (s_iv s)); [ | exact (H s) | ];
        match goal with |- context [m ?t] => specialize (H t); destruct (m t) as [o s']; exact H end.
    + destruct (iv_expl (s_iv s)); [ | exact (H s) ];
        match goal with |- context [m ?t] => specialize (H t); destruct (m t) as [o s']; exact H end.
    + match goal with |- context [m ?t] => specialize (H t); destruct (m t) as [[a|x| |] s']; exact H end.
    + destruct (iv_redacted (s_iv s)); [ exact (H s) | ];
        match goal with |- context [m ?t] => specialize (H t); destruct (m t) as [o s']; exact H end.
    + destruct (ps_locked (s_provs s id)); [ intro G; exact G | ];
        match goal with |- context [m ?t] => specialize (H t); destruct (m t) as [o s']; exact H end.
  - intros A m m' _ _ H s. cbv beta iota zeta delta [run_scoped with_copy]. destruct (iv_expl (s_iv s)); [ | exact (H s) ].
    match goal with |- context [m ?t] => specialize (H t); destruct (m t) as [o s']; exact H end.
Qed.

Lemma ask_tells w N opts e : In e given_events -> forall n s, told e (s_ex (snd (engine_ask w N opts n s))) -> told e (s_ex s).
Proof.
  intros He n. pose proof (tells_no_more_full e He) as F.
  assert (H : tells_no_more e _ (engine_ask w N opts n) (engine_ask w N opts n)); [ | exact H ].
  unfold engine_ask, run_lookup. apply F; [ apply F | intro k ]. apply F; [ | intro; apply (f_lift _ F _ (Ok _)) ].
  apply c_run. now apply full_closed.
Qed.

Section Kept.
  Context {S T : Type}.
  Variables (inst : T -> option value -> bool) (conv : T -> option value -> outcome (option value)).
  Variables (ask : string -> M S (option value)) (P : S -> Prop).
  Hypothesis Hask : forall n s, P (snd (ask n s)) -> P s.

  Lemma each_back : forall names s, P (snd (ask_each ask names s)) -> P s.
  Proof.
    induction names as [|n r IH]; intros s H; [ exact H | ]. cbn [ask_each] in H. unfold bind in H. apply (Hask n).
    destruct (ask n s) as [[[v|]|x| |] s1]; try exact H. exact (IH s1 H).
  Qed.

  Lemma lookup2_back names t dv ov df s : P (snd (lookup2 inst conv ask names t dv ov df None s)) -> P s.
  Proof.
    unfold lookup2. destruct (lookup_in_map names ov); [ intro H; exact H | ]. unfold bind. intro H. apply (each_back names).
    destruct (ask_each ask names s) as [[[v|]|x| |] s1]; try exact H.
    destruct (lookup_in_map names df); [ exact H | ]. destruct dv; exact H.
  Qed.

  Lemma all_back names t ov df : forall acc s, P (snd (all_of inst conv ask names t ov df acc s)) -> P s.
  Proof.
    induction names as [|n r IH]; intros acc s H; [ exact H | ]. cbn [all_of] in H.
    assert (Put : forall v s', P (snd ((bind (lift (ensure_type_from_map inst conv t n v))
                    (fun x => all_of inst conv ask r t ov df (mput (VStr n) (or_null x) acc))) s')) -> P s').
    { intros v s' G. unfold bind, lift in G. destruct (ensure_type_from_map inst conv t n v); try exact G. exact (IH _ s' G). }
    destruct (lookup_in_map [n] ov); [ exact (Put _ s H) | ]. unfold bind at 1 in H. apply (Hask n).
    destruct (ask n s) as [[[v|]|x| |] s1]; try exact H; [ exact (Put _ s1 H) | ].
    destruct (lookup_in_map [n] df); [ exact (Put _ s1 H) | exact (IH _ s1 H) ].
  Qed.

  Lemma lookup_all_back names t ov df s : P (snd (lookup_all inst conv ask names t ov df s)) -> P s.
  Proof.
    unfold lookup_all, bind. intro H. apply (all_back names t ov df []).
    destruct (all_of inst conv ask names t ov df [] s) as [[m|x| |] s1]; exact H.
  Qed.
End Kept.

(** Whatever is looked up, with whatever overrides and defaults, an explanation
    never says that a value is an override or a default. *)
Theorem C93_never_said : forall {T} (inst : T -> option value -> bool) (conv : T -> option value -> outcome (option value))
    w N opts names override defaults sc options only event,
  In event given_events ->
  (forall t default_value,
     ~ told event (s_ex (snd (lookup2 inst conv (engine_ask w N opts) names t default_value override defaults None
                               (init_st sc (Some (new_explainer options only))))))) /\
  (forall t, ~ told event (s_ex (snd (lookup_all inst conv (engine_ask w N opts) names t override defaults
                               (init_st sc (Some (new_explainer options only))))))).
Proof.
  intros T inst conv w N opts names ov df sc options only e He.
  assert (Start : ~ told e (s_ex (init_st sc (Some (new_explainer options only))))).
  { intros [[H|H]|H]; [ cbn in H; subst e; cbn in He; intuition discriminate | inversion H | inversion H ]. }
  split; [ intros t dv H | intros t H ]; apply Start.
  - exact (lookup2_back inst conv (engine_ask w N opts) (fun s => told e (s_ex s)) (ask_tells w N opts e He) names t dv ov df _ H).
  - exact (lookup_all_back inst conv (engine_ask w N opts) (fun s => told e (s_ex s)) (ask_tells w N opts e He) names t ov df _ H).
Qed.
Print Assumptions C93_never_said.

(** ** What is said instead *)

(** The explanation is that of the lookups alone: with an override there is
    none; without one, neither the default value nor the map of defaults nor the
    type change what it says. *)
Theorem C93_lookups_only_partial : forall {S T} (inst : T -> option value -> bool) (conv : T -> option value -> outcome (option value))
    (ask : string -> M S (option value)) names override defaults t default_value s,
  ((exists v, first_in override names v) -> snd (lookup2 inst conv ask names t default_value override defaults None s) = s) /\
  (Forall (without override) names ->
   snd (lookup2 inst conv ask names t default_value override defaults None s) =
   snd (lookup2 inst conv ask names None None None None None s)).
Proof.
  intros S T inst conv ask names ov df t dv s. split.
  - intros (v & H). unfold lookup2. destruct (lookup_in_map names ov) eqn:E; [ reflexivity | ].
    apply lookup_in_map_none in E. now apply first_in_not_without in H.
  - intro H. unfold lookup2. destruct (lookup_in_map names ov) as [v|] eqn:E.
    { apply lookup_in_map_some in E. now apply first_in_not_without in E. }
    cbn [lookup_in_map]. unfold bind. destruct (ask_each ask names s) as [[[v|]|x| |] s1]; try reflexivity.
    destruct (lookup_in_map names df); [ reflexivity | ]. destruct dv; reflexivity.
Qed.
Print Assumptions C93_lookups_only_partial.

(** ** Witnesses *)

Definition gv_w : world := file_world [("/h/hiera.yaml", levels ["common"])] [("/h/data/common.yaml", vmap [("port", VStr "443")])].
Definition gv_start : st := init_st (ScMap []) (Some (new_explainer true false)).
Definition gv_lookup (names : list string) (ov df : option entries) : M st (option value) :=
  lookup2 (T := unit) (fun _ _ => true) (fun _ v => Ok v) (engine_ask gv_w 5 None) names None None ov df None.

(** The value is the override, and the explanation is empty; the value is the
    default, and the explanation is that of a lookup that finds nothing. *)
Theorem C93_told_refuted : exists w names override defaults v v',
  let look n o d s := lookup2 (T := unit) (fun _ _ => true) (fun _ v => Ok v) (engine_ask w 5 None) n None None o d None s in
  (first_in override names v /\
   fst (look names override None gv_start) = Ok (Some v) /\ x_root (s_ex (snd (look names override None gv_start))) = new_frame "") /\
  (first_in defaults ["no"] v' /\
   fst (look ["no"] None defaults gv_start) = Ok (Some v') /\ fst (look ["no"] None None gv_start) = Ok None /\
   s_ex (snd (look ["no"] None defaults gv_start)) = s_ex (snd (look ["no"] None None gv_start))).
Proof.
  exists gv_w, ["port"], (Some [(VStr "port", VStr "8080")]), (Some [(VStr "no", VStr "x")]), (VStr "8080"), (VStr "x").
  cbv zeta. split; [ split; [ | split; reflexivity ] | split; [ | split; [ | split ] ] ].
  - exists [], "port", []. split; [ reflexivity | ]. split; [ constructor | ]. eexists. split; reflexivity.
  - exists [], "no", []. split; [ reflexivity | ]. split; [ constructor | ]. eexists. split; reflexivity.
  - vm_compute. reflexivity.
  - vm_compute. reflexivity.
  - exact (f_equal s_ex (proj2 (C93_lookups_only_partial (T := unit) (fun _ _ => true) (fun _ v => Ok v) (engine_ask gv_w 5 None) ["no"] None
             (Some [(VStr "no", VStr "x")]) None None gv_start) ltac:(repeat constructor; intros v (e & F & _); discriminate F))).
Qed.
Print Assumptions C93_told_refuted.

(** Hence the full statement is false. *)
Theorem C93_full_refuted : ~ C93_full.
Proof.
  intro F.
  destruct (F gv_w 5 None ["port"] (Some [(VStr "port", VStr "8080")]) None None (ScMap []) (VStr "8080") gv_start gv_start eq_refl) as [H _].
  destruct H as [[H|H]|H]; [ | discriminate H | inversion H | inversion H ].
  exists [], "port", []. split; [ reflexivity | ]. split; [ constructor | ]. eexists. split; reflexivity.
Qed.
Print Assumptions C93_full_refuted.

(** ** Examples *)

(** With a default for a name that the data do not have: the explanation has a
    node for the lookup, which says that nothing was found. *)
Example C93_ex_never_said :
  fst (gv_lookup ["no"] None (Some [(VStr "no", VStr "x")]) gv_start) = Ok (Some (VStr "x")) /\
  Exists (tells "not_found") (fr_bs (x_root (s_ex (snd (gv_lookup ["no"] None (Some [(VStr "no", VStr "x")]) gv_start))))) /\
  ~ told "found_in_defaults" (s_ex (snd (gv_lookup ["no"] None (Some [(VStr "no", VStr "x")]) gv_start))).
Proof.
  split; [ vm_compute; reflexivity | split ].
  - vm_compute. repeat (first [ apply te_here | (apply Exists_cons_hd) | (eapply te_below; [ left; reflexivity | ]) | (eapply te_below; [ right; left; reflexivity | ]) ]).
  - exact (proj1 (C93_never_said (T := unit) (fun _ _ => true) (fun _ v => Ok v) gv_w 5 None ["no"] None (Some [(VStr "no", VStr "x")])
             (ScMap []) true false "found_in_defaults" (or_introl eq_refl)) None None).
Qed.

Example C93_ex_lookups_only :
  fst (gv_lookup ["port"] (Some [(VStr "port", VStr "8080")]) None gv_start) = Ok (Some (VStr "8080")) /\
  fst (gv_lookup ["no"; "port"] (Some [(VStr "x", VStr "y")]) (Some [(VStr "no", VStr "x")]) gv_start) = Ok (Some (VStr "443")) /\
  Forall (without (Some [(VStr "x", VStr "y")])) ["no"; "port"].
Proof.
  split; [ vm_compute; reflexivity | ]. split; [ vm_compute; reflexivity | ].
  repeat constructor; intros v (e & F & G); injection F as <-; discriminate G.
Qed.
