(** Property C67, for the explanations that lookups make: each of them can be
    written as text. *)

From Coq Require Import String Ascii List ZArith Bool Arith Lia.
From Verif Require Import Str Value Outcome Key Merge Fpath Loader Config Ipl Explain State Engine Session Text Worlds P_Text.
Import ListNotations.
Open Scope nat_scope.
Open Scope string_scope.
Open Scope list_scope.
Open Scope monad_scope.

(** ** Locations that have been resolved *)

Definition place (l : location) : Prop := resolved_location (NLocation l).

Inductive node_fine : node -> Prop :=
| nf : forall k bs ts e v key, resolved_location k -> Forall node_fine bs -> node_fine (Node k bs ts e v key).
Definition frame_fine (f : frame) : Prop := Forall node_fine (fr_bs f).
Definition x_fine (x : explainer) : Prop :=
  frame_fine (x_root x) /\ Forall (fun o => resolved_location (fst o) /\ frame_fine (snd o)) (x_open x).

Definition entry_fine (e : entry) : Prop := forall ls, e_locations e = Some ls -> Forall place ls.
Definition providers_fine (ps : list provider) : Prop := Forall (fun p => entry_fine (p_entry p)) ps.
Definition st_fine (s : st) : Prop :=
  (forall path rc, aget path (s_configs s) = Some rc -> providers_fine (rc_providers rc)) /\ x_fine (s_ex s).

Lemma fine_close k f : resolved_location k -> frame_fine f -> node_fine (close k f).
Proof. intros H F. constructor; assumption. Qed.

Lemma fine_add n f : node_fine n -> frame_fine f -> frame_fine (add_branch n f).
Proof. intros N F. apply Forall_app. auto. Qed.

Lemma fine_pop x : x_fine x -> x_fine (xpop x).
Proof.
  intros [R O]. unfold xpop. destruct (x_open x) as [|[k f] [|[k' f'] r]]; split; cbn [x_root x_open]; auto.
  - inversion O as [|? ? [K F]]. apply fine_add; [ apply fine_close | ]; assumption.
  - inversion O as [|? ? [K F] O']. inversion O' as [|? ? [K' F'] O'']. constructor; [ split | ]; auto.
    apply fine_add; [ apply fine_close | ]; assumption.
Qed.

Lemma fine_push k i x y : resolved_location k -> x_fine x -> xpush k i x = Some y -> x_fine y.
Proof.
  intros K [R O]. unfold xpush. destruct (x_nil x); [ discriminate | ]. intro E. injection E as <-.
  split; [ exact R | ]. constructor; [ split; [ exact K | constructor ] | exact O ].
Qed.

Lemma fine_report r f : frame_fine f -> frame_fine (report_frame r f).
Proof. intro F. destruct r; try exact F. apply fine_add; [ | exact F ]. constructor; [ exact I | constructor ]. Qed.

Lemma fine_accept r x y : x_fine x -> xaccept r x = Some y -> x_fine y.
Proof.
  intros [R O]. unfold xaccept. destruct (x_nil x); [ discriminate | ]. intro E. injection E as <-.
  destruct (x_open x) as [|[k f] o]; (split; cbn [x_root x_open]); [ now apply fine_report | constructor | exact R | ].
  inversion O as [|? ? [K F] O']. constructor; [ split; [ exact K | now apply fine_report ] | exact O' ].
Qed.

(** ** Code that keeps to them *)

Definition ok {A} (Q : A -> Prop) (m : M st A) : Prop :=
  forall s, st_fine s -> st_fine (snd (m s)) /\ forall a, fst (m s) = Ok a -> Q a.
Notation fine m := (ok (fun _ => True) m).

Lemma ok_weak {A} (Q : A -> Prop) m : ok Q m -> fine m.
Proof. intros H s F. destruct (H s F). auto. Qed.
Lemma ok_ret {A} (Q : A -> Prop) a : Q a -> ok Q (ret a).
Proof. intros H s F. split; [ exact F | ]. intros b E. injection E as <-. exact H. Qed.
Lemma ok_panic {A} (Q : A -> Prop) e : ok Q (panic e).
Proof. intros s F. split; [ exact F | discriminate ]. Qed.
Lemma ok_hang {A} (Q : A -> Prop) : ok Q hang.
Proof. intros s F. split; [ exact F | discriminate ]. Qed.
Lemma ok_nofuel {A} (Q : A -> Prop) : ok Q nofuel.
Proof. intros s F. split; [ exact F | discriminate ]. Qed.
Lemma ok_lift {A} (o : outcome A) : fine (lift o).
Proof. intros s F. auto. Qed.
Lemma ok_bind {A B} (P : A -> Prop) (Q : B -> Prop) m f : ok P m -> (forall a, P a -> ok Q (f a)) -> ok Q (bind m f).
Proof.
  intros H G s F. unfold bind. destruct (H s F) as [F1 H1]. destruct (m s) as [[a|e| |] s1]; cbn [fst snd] in *;
    try (split; [ exact F1 | discriminate ]). exact (G a (H1 a eq_refl) s1 F1).
Qed.
Lemma ok_then {A B} (Q : B -> Prop) (m : M st A) f : fine m -> (forall a, ok Q (f a)) -> ok Q (bind m f).
Proof. intros H G. exact (ok_bind (fun _ => True) Q m f H (fun a _ => G a)). Qed.

Lemma ok_same {A} (m : M st A) : (forall s, s_configs (snd (m s)) = s_configs s /\ s_ex (snd (m s)) = s_ex s) -> fine m.
Proof. intros H s [F1 F2]. split; [ | auto ]. destruct (H s) as [E1 E2]. split; [ rewrite E1 | rewrite E2 ]; assumption. Qed.

Definition no_config {A} (o : op A) : bool := match o with OSetConfig _ _ => false | _ => true end.

Lemma ok_op {A} (o : op A) : no_config o = true -> fine (run_op o).
Proof.
  intro H. destruct o; try (apply ok_same; intro; split; reflexivity).
  all: try discriminate H.
  - intros s [F1 F2]. unfold run_op. destruct (iv_expl (s_iv s)); [ | split; [ split; assumption | auto ] ].
    destruct (xaccept r (s_ex s)) as [x|] eqn:E; cbn [fst snd]; (split; [ | auto ]); [ | split; assumption ].
    split; [ exact F1 | exact (fine_accept r _ _ F2 E) ].
Qed.

Lemma ok_config p : ok (fun x => forall rc, x = Some rc -> providers_fine (rc_providers rc)) (run_op (OConfig p)).
Proof. intros s F. split; [ exact F | ]. intros a E. injection E as <-. intros rc E. exact (proj1 F p rc E). Qed.

Lemma ok_set_config p rc : providers_fine (rc_providers rc) -> fine (run_op (OSetConfig p rc)).
Proof.
  intros H s [F1 F2]. split; [ | auto ]. split; [ | exact F2 ]. intros path c E.
  change (aget path (aput p rc (s_configs s)) = Some c) in E. unfold aput in E. cbn [aget] in E.
  destruct (String.eqb path p); [ injection E as <-; exact H | exact (F1 path c E) ].
Qed.

Lemma ok_copy {A} (Q : A -> Prop) g (m : M st A) : ok Q m -> ok Q (with_copy g m).
Proof.
  intros H s F. unfold with_copy. specialize (H (with_iv (g (s_iv s)) s) F). destruct (m (with_iv (g (s_iv s)) s)) as [o s']. exact H.
Qed.

Lemma ok_scoped {A} (Q : A -> Prop) c (m : M st A) : (forall k i, c = SNode k i -> resolved_location k) -> ok Q m -> ok Q (run_scoped c m).
Proof.
  intros K H s F. destruct c as [k i| | | |sc| |id]; unfold run_scoped.
  - destruct (iv_expl (s_iv s)); [ | exact (H s F) ].
    destruct (xpush k i (s_ex s)) as [x|] eqn:E.
    + assert (F1 : st_fine (with_ex x s)) by (split; [ exact (proj1 F) | exact (fine_push k i _ _ (K k i eq_refl) (proj2 F) E) ]).
      specialize (H _ F1). destruct (m (with_ex x s)) as [o s']. destruct H as [[H1 H2] H3]. split; [ | exact H3 ].
      split; [ exact H1 | exact (fine_pop _ H2) ].
    + split; [ | discriminate ]. split; [ exact (proj1 F) | exact (fine_pop _ (proj2 F)) ].
  - destruct (iv_mode (s_iv s)); try exact (H s F); exact (ok_copy Q _ m H s F).
  - destruct (iv_mode (s_iv s)); try exact (H s F); exact (ok_copy Q _ m H s F).
  - destruct (iv_expl (s_iv s)); [ exact (ok_copy Q _ m H s F) | exact (H s F) ].
  - specialize (H (with_iv (iv_with_scope sc (s_iv s)) s) F).
    destruct (m (with_iv (iv_with_scope sc (s_iv s)) s)) as [[a|e| |] s']; exact H.
  - destruct (iv_redacted (s_iv s)); [ exact (H s F) | ].
    specialize (H (with_iv (iv_with_redacted true (s_iv s)) s) F).
    destruct (m (with_iv (iv_with_redacted true (s_iv s)) s)) as [o s']. exact H.
  - destruct (ps_locked (s_provs s id)); [ split; [ exact F | discriminate ] | ].
    match goal with |- context [m ?y] => specialize (H y F); destruct (m y) as [o s'] end. exact H.
Qed.

Ltac go :=
  repeat first
    [ apply ok_ret; exact I | apply ok_panic | apply ok_hang | apply ok_nofuel | apply ok_lift
    | assumption
    | apply ok_op; reflexivity
    | apply ok_scoped; [ intros ? ? Heq; inversion Heq; exact I | ]
    | apply ok_then; [ | intro ]
    | match goal with |- ok _ (match ?x with _ => _ end) => destruct x end
    | match goal with H : context [ok _ _] |- _ => apply H end ].

Lemma ok_merging {L} s vs (f : L -> M st (option value)) : Forall (fun x => fine (f x)) vs -> fine (merging s vs f).
Proof.
  intro H.
  assert (R : forall v, fine (report_some report_result v)) by (intro v; unfold report_some, report_result; go).
  assert (L1 : fine (first_loop f vs)).
  { induction H; cbn [first_loop]; go. }
  assert (L2 : forall s memo, fine (merge_loop f s memo vs)).
  { clear R L1. intro s0. induction H; intro memo; cbn [merge_loop]; [ go | ]. apply ok_then; [ assumption | intro ]. apply IHForall. }
  unfold merging, merge_lookup, with_merge.
  destruct vs as [|x [|y vs]]; destruct s; try (apply ok_ret; exact I); try (inversion H; assumption);
    try (apply ok_then; [ inversion H; assumption | intro; apply ok_ret; exact I ]).
  - apply ok_then; [ exact L1 | exact R ].
  - apply ok_scoped; [ intros ? ? E; inversion E; exact I | ]. apply ok_then; [ apply L2 | exact R ].
  - apply ok_scoped; [ intros ? ? E; inversion E; exact I | ]. apply ok_then; [ apply L2 | exact R ].
  - apply ok_scoped; [ intros ? ? E; inversion E; exact I | ]. apply ok_then; [ apply L2 | exact R ].
Qed.

(** ** The engine *)

Section Engine.
  Variable w : world.
  Variable rec : req -> M st res.
  Hypothesis Hrec : forall r, fine (rec r).

  Lemma ok_ask {A} e (f : list event -> A) : fine (ask e f).
  Proof. unfold ask. go. Qed.

  Lemma ok_do_interp allow : forall v, fine (do_interp rec allow v).
  Proof.
    fix IH 1. intro v. destruct v as [|b|z|f|s|l|m|v0]; cbn [do_interp]; try (apply ok_ret; exact I).
    - apply Hrec.
    - apply ok_then; [ | intro; apply ok_ret; exact I ].
      induction l as [|x l IHl]; [ apply ok_ret; exact I | ].
      apply ok_then; [ apply IH | intro ]. apply ok_then; [ exact IHl | intro; apply ok_ret; exact I ].
    - apply ok_then; [ | intro; apply ok_ret; exact I ].
      generalize (@nil (value * value)). induction m as [|[k x] m IHm]; intro cp; [ apply ok_ret; exact I | ].
      apply ok_then; [ apply IH | intro ]. apply ok_then; [ apply IH | intro ].
      apply ok_then; [ apply IHm | intro; apply ok_ret; exact I ].
  Qed.

  Lemma ok_interpolate allow v : fine (interpolate rec allow v).
  Proof. unfold interpolate. apply ok_then; [ apply ok_do_interp | intro; apply ok_ret; exact I ]. Qed.

  Lemma ok_dig_in k v : fine (dig_in k v).
  Proof.
    unfold dig_in. destruct (tl (k_parts k)) as [|p ps]; [ apply ok_ret; exact I | ].
    apply ok_scoped; [ intros ? ? E; inversion E; exact I | ].
    generalize (p :: ps) v. clear. intro l. induction l as [|p l IH]; intro v; cbn [dig_loop]; [ apply ok_ret; exact I | ].
    apply ok_then; [ unfold dig_step; go | ]. intros [x|]; [ apply IH | apply ok_ret; exact I ].
  Qed.

  Lemma ok_in_scope allow e : fine (in_scope rec allow e).
  Proof.
    unfold in_scope. apply ok_then; [ apply ok_lift | intro k ]. apply ok_then; [ apply ok_lift | intro r ].
    apply ok_then; [ apply ok_op; reflexivity | intro sc ]. destruct (scope_get sc r); [ | apply ok_ret; exact I ].
    apply ok_then; [ apply ok_do_interp | intro; apply ok_dig_in ].
  Qed.

  Lemma ok_istr_loop str allow : forall ts acc m result, fine (istr_loop w rec str allow ts acc m result).
  Proof.
    pose proof (ok_in_scope allow) as Hs.
    induction ts as [|[l|e] ts IH]; intros acc m result; cbn [istr_loop]; [ apply ok_ret; exact I | apply IH | ].
    cbv zeta. destruct (empty_interpolation (trim_space e)); [ apply IH | ].
    apply ok_then; [ apply ok_lift | intro md ].
    destruct (is_alias (fst md) && negb (String.eqb ("%{" ++ e ++ "}") str))%bool; [ apply ok_panic | ].
    destruct (fst md); try apply IH; (apply ok_then; [ first [ apply Hs | apply ok_lift ] | intro ]); try apply IH;
      (apply ok_then; [ apply Hrec | intro; apply IH ]).
  Qed.

  Lemma ok_istr str allow : fine (istr w rec str allow).
  Proof.
    unfold istr. destruct (negb (contains "%{" str)); [ apply ok_ret; exact I | ].
    apply ok_then; [ | intro; apply ok_ret; exact I ]. apply ok_scoped; [ intros ? ? E; inversion E; exact I | ].
    apply ok_then; [ apply ok_istr_loop | ]. intros [[acc m] result]. apply ok_ret. exact I.
  Qed.

  Lemma ok_run_prog : forall p, fine (run_prog rec p).
  Proof.
    pose proof (ok_interpolate true) as Hi.
    induction p; cbn [run_prog]; try apply ok_ret; try exact I; try apply ok_panic;
      repeat (first [ apply IHp | apply H | apply ok_then; [ first [ apply ok_lift | apply Hi | apply Hrec | apply ok_op; reflexivity ] | intro ] ]).
  Qed.

  Lemma ok_call_fn f a : fine (call_fn w rec f a).
  Proof. unfold call_fn. apply ok_then; [ apply ok_ask | intro; apply ok_run_prog ]. Qed.

  Lemma ok_load_function e n : fine (load_function w e n).
  Proof.
    unfold load_function. apply ok_then; [ apply ok_ask | intros [|] ]; [ apply ok_ret; exact I | ].
    destruct (loader_path (plugin_path (w_cwd w) e n)); [ | apply ok_ret; exact I ].
    apply ok_then; [ apply ok_ask | intro ]. apply ok_then; [ apply ok_lift | intro; apply ok_ret; exact I ].
  Qed.

  Lemma ok_provider_options e loc : fine (provider_options e loc).
  Proof. unfold provider_options. go. Qed.

  Lemma ok_provider_function id e f : fine (provider_function w id e f).
  Proof.
    pose proof (ok_load_function e (f_name f)) as Hl.
    unfold provider_function. apply ok_then; [ apply ok_op; reflexivity | intros [l|] ]; [ apply ok_ret; exact I | ].
    apply ok_then; [ | intro; go ]. unfold load_provider. cbv zeta. go.
  Qed.

  Lemma ok_file_data j opts : fine (file_data w j opts).
  Proof.
    unfold file_data. destruct (mgets "path" opts); [ | apply ok_panic ]. cbv zeta.
    apply ok_then; [ destruct j; apply ok_ask | intro ]. go.
  Qed.

  Lemma ok_data_hash id e f loc : fine (data_hash w rec id e f loc).
  Proof.
    unfold data_hash. apply ok_then; [ go | intro k ]. apply ok_then; [ apply ok_provider_options | intro opts ].
    apply ok_then; [ go | intros [m|] ]; [ apply ok_ret; exact I | ].
    unfold fill. apply ok_scoped; [ intros ? ? E; inversion E | ]. apply ok_then; [ apply ok_op; reflexivity | intros [m|] ]; [ apply ok_ret; exact I | ].
    apply ok_then; [ | intro; go ]. apply ok_then; [ apply ok_provider_function | intro l ].
    destruct l; try apply ok_ret; try exact I; try apply ok_file_data.
    apply ok_then; [ apply ok_call_fn | intro; apply ok_ret; exact I ].
  Qed.

  Lemma ok_provider_lookup k p loc : fine (provider_lookup w rec k p loc).
  Proof.
    assert (Hr : forall a v, fine (report_found a v)) by (intros a v; unfold report_found; go).
    unfold provider_lookup. cbv zeta. destruct (e_function (p_entry p)) as [f|]; [ | apply ok_panic ].
    destruct (f_kind f).
    3: apply ok_then; [ apply ok_lift | intro r ].
    2: apply ok_then; [ apply ok_lift | intro r ].
    all: apply ok_then; [ first [ apply ok_data_hash | apply ok_provider_options ] | intro ].
    all: apply ok_then; [ first [ apply ok_provider_function | destruct (mgets _ _); [ apply ok_interpolate | apply ok_ret; exact I ] ] | intro ].
    all: try (apply ok_then; [ apply Hr | intro; apply ok_ret; exact I ]).
    all: apply ok_then; [ | intros [x|]; (apply ok_then; [ apply Hr | intro; apply ok_ret; exact I ]) ].
    - match goal with |- fine (call_dig _ ?l _) => destruct l; unfold call_dig; try (apply ok_ret; exact I) end.
      apply ok_then; [ apply ok_ask | intro; apply ok_lift ].
    - match goal with |- fine (call_key _ _ ?l _ _) => destruct l; unfold call_key; try (apply ok_ret; exact I) end;
        [ unfold scope_lookup; go | apply ok_call_fn ].
  Qed.

  (** A provider makes nodes for its locations. *)
  Lemma ok_merge_locations k s p : entry_fine (p_entry p) -> fine (merge_locations w rec k s p).
  Proof.
    intro H. unfold merge_locations. destruct (e_function (p_entry p)); [ | apply ok_panic ].
    apply ok_scoped; [ intros ? ? E; inversion E; exact I | ].
    assert (V : forall l, place l -> fine (invoke w rec k p l)).
    { intros l Hl. unfold invoke. apply ok_scoped; [ intros ? ? E; inversion E; exact Hl | ].
      destruct (loc_exists l); [ apply ok_provider_lookup | go ]. }
    unfold entry_fine in H. destruct (e_locations (p_entry p)) as [[|l [|l' ls]]|]; [ apply ok_ret; exact I | | | apply ok_provider_lookup ].
    - apply V. specialize (H _ eq_refl). inversion H. assumption.
    - apply ok_merging. specialize (H _ eq_refl). eapply Forall_impl; [ exact V | exact H ].
  Qed.

  Lemma ok_merge_hierarchy k ps s : providers_fine ps -> fine (merge_hierarchy w rec k ps s).
  Proof.
    intro H. unfold merge_hierarchy. destruct s as [s|]; [ | apply ok_panic ]. apply ok_merging.
    eapply Forall_impl; [ | exact H ]. intros p Hp. now apply ok_merge_locations.
  Qed.

  (** Entries have only such locations once they are resolved. *)
  Lemma ok_resolve_entry root d e : ok entry_fine (resolve_entry w rec root d e).
  Proof.
    assert (Hs : forall o : option value, fine (show_opt (S := st) (vstring w) o)) by (intro o; unfold show_opt; go).
    assert (Hf : forall f, fine (function_resolve (fun s => rec (RStr s false)) (vstring w) f)).
    { intro f. unfold function_resolve. apply ok_then; [ apply Hrec | intro r ]. destruct (snd r); [ | apply ok_ret; exact I ].
      apply ok_then; [ apply Hs | intro; apply ok_ret; exact I ]. }
    assert (Hrf : forall e, fine (resolve_function (fun s => rec (RStr s false)) (vstring w) d e)).
    { intro e0. unfold resolve_function. apply ok_then; [ | intros [f|]; [ apply ok_ret; exact I | apply ok_panic ] ].
      destruct (e_function e0); [ apply ok_then; [ apply Hf | intro; apply ok_ret; exact I ] | ]. destruct d; apply ok_ret; exact I. }
    assert (Hd : forall x, fine (interp_dir (fun s => rec (RStr s false)) (vstring w) x)).
    { intro x. unfold interp_dir. apply ok_then; [ apply Hrec | intro r ]. destruct (snd r); [ apply Hs | apply ok_ret; exact I ]. }
    unfold resolve_entry, entry_resolve.
    apply ok_then; [ apply Hrf | intro e1 ].
    apply ok_then; [ | intro e2 ].
    { unfold resolve_datadir. apply ok_then; [ apply Hrf | intro e2 ]. destruct (String.eqb (e_datadir e2) ""); [ apply ok_ret; exact I | ].
      apply ok_then; [ apply Hd | intro; apply ok_ret; exact I ]. }
    apply ok_then; [ | intro e3 ].
    { unfold resolve_plugindir. apply ok_then; [ | intro; apply ok_ret; exact I ].
      destruct (String.eqb (e_plugindir e2) ""); [ apply ok_ret; exact I | apply Hd ]. }
    apply ok_then; [ | intro e4 ].
    { unfold resolve_options. apply ok_then; [ | intro; apply ok_ret; exact I ].
      destruct (e_options e3) as [[|x m]|]; try (apply ok_ret; exact I).
      apply ok_then; [ apply ok_interpolate | intros [[]|]; try apply ok_panic; apply ok_ret; exact I ]. }
    unfold resolve_locations. cbv zeta. destruct (e_locations e4) as [ls|] eqn:E.
    2: { apply ok_ret. intros ls E2. congruence. }
    set (dr := if is_abs (e_datadir e4) then e_datadir e4 else join2 root (e_datadir e4)).
    apply (ok_bind (Forall place)).
    - clear E. induction ls as [|l ls IH]; cbn [resolve_all]; [ apply ok_ret; constructor | ].
      apply (ok_bind (Forall place)).
      + destruct l as [o r x|p|o r|src key template]; cbn [resolve_location].
        * apply ok_then; [ apply Hrec | intro ]. apply ok_then; [ apply Hs | intro ]. apply ok_then; [ apply ok_ask | intro ].
          apply ok_ret. constructor; [ exact I | constructor ].
        * apply ok_then; [ apply Hrec | intro ]. apply ok_then; [ apply Hs | intro ]. apply ok_then; [ apply ok_ask | intro ms ].
          apply ok_ret. apply Forall_forall. intros y Hy. apply in_map_iff in Hy as (z & <- & _). exact I.
        * apply ok_then; [ apply Hrec | intro ]. apply ok_then; [ apply Hs | intro ]. apply ok_ret. constructor; [ exact I | constructor ].
        * apply ok_then; [ apply ok_in_scope | intro v ].
          generalize (mapped_vars v). intro vs. induction vs as [|mv vs IHv]; cbn [resolve_mapped]; [ apply ok_ret; constructor | ].
          apply (ok_bind place).
          { apply ok_then; [ apply ok_op; reflexivity | intro sc ]. apply ok_scoped; [ intros ? ? E; inversion E | ].
            apply ok_then; [ apply Hrec | intro ]. apply ok_then; [ apply Hs | intro ]. apply ok_then; [ apply ok_ask | intro ].
            apply ok_ret. exact I. }
          intros p Hp. apply (ok_bind (Forall place)); [ exact IHv | ]. intros ps Hps. apply ok_ret. constructor; assumption.
      + intros a Ha. apply (ok_bind (Forall place)); [ exact IH | ]. intros b Hb. apply ok_ret. apply Forall_app. auto.
    - intros ne Hne. apply ok_ret. intros ls' E2. cbn in E2. injection E2 as <-. exact Hne.
  Qed.

  Lemma ok_create_providers c es : ok providers_fine (create_providers w rec c es).
  Proof.
    unfold create_providers. apply ok_then; [ exact (ok_weak _ _ (ok_resolve_entry _ _ _)) | intro d ].
    induction es as [|e es IH]; cbn [create_each]; [ apply ok_ret; constructor | ].
    apply (ok_bind entry_fine); [ apply ok_resolve_entry | ]. intros e' He.
    apply (ok_bind (fun p => entry_fine (p_entry p))).
    { unfold create_provider. destruct (e_function e'); [ | apply ok_panic ].
      apply ok_then; [ apply ok_op; reflexivity | intro ]. apply ok_ret. exact He. }
    intros p Hp. apply (ok_bind providers_fine); [ exact IH | ]. intros ps Hps. apply ok_ret. constructor; assumption.
  Qed.

  Lemma ok_resolve_config c module : ok (fun rc => providers_fine (rc_providers rc)) (resolve_config w rec c module).
  Proof.
    unfold resolve_config. apply (ok_bind (fun pd => providers_fine (fst pd))).
    { apply ok_scoped; [ intros ? ? E; inversion E | ]. apply (ok_bind providers_fine); [ apply ok_create_providers | ].
      intros ps Hps. apply ok_then; [ exact (ok_weak _ _ (ok_create_providers _ _)) | intro ds ]. apply ok_ret. exact Hps. }
    intros pd Hpd. apply ok_then; [ apply ok_lift | intro k ]. apply ok_then; [ | intro v; apply ok_ret; exact Hpd ].
    apply ok_scoped; [ intros ? ? E; inversion E | ]. apply ok_scoped; [ intros ? ? E; inversion E; exact I | ].
    apply ok_merging. eapply Forall_impl; [ | exact Hpd ]. intros p Hp. now apply ok_merge_locations.
  Qed.

  Lemma ok_get_config path module : ok (fun rc => providers_fine (rc_providers rc)) (get_config w rec path module).
  Proof.
    unfold get_config. cbv zeta. set (q := if String.eqb path "" then w_cfgpath w else path).
    eapply ok_bind; [ apply ok_config | ]. intros [rc|] H; [ apply ok_ret; exact (H rc eq_refl) | ].
    apply ok_then; [ | intro c ].
    { unfold shared_config. apply ok_then; [ apply ok_op; reflexivity | intros [[c|]|] ]; [ apply ok_ret; exact I | apply ok_hang | ].
      unfold load_config. apply ok_then; [ apply ok_op; reflexivity | intro ]. apply ok_then; [ apply ok_ask | intro ].
      apply ok_then; [ apply ok_lift | intro ]. apply ok_then; [ apply ok_op; reflexivity | intro; apply ok_ret; exact I ]. }
    eapply ok_bind; [ apply ok_resolve_config | ]. intros rc Hrc.
    apply ok_then; [ apply ok_set_config; exact Hrc | intro; apply ok_ret; exact Hrc ].
  Qed.

  Lemma ok_set_merge cli lo : fine (set_merge cli lo).
  Proof.
    unfold set_merge. apply ok_then; [ | intro ]; [ go | ]. apply ok_then; [ apply ok_op; reflexivity | intro ].
    apply ok_then; [ apply ok_lift | intro; apply ok_op; reflexivity ].
  Qed.

  Lemma ok_lookup_and_convert fn : fine fn -> fine (lookup_and_convert w fn).
  Proof.
    intro H. unfold lookup_and_convert. apply ok_then; [ | intro c ].
    { unfold extract_conversion. apply ok_then; [ apply ok_op; reflexivity | intro lo ].
      destruct (conversion lo) as [[[] a]|]; try apply ok_panic; [ | apply ok_ret; exact I ].
      apply ok_then; [ apply ok_lift | intro; apply ok_ret; exact I ]. }
    apply ok_then; [ | intro v ].
    { destruct c as [[[] a]|]; try exact H. apply ok_scoped; [ intros ? ? E; inversion E | exact H ]. }
    destruct v as [x|]; [ | apply ok_ret; exact I ]. destruct c as [[ty a]|]; [ | apply ok_ret; exact I ].
    apply ok_then; [ apply ok_lift | intro; apply ok_ret; exact I ].
  Qed.

  Lemma ok_config_lookup_at opts path key module : fine (config_lookup_at w rec opts path key module).
  Proof.
    unfold config_lookup_at. eapply ok_bind; [ apply ok_get_config | ]. intros cfg Hc.
    assert (H : forall k, fine (bind (run_op OStrat) (fun s => merge_hierarchy w rec k (rc_providers cfg) s))).
    { intro k. apply ok_then; [ apply ok_op; reflexivity | intro; apply ok_merge_hierarchy; exact Hc ]. }
    apply ok_then; [ apply ok_lift | intro k ]. apply ok_then; [ apply ok_op; reflexivity | intros [] ].
    - apply ok_scoped; [ intros ? ? E; inversion E | ]. apply ok_scoped; [ intros ? ? E; inversion E; exact I | ].
      apply ok_then; [ apply ok_lift | intro lo ]. apply ok_then; [ apply ok_set_merge | intro ]. apply ok_lookup_and_convert. apply H.
    - apply ok_then; [ apply ok_lift | intro; apply ok_ret; exact I ].
    - apply H.
  Qed.

  Lemma ok_module_lookup opts key : fine (module_lookup w rec opts key).
  Proof.
    unfold module_lookup. destruct (split_at "::" key) as [[[|c m] rest]|]; try (apply ok_ret; exact I). cbv zeta.
    apply ok_then; [ | intros [cp|]; (apply ok_scoped; [ intros ? ? E; inversion E; exact I | ]); [ apply ok_config_lookup_at | go ] ].
    unfold module_config. apply ok_then; [ apply ok_op; reflexivity | intros [x|] ]; [ apply ok_ret; exact I | ].
    apply ok_then; [ | intro; apply ok_then; [ apply ok_op; reflexivity | intro; apply ok_ret; exact I ] ].
    destruct (w_modpath w) as [mp|]; [ | apply ok_ret; exact I ].
    induction (split_list mp) as [|p ps IH]; cbn [load_from]; [ apply ok_ret; exact I | ].
    apply ok_then; [ | intros [x|]; [ apply ok_ret; exact I | exact IH ] ].
    unfold load_module. apply ok_then; [ apply ok_ask | intros [|e|l] ]; try apply ok_panic; try (apply ok_ret; exact I).
    destruct (find_module l (to_lower (String c m))) as [[fn []]|]; try (apply ok_ret; exact I). cbv zeta.
    apply ok_then; [ apply ok_ask | intro ]. go.
  Qed.

  Lemma ok_call_lk f opts key : fine (call_lk w rec f opts key).
  Proof.
    destruct f; cbn [call_lk]; try (apply ok_ret; exact I).
    - apply ok_config_lookup_at.
    - apply ok_module_lookup.
    - unfold yaml_lookup. apply ok_then; [ apply ok_op; reflexivity | intro c ]. apply ok_then; [ | intros []; go ].
      destruct c; [ apply ok_ret; exact I | ]. apply ok_then; [ apply ok_file_data | intro ].
      apply ok_then; [ apply ok_op; reflexivity | intro; apply ok_ret; exact I ].
    - unfold scope_lookup. go.
    - apply ok_then; [ apply Hrec | intro; apply ok_ret; exact I ].
    - apply ok_call_fn.
  Qed.

  Lemma ok_body r : fine (body w rec r).
  Proof.
    destruct r as [t allow|k opts|opts key]; cbn [body].
    - apply ok_istr.
    - apply ok_then; [ | intro; apply ok_ret; exact I ]. unfold lookup. apply ok_then; [ apply ok_lift | intro r ].
      destruct (String.eqb r "lookup_options"); [ go | ].
      apply ok_then; [ apply ok_call_lk | intros [v|] ]; [ | apply ok_ret; exact I ].
      apply ok_scoped; [ intros ? ? E; inversion E | ]. apply ok_then; [ apply ok_interpolate | intro; apply ok_dig_in ].
    - apply ok_then; [ | intro; apply ok_ret; exact I ]. unfold mux_lookup. destruct (w_mux w) as [fs|]; [ | apply ok_ret; exact I ].
      assert (H : forall s, fine (merging s fs (fun f => call_lk w rec f opts key))).
      { intro s. apply ok_merging. apply Forall_forall. intros f _. apply ok_call_lk. }
      apply ok_then; [ apply ok_scoped; [ intros ? ? E; inversion E | apply H ] | intro lo ].
      apply ok_scoped; [ intros ? ? E; inversion E | ]. apply ok_then; [ apply ok_lift | intro k ].
      apply ok_scoped; [ intros ? ? E; inversion E; exact I | ]. apply ok_then; [ apply ok_set_merge | intro ].
      apply ok_lookup_and_convert. apply ok_then; [ apply ok_op; reflexivity | intros [s|] ]; [ apply H | apply ok_panic ].
  Qed.
End Engine.

Lemma ok_run w n : forall r, fine (run w n r).
Proof. induction n as [|n IH]; intro r; cbn [run]; [ apply ok_nofuel | ]. apply ok_body. exact IH. Qed.

Lemma run_lookup_fine w n k opts : fine (run_lookup w n k opts).
Proof. unfold run_lookup. apply ok_then; [ apply ok_run | intro; apply ok_ret; exact I ]. Qed.

Lemma serve_fine w n ex : forall rs s, x_fine (s_ex s) -> x_fine (s_ex (snd (serve w n ex rs s))).
Proof.
  induction rs as [|r rs IH]; intros s H; [ exact H | ]. cbn [serve].
  assert (F : st_fine (invocation (q_scope r) ex s)) by (split; [ discriminate | exact H ]).
  apply (run_lookup_fine w n (q_key r) (q_opts r)) in F as [F _].
  destruct (run_lookup w n (q_key r) (q_opts r) (invocation (q_scope r) ex s)) as [o s1].
  specialize (IH s1 (proj2 F)). destruct (serve w n ex rs s1) as [os s2]. exact IH.
Qed.

Lemma fine_below : forall n lvl d l, below n lvl d l -> node_fine n -> resolved_location (kind_of d).
Proof.
  induction 1 as [n lvl|n lvl lvl' c d l _ I _ IH]; intro F.
  - destruct F. assumption.
  - apply IH. destruct F as [k bs ts e v key _ F]. cbn [branches_of] in I. rewrite Forall_forall in F. exact (F c I).
Qed.

(** ** Explanations of lookups *)

(** After any lookups in a session, in any scopes, with whatever outcomes, the
    explanation can be written.  It is then what [C67_told], [C67_only] and
    [C67_order] say. *)
Theorem C67_lookups_written : forall show w n rs sc options only,
  exists text, explainer_text show (s_ex (snd (serve w n true rs (init_st sc (Some (new_explainer options only)))))) = Ok text.
Proof.
  intros show w n rs sc options only. apply C67_written. intros d l (c & I & B).
  assert (F : x_fine (s_ex (snd (serve w n true rs (init_st sc (Some (new_explainer options only))))))).
  { apply serve_fine. split; constructor. }
  destruct F as [F _]. unfold frame_fine in F. rewrite Forall_forall in F. exact (fine_below c 0 d l B (F c I)).
Qed.
Print Assumptions C67_lookups_written.

(** An entry with mapped paths; the first lookup panics. *)
Definition wr_w : world :=
  file_world
    [("/h/hiera.yaml",
      vmap [("version", VInt 5);
            ("hierarchy", VArr [vmap [("name", VStr "n");
                                      ("mapped_paths", VArr [VStr "os"; VStr "f"; VStr "%{f}.yaml"])]])])]
    [("/h/data/linux.yaml", vmap [("bad", VStr "%{nope('x')}"); ("k", VStr "v")])].
Definition wr_sc : scope := ScMap [(VStr "os", VArr [VStr "bsd"; VStr "linux"])].
Definition wr_run : list (outcome (option value)) * st :=
  serve wr_w 20 true
    [mk_request wr_sc (mk_key "bad" [PStr "bad"]) None; mk_request wr_sc (mk_key "k" [PStr "k"]) None]
    (init_st wr_sc (Some (new_explainer false false))).

Example C67_ex_lookups :
  fst wr_run = [Panic (EErr "unknown interpolation method 'nope'"); Ok (Some (VStr "v"))] /\
  explainer_text no_show (s_ex (snd wr_run))
  = Ok (lines ["Searching for ""bad""";
               "  data_hash function 'yaml_data'";
               "    Path ""/h/data/bsd.yaml""";
               "      Original path: ""%{f}.yaml""";
               "      path not found";
               "    Path ""/h/data/linux.yaml""";
               "      Original path: ""%{f}.yaml""";
               "      Interpolation on ""%{nope('x')}""";
               "Searching for ""k""";
               "  data_hash function 'yaml_data'";
               "    Path ""/h/data/bsd.yaml""";
               "      Original path: ""%{f}.yaml""";
               "      path not found";
               "    Path ""/h/data/linux.yaml""";
               "      Original path: ""%{f}.yaml""";
               "      Found key: ""k"" value: {...}"]).
Proof. split; vm_compute; reflexivity. Qed.
