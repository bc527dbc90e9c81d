(** Resolving a configuration only uses the scope and the file system. *)

From Coq Require Import String Ascii List ZArith Bool Arith Lia.
From Verif Require Import Str Value Outcome Key Merge Fpath Config Ipl Explain State Engine Meta.
Import ListNotations.
Open Scope string_scope.
Open Scope bool_scope.

(** Relations closed under what resolving a configuration is made of, between
    code in two worlds. *)
Record cfg_closed (w w' : world) (R : rel) : Prop := mk_cfg_closed {
  k_ext : forall A (m m' n n' : M st A),
      (forall s, n s = m s) -> (forall s, n' s = m' s) -> R A m m' -> R A n n';
  k_lift : forall A (o : outcome A), R A (lift o) (lift o);
  k_bind : forall A B (m m' : M st A) (f f' : A -> M st B),
      R A m m' -> (forall a, R B (f a) (f' a)) -> R B (bind m f) (bind m' f');
  k_scope : R _ (run_op OScope) (run_op OScope);
  k_alloc : R _ (run_op OAlloc) (run_op OAlloc);
  k_report : forall r, R _ (run_op (OReport r)) (run_op (OReport r));
  k_stat : forall p, R _ (ask (EvStat p) (fun t => w_stat w t p)) (ask (EvStat p) (fun t => w_stat w' t p));
  k_glob : forall p, R _ (ask (EvGlob p) (fun t => w_glob w t p)) (ask (EvGlob p) (fun t => w_glob w' t p));
  k_node : forall A k i (m m' : M st A), R A m m' -> R A (run_scoped (SNode k i) m) (run_scoped (SNode k i) m');
  k_with : forall A sc (m m' : M st A), R A m m' -> R A (run_scoped (SScope sc) m) (run_scoped (SScope sc) m')
}.

Section ConfigOnly.
  Variables w w' : world.
  Variable R : rel.
  Variable C : cfg_closed w w' R.
  Hypothesis Hshow : w_show w = w_show w'.
  Hypothesis Henv : w_env w = w_env w'.

  Lemma k_ret : forall A (a : A), R A (ret a) (ret a).
  Proof. intros A a. exact (k_lift w w' R C A (Ok a)). Qed.
  Lemma k_panic : forall A e, R A (panic e) (panic e).
  Proof. intros A e. exact (k_lift w w' R C A (Panic e)). Qed.
  Lemma k_nofuel : forall A, R A nofuel nofuel.
  Proof. intros A. exact (k_lift w w' R C A NoFuel). Qed.

  Lemma vstring_same : vstring w = vstring w'.
  Proof. unfold vstring. rewrite Hshow. reflexivity. Qed.
  Lemma text_of_same : text_of w = text_of w'.
  Proof. unfold text_of. rewrite vstring_same. reflexivity. Qed.

  Ltac step :=
    match goal with
    | |- R _ (ret _) _ => apply k_ret
    | |- R _ (panic _) _ => apply k_panic
    | |- R _ nofuel _ => apply k_nofuel
    | |- R _ (lift _) _ => apply (k_lift w w' R C)
    | |- R _ (run_op OScope) _ => apply (k_scope w w' R C)
    | |- R _ (run_op OAlloc) _ => apply (k_alloc w w' R C)
    | |- R _ (run_op (OReport _)) _ => apply (k_report w w' R C)
    | |- R _ (ask (EvStat _) _) _ => apply (k_stat w w' R C)
    | |- R _ (ask (EvGlob _) _) _ => apply (k_glob w w' R C)
    | |- R _ (run_scoped (SNode _ _) _) _ => apply (k_node w w' R C)
    | |- R _ (run_scoped (SScope _) _) _ => apply (k_with w w' R C)
    | |- R _ (bind _ _) _ => apply (k_bind w w' R C); [ | intro ]
    | |- R _ (if ?b then _ else _) _ => destruct b
    | |- R _ (match ?x with _ => _ end) _ => destruct x
    end.
  Ltac walk := repeat (first [ solve [eauto] | step ]).

  Variables rec rec' : req -> M st res.
  Hypothesis Hrec : forall s, R _ (rec (RStr s false)) (rec' (RStr s false)).

  Lemma k_do_interp : forall v, R _ (do_interp rec false v) (do_interp rec' false v).
  Proof.
    fix IH 1. intros v.
    destruct v as [|b|z|z|s|l|m|v]; simpl; try (apply k_ret); try (apply Hrec).
    - apply (k_bind w w' R C); [ | intro; apply k_ret ].
      induction l as [|x t IHl]; [ apply k_ret | ].
      apply (k_bind w w' R C); [ apply IH | intro p ].
      apply (k_bind w w' R C); [ exact IHl | intro q; apply k_ret ].
    - apply (k_bind w w' R C); [ | intro; apply k_ret ].
      generalize (@nil (value * value)).
      induction m as [|[k v] t IHm]; intro cp; [ apply k_ret | ].
      apply (k_bind w w' R C); [ apply IH | intro p ].
      apply (k_bind w w' R C); [ apply IH | intro q ].
      apply (k_bind w w' R C); [ apply IHm | intro r; apply k_ret ].
  Qed.

  Lemma k_interpolate : forall v, R _ (interpolate rec false v) (interpolate rec' false v).
  Proof. intros. pose proof k_do_interp. unfold interpolate. walk. Qed.

  Lemma k_dig_step : forall p v, R _ (dig_step p v) (dig_step p v).
  Proof. intros. unfold dig_step. walk. Qed.
  Lemma k_dig_loop : forall ps v, R _ (dig_loop ps v) (dig_loop ps v).
  Proof. pose proof k_dig_step. induction ps as [|p r IH]; intro v; simpl; walk. Qed.
  Lemma k_dig_in : forall k v, R _ (dig_in k v) (dig_in k v).
  Proof. intros. pose proof k_dig_loop. unfold dig_in. destruct (tl (k_parts k)); walk. Qed.
  Lemma k_in_scope : forall e, R _ (in_scope rec false e) (in_scope rec' false e).
  Proof. intros. pose proof k_do_interp. pose proof k_dig_in. unfold in_scope. walk. Qed.

  Lemma k_lift_bind : forall A B (o : outcome A) (f f' : A -> M st B),
      (forall a, o = Ok a -> R B (f a) (f' a)) -> R B (bind (lift o) f) (bind (lift o) f').
  Proof.
    intros A B o f f' H. destruct o as [a|e| |].
    - apply (k_ext w w' R C _ (f a) (f' a)); [ reflexivity | reflexivity | ]. apply H. reflexivity.
    - apply (k_ext w w' R C _ (panic e) (panic e)); [ reflexivity | reflexivity | apply k_panic ].
    - apply (k_ext w w' R C _ (lift Hang) (lift Hang)); [ reflexivity | reflexivity | apply (k_lift w w' R C) ].
    - apply (k_ext w w' R C _ nofuel nofuel); [ reflexivity | reflexivity | apply k_nofuel ].
  Qed.

  Lemma k_istr_loop : forall str ts acc m result,
      R _ (istr_loop w rec str false ts acc m result) (istr_loop w' rec' str false ts acc m result).
  Proof.
    pose proof k_in_scope as Hs.
    intros str. induction ts as [|t r IH]; intros acc m result; simpl; [ apply k_ret | ].
    destruct t as [l|e]; [ apply IH | ].
    destruct (empty_interpolation (trim_space e)); [ apply IH | ].
    apply k_lift_bind. intros [md d] E. apply no_methods in E as [-> ->]. simpl.
    apply (k_bind w w' R C); [ apply Hs | intro v ]. rewrite text_of_same. apply IH.
  Qed.

  Lemma k_istr : forall s, R _ (istr w rec s false) (istr w' rec' s false).
  Proof. intros. pose proof k_istr_loop. unfold istr. walk. Qed.

  Section ResolveEntry.
    Variables (is is' : string -> M st (option value * bool)) (ivl ivl' : value -> M st (option value))
              (isc isc' : string -> M st (option value))
              (wv wv' : string -> value -> M st location -> M st location)
              (sta sta' : string -> M st bool) (gl gl' : string -> M st (list string)).
    Hypothesis H1 : forall s, R _ (is s) (is' s).
    Hypothesis H2 : forall s, R _ (ivl s) (ivl' s).
    Hypothesis H3 : forall s, R _ (isc s) (isc' s).
    Hypothesis H4 : forall k v m m', R _ m m' -> R _ (wv k v m) (wv' k v m').
    Hypothesis H5 : forall s, R _ (sta s) (sta' s).
    Hypothesis H6 : forall s, R _ (gl s) (gl' s).
    Variables (show : value -> string) (env : environ) (rt : string).

    Lemma k_show_opt : forall o, R _ (show_opt (S:=st) show o) (show_opt show o).
    Proof. intros. unfold show_opt. walk. Qed.

    Lemma k_resolve_function : forall d e, R _ (resolve_function is show d e) (resolve_function is' show d e).
    Proof. intros. pose proof k_show_opt. unfold resolve_function, function_resolve. walk. Qed.

    Lemma k_resolve_mapped : forall dr k t l, R _ (resolve_mapped is wv sta show dr k t l) (resolve_mapped is' wv' sta' show dr k t l).
    Proof.
      intros dr k t. pose proof k_show_opt. induction l as [|x r IH]; simpl; [ apply k_ret | ].
      apply (k_bind w w' R C); [ apply H4 | intro ]; walk.
    Qed.

    Lemma k_resolve_location : forall dr l,
        R _ (resolve_location is isc wv sta gl show dr l) (resolve_location is' isc' wv' sta' gl' show dr l).
    Proof.
      intros. pose proof k_show_opt. pose proof k_resolve_mapped. unfold resolve_location. destruct l; walk.
    Qed.

    Lemma k_resolve_all : forall dr l,
        R _ (resolve_all is isc wv sta gl show dr l) (resolve_all is' isc' wv' sta' gl' show dr l).
    Proof.
      intros dr l. pose proof k_resolve_location. induction l as [|x r IH]; simpl; walk.
    Qed.

    Lemma k_entry_resolve : forall d e,
        R _ (entry_resolve is ivl isc wv sta gl show env rt d e) (entry_resolve is' ivl' isc' wv' sta' gl' show env rt d e).
    Proof.
      intros. pose proof k_resolve_function. pose proof k_resolve_all. pose proof k_show_opt.
      unfold entry_resolve, resolve_datadir, resolve_plugindir, resolve_options, resolve_locations, interp_dir. walk.
    Qed.
  End ResolveEntry.

  Lemma k_resolve_entry : forall rt d e, R _ (resolve_entry w rec rt d e) (resolve_entry w' rec' rt d e).
  Proof.
    intros. unfold resolve_entry. rewrite vstring_same, Henv.
    apply k_entry_resolve; intros; walk; [ apply k_interpolate | apply k_in_scope ].
  Qed.

  Lemma k_create_each : forall rt d es, R _ (create_each w rec rt d es) (create_each w' rec' rt d es).
  Proof.
    intros rt d. pose proof k_resolve_entry. induction es as [|e r IH]; simpl; unfold create_provider; walk.
  Qed.

  Lemma k_create_providers : forall c es, R _ (create_providers w rec c es) (create_providers w' rec' c es).
  Proof. intros. pose proof k_resolve_entry. pose proof k_create_each. unfold create_providers. walk. Qed.
End ConfigOnly.

(** Strings interpolated without methods, and all of CreateProviders. *)
Lemma k_run : forall w w' R, cfg_closed w w' R -> w_show w = w_show w' ->
    forall n s, R _ (run w n (RStr s false)) (run w' n (RStr s false)).
Proof.
  intros w w' R C Hs. induction n as [|n IH]; intro s; simpl.
  - apply (k_nofuel w w'); assumption.
  - apply (k_istr w w'); assumption.
Qed.

Lemma k_all : forall w w' R, cfg_closed w w' R -> w_show w = w_show w' -> w_env w = w_env w' ->
    forall n c es, R _ (create_providers w (run w n) c es) (create_providers w' (run w' n) c es).
Proof.
  intros w w' R C Hs He n c es. apply k_create_providers; try assumption. apply k_run; assumption.
Qed.

(** ** Same result in worlds with the same files *)

Definition same_run : rel := fun A m m' => forall s, m s = m' s.

Lemma same_run_closed w w' :
  (forall t p, w_stat w t p = w_stat w' t p) -> (forall t p, w_glob w t p = w_glob w' t p) ->
  cfg_closed w w' same_run.
Proof.
  intros Hs Hg. constructor; unfold same_run.
  - intros A m m' n n' H1 H2 H s. rewrite H1, H2. apply H.
  - reflexivity.
  - intros A B m m' f f' Hm Hf s. unfold bind. rewrite Hm. destruct (m' s) as [[a|e| |] t]; try reflexivity. apply Hf.
  - reflexivity.
  - reflexivity.
  - reflexivity.
  - intros p s. unfold ask, bind. simpl. unfold run_op. rewrite Hs. reflexivity.
  - intros p s. unfold ask, bind. simpl. unfold run_op. rewrite Hg. reflexivity.
  - intros A k i m m' H s. unfold run_scoped. destruct (iv_expl (s_iv s)); [ | apply H ].
    destruct (xpush k i (s_ex s)); [ | reflexivity ]. rewrite H. reflexivity.
  - intros A sc m m' H s. unfold run_scoped. rewrite H. reflexivity.
Qed.

Open Scope nat_scope.

(** ** What is asked and touched *)

(** Only os.Stat and Glob. *)
Definition looks_at_files (e : event) : Prop :=
  match e with EvStat _ | EvGlob _ => True | _ => False end.

(** [s'] has the caches of [s], and more questions about files were asked. *)
Definition only_files (s s' : st) : Prop :=
  (exists l, s_trace s' = (s_trace s ++ l)%list /\ Forall looks_at_files l) /\
  s_configs s' = s_configs s /\ s_shared s' = s_shared s /\ s_tpc s' = s_tpc s /\ s_mods s' = s_mods s /\
  s_next s <= s_next s' /\ (forall id, id < s_next s -> s_provs s' id = s_provs s id).

Lemma only_files_refl s : only_files s s.
Proof. repeat split; auto. exists []. rewrite app_nil_r. auto. Qed.

Lemma only_files_trans s s' s'' : only_files s s' -> only_files s' s'' -> only_files s s''.
Proof.
  intros ((l & L1 & L2) & A2 & A3 & A4 & A5 & A6 & A7) ((l' & M1 & M2) & B2 & B3 & B4 & B5 & B6 & B7).
  repeat split; try congruence; try lia.
  - exists (l ++ l')%list. rewrite M1, L1, app_assoc. split; [ reflexivity | apply Forall_app; auto ].
  - intros id H. rewrite B7 by lia. apply A7. exact H.
Qed.

Definition confined : rel := fun A m _ => forall s, only_files s (snd (m s)).

Lemma confined_closed w w' : cfg_closed w w' confined.
Proof.
  constructor; unfold confined.
  - intros A m m' n n' H1 _ H s. rewrite H1. apply H.
  - intros. apply only_files_refl.
  - intros A B m m' f f' Hm Hf s. unfold bind. specialize (Hm s).
    destruct (m s) as [[a|e| |] t]; simpl in *; try exact Hm.
    exact (only_files_trans _ _ _ Hm (Hf a t)).
  - intros. apply only_files_refl.
  - intros s. unfold run_op. simpl. repeat split; simpl; auto.
    + exists []. rewrite app_nil_r. auto.
    + intros id H. destruct (Nat.eqb_spec id (s_next s)); [ lia | reflexivity ].
  - intros r s. unfold run_op. destruct (iv_expl (s_iv s)); [ destruct (xaccept r (s_ex s)) | ]; exact (only_files_refl s).
  - intros p s. repeat split; simpl; auto. exists [EvStat p]. repeat constructor.
  - intros p s. repeat split; simpl; auto. exists [EvGlob p]. repeat constructor.
  - intros A k i m m' H s. unfold run_scoped. destruct (iv_expl (s_iv s)); [ | apply H ].
    destruct (xpush k i (s_ex s)) as [x|]; [ | exact (only_files_refl s) ].
    specialize (H (with_ex x s)). destruct (m (with_ex x s)) as [o t]. exact H.
  - intros A sc m m' H s. unfold run_scoped. specialize (H (with_iv (iv_with_scope sc (s_iv s)) s)).
    destruct (m _) as [[a|e| |] t]; exact H.
Qed.
