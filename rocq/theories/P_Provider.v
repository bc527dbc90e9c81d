(** What the functions of the hierarchy are asked, and how often: C33, C62. *)

From Coq Require Import String List ZArith Bool Arith Lia.
From Verif Require Import SpecPlace PlaceFacts.
From Verif Require Import Str Value Outcome Key Merge Fpath Config Ipl Explain State Engine Worlds Meta Kept ValueFacts Session Loader.
From Verif Require Import SpecIpl InterpFacts IplExact.
Import ListNotations.
Open Scope string_scope.
Open Scope list_scope.
Open Scope bool_scope.
Open Scope monad_scope.

(** ** The data of a provider stays *)

(** The providers that exist in the first state: their locks are as they were,
    the data they have stays, and a locked provider gets no more. *)
Record data_kept (s s' : st) : Prop := mk_data_kept {
  dk_next : s_next s <= s_next s';
  dk_locked : forall j, j < s_next s -> ps_locked (s_provs s' j) = ps_locked (s_provs s j);
  dk_hash : forall j k m, j < s_next s ->
    aget k (ps_hashes (s_provs s j)) = Some m -> aget k (ps_hashes (s_provs s' j)) = Some m;
  dk_same : forall j, j < s_next s -> ps_locked (s_provs s j) = true ->
    ps_hashes (s_provs s' j) = ps_hashes (s_provs s j)
}.

Lemma data_kept_refl s : data_kept s s.
Proof. constructor; auto. Qed.

Lemma data_kept_trans s1 s2 s3 : data_kept s1 s2 -> data_kept s2 s3 -> data_kept s1 s3.
Proof.
  intros [A1 A2 A3 A4] [B1 B2 B3 B4]. constructor.
  - lia.
  - intros j H. rewrite B2 by lia. auto.
  - intros j k m H E. apply B3; [ lia | ]. auto.
  - intros j H L. rewrite B4; [ auto | lia | ]. rewrite A2; auto.
Qed.

Lemma data_kept_provs s s' : s_next s' = s_next s -> s_provs s' = s_provs s -> data_kept s s'.
Proof. intros E F. constructor; intros; rewrite ?F, ?E in *; auto. Qed.

(** States that differ in neither the providers nor the next number. *)
Lemma data_kept_like s1 s1' s2 s2' : s_next s1' = s_next s1 -> s_provs s1' = s_provs s1 ->
  s_next s2' = s_next s2 -> s_provs s2' = s_provs s2 -> data_kept s1 s2 -> data_kept s1' s2'.
Proof.
  intros A B C D [H1 H2 H3 H4]. constructor; rewrite ?A, ?B, ?C, ?D in *; assumption.
Qed.

Lemma locked_kept id s (s' : st) :
  ps_locked (s_provs s id) = false ->
  data_kept (with_prov id (mk_pstate (ps_fn (s_provs s id)) (ps_hashes (s_provs s id)) true) s) s' ->
  data_kept s (with_prov id (mk_pstate (ps_fn (s_provs s' id)) (ps_hashes (s_provs s' id)) false) s').
Proof.
  intros L [H1 H2 H3 H4]. constructor; cbn [with_prov s_next s_provs] in *.
  - exact H1.
  - intros j Hj. specialize (H2 j Hj). destruct (Nat.eqb_spec j id) as [E|N]; [ subst; cbn [ps_locked]; auto | exact H2 ].
  - intros j k m Hj E. specialize (H3 j k m Hj). destruct (Nat.eqb_spec j id) as [Ej|N]; [ subst | ]; cbn [ps_hashes] in *; auto.
  - intros j Hj Lj. specialize (H4 j Hj). destruct (Nat.eqb_spec j id) as [E|N]; [ subst; congruence | auto ].
Qed.

Definition puts {A} (o : op A) : bool := match o with OPutHash _ _ _ => true | _ => false end.

Lemma data_kept_op A (o : op A) : puts o = false -> steps data_kept A (run_op o) (run_op o).
Proof.
  intros F s. destruct o; try discriminate F; unfold run_op; try apply data_kept_refl;
    try (apply data_kept_provs; reflexivity).
  - (* OAlloc *)
    constructor; cbn [snd with_next with_prov s_next s_provs]; [ lia | | | ];
      intros j; intros; (destruct (Nat.eqb_spec j (s_next s)); [ exfalso; lia | auto ]).
  - (* OSetFn *)
    constructor; cbn [snd with_prov s_next s_provs]; [ lia | | | ];
      intros j; intros; (destruct (Nat.eqb_spec j id) as [E|]; [ subst | ]; cbn [ps_locked ps_hashes]; auto).
  - destruct (iv_expl (s_iv s)); [ | apply data_kept_refl ].
    destruct (xaccept r (s_ex s)); apply data_kept_provs; reflexivity.
Qed.

Lemma data_kept_scoped A sc (m : M st A) : steps data_kept A m m -> steps data_kept A (run_scoped sc m) (run_scoped sc m).
Proof.
  intros H s.
  assert (G : forall s1 g, s_next s1 = s_next s -> s_provs s1 = s_provs s ->
    (forall x, s_next (g x) = s_next x) -> (forall x, s_provs (g x) = s_provs x) ->
    data_kept s (g (snd (m s1)))).
  { intros s1 g A1 A2 A3 A4. apply (data_kept_like s1 s (snd (m s1)) _); auto; apply H. }
  destruct sc; unfold run_scoped, with_copy.
  - destruct (iv_expl (s_iv s)); [ | apply H ].
    destruct (xpush k init (s_ex s)) as [x|]; [ | apply data_kept_provs; reflexivity ].
    specialize (G (with_ex x s)). destruct (m (with_ex x s)) as [o s']. cbn [snd] in *.
    apply (G (fun x => with_ex (xpop (s_ex x)) x)); reflexivity.
  - destruct (iv_mode (s_iv s)); try apply H;
      match goal with |- context [m ?x] => specialize (G x); destruct (m x) as [o s'] end;
      exact (G (with_iv (s_iv s)) eq_refl eq_refl (fun _ => eq_refl) (fun _ => eq_refl)).
  - destruct (iv_mode (s_iv s)); try apply H;
      match goal with |- context [m ?x] => specialize (G x); destruct (m x) as [o s'] end;
      exact (G (with_iv (s_iv s)) eq_refl eq_refl (fun _ => eq_refl) (fun _ => eq_refl)).
  - destruct (iv_expl (s_iv s)); [ | apply H ].
    match goal with |- context [m ?x] => specialize (G x); destruct (m x) as [o s'] end;
      exact (G (with_iv (s_iv s)) eq_refl eq_refl (fun _ => eq_refl) (fun _ => eq_refl)).
  - match goal with |- context [m ?x] => specialize (G x); destruct (m x) as [[a|e| |] s'] end;
      cbn [snd] in *;
      [ exact (G (fun x => with_iv (iv_with_scope (iv_scope (s_iv s)) (s_iv x)) x) eq_refl eq_refl (fun _ => eq_refl) (fun _ => eq_refl))
      | exact (G (fun x => x) eq_refl eq_refl (fun _ => eq_refl) (fun _ => eq_refl)) .. ].
  - destruct (iv_redacted (s_iv s)); [ apply H | ].
    match goal with |- context [m ?x] => specialize (G x); destruct (m x) as [o s'] end;
      exact (G (fun x => with_iv (iv_with_redacted false (s_iv x)) x) eq_refl eq_refl (fun _ => eq_refl) (fun _ => eq_refl)).
  - destruct (ps_locked (s_provs s id)) eqn:L; [ apply data_kept_refl | ].
    match goal with |- context [m ?x] => specialize (H x); destruct (m x) as [o s'] end.
    cbn [snd] in *. apply locked_kept; assumption.
Qed.

Lemma data_kept_fill id k m : steps data_kept _ m m -> steps data_kept _ (fill id k m) (fill id k m).
Proof.
  intros H s. unfold fill, run_scoped.
  destruct (ps_locked (s_provs s id)) eqn:L; [ apply data_kept_refl | ].
  set (s1 := with_prov id (mk_pstate (ps_fn (s_provs s id)) (ps_hashes (s_provs s id)) true) s).
  unfold bind at 1. change (run_op (OHash id k) s1) with (Ok (aget k (ps_hashes (s_provs s1 id))), s1).
  cbv beta iota zeta.
  destruct (aget k (ps_hashes (s_provs s1 id))) as [h|] eqn:E.
  { cbn [ret lift snd]. apply locked_kept; [ assumption | apply data_kept_refl ]. }
  unfold bind at 1. specialize (H s1). destruct (m s1) as [[x|e| |] s2]; cbn [snd] in *;
    try (apply locked_kept; assumption).
  unfold bind, run_op, ret, lift. cbv beta iota zeta. cbn [snd].
  destruct H as [H1 H2 H3 H4]. subst s1. constructor; cbn [with_prov s_next s_provs] in *; rewrite ?Nat.eqb_refl in *.
  - exact H1.
  - intros j Hj. specialize (H2 j Hj). destruct (Nat.eqb_spec j id) as [Ej|N]; [ subst; cbn [ps_locked]; auto | exact H2 ].
  - intros j q d Hj Hd. specialize (H3 j q d Hj).
    destruct (Nat.eqb_spec j id) as [Ej|N]; [ subst | exact (H3 Hd) ].
    unfold aput. cbn [ps_hashes aget] in *.
    destruct (String.eqb_spec q k) as [Eq|N]; [ subst; congruence | exact (H3 Hd) ].
  - intros j Hj Lj. specialize (H4 j Hj). destruct (Nat.eqb_spec j id) as [Ej|N]; [ subst; congruence | exact (H4 Lj) ].
Qed.

Lemma data_kept_closed w : closed w (steps data_kept).
Proof.
  pose proof (steps_lift data_kept data_kept_refl) as Hl.
  pose proof (steps_bind data_kept data_kept_trans) as Hb.
  constructor.
  - exact Hl.
  - exact Hb.
  - intros A o F. apply data_kept_op. destruct o; try reflexivity; discriminate F.
  - intros A sc m m' _ H. exact (data_kept_scoped A sc m H).
  - intros A m m' _ _ H. exact (data_kept_scoped A SConfig m H).
  - intros id k m m' H. exact (data_kept_fill id k m H).
  - intros p. unfold shared_config, load_config, ask.
    apply Hb; [ apply data_kept_op; reflexivity | intros [[c|]|] ]; [ apply Hl | apply Hl | ].
    apply Hb; [ apply data_kept_op; reflexivity | intro ].
    apply Hb; [ apply Hb; [ apply data_kept_op; reflexivity | intro; apply Hl ] | intro ].
    apply Hb; [ apply Hl | intro ]. apply Hb; [ apply data_kept_op; reflexivity | intro; apply Hl ].
  - intros c l. unfold set_merge. apply Hb.
    + destruct c; [ apply Hb; [ apply data_kept_op; reflexivity | intro; apply Hl ] | ].
      destruct l; [ destruct (mgets "merge" e); [ apply Hb; [ apply data_kept_op; reflexivity | intro; apply Hl ] | ] | ]; apply Hl.
    + intro. apply Hb; [ apply data_kept_op; reflexivity | intro ]. apply Hb; [ apply Hl | intro ].
      apply data_kept_op; reflexivity.
  - apply module_by; [ exact Hl | exact Hb | | intros; apply data_kept_op; reflexivity ].
    intros A o F. apply data_kept_op. destruct o; try reflexivity; discriminate F.
Qed.

(** ** C33 *)

(** States that a session goes through after another: lookups run, and new
    invocations begin. *)
Inductive later (w : world) : st -> st -> Prop :=
| la_same : forall s, later w s s
| la_run : forall n q s s', later w s s' -> later w s (snd (run w n q s'))
| la_invocation : forall sc x s s', later w s s' -> later w s (invocation sc x s').

Lemma later_kept w s s' : later w s s' -> data_kept s s'.
Proof.
  induction 1 as [s|n q s s' _ IH|sc x s s' _ IH].
  - apply data_kept_refl.
  - apply (data_kept_trans _ _ _ IH). exact (c_run w _ (data_kept_closed w) n q s').
  - apply (data_kept_trans _ _ _ IH). apply data_kept_provs; reflexivity.
Qed.

(** Looking a key up in a hash: the value, with what it refers to filled in. *)
Definition look_in (w : world) (n : nat) (m : entries) (k : key) : M st (option value) :=
  r <- lift (root k) ;;
  v <- match mgets r m with None => ret None | Some v => interpolate (run w n) true v end ;;
  report_found r v ;;; ret v.

Definition place_of (loc : option location) : outcome string :=
  match loc with None => Ok "" | Some l => loc_resolved l end.

(** The same state; the providers, a function, are compared one by one. *)
Record same_state (s s' : st) : Prop := mk_same_state {
  ss_iv : s_iv s' = s_iv s;
  ss_ex : s_ex s' = s_ex s;
  ss_configs : s_configs s' = s_configs s;
  ss_shared : s_shared s' = s_shared s;
  ss_tpc : s_tpc s' = s_tpc s;
  ss_mods : s_mods s' = s_mods s;
  ss_provs : forall j, s_provs s' j = s_provs s j;
  ss_next : s_next s' = s_next s;
  ss_trace : s_trace s' = s_trace s
}.

Lemma place_run (loc : option location) q (s : st) : place_of loc = Ok q ->
  (match loc with None => ret "" | Some l => lift (loc_resolved l) end : M st string) s = (Ok q, s).
Proof. intro Q. destruct loc as [l|]; cbn [place_of] in Q; unfold lift, ret; [ rewrite Q | injection Q as <- ]; reflexivity. Qed.

Definition own_options (e : entry) (loc : option location) (q : string) : entries :=
  match loc with None => entry_options e | Some _ => options_with_location (entry_options e) q end.

Lemma options_run e (loc : option location) q (s : st) : place_of loc = Ok q ->
  provider_options e loc s = (Ok (own_options e loc q), s).
Proof.
  intro Q. destruct loc as [l|]; cbn [place_of] in Q; unfold provider_options, own_options, bind, lift, ret;
    [ rewrite Q | ]; reflexivity.
Qed.

(** Reading under the lock changes nothing. *)
Lemma read_hash id q (s : st) : ps_locked (s_provs s id) = false ->
  exists s', run_scoped (SLocked id) (run_op (OHash id q)) s = (Ok (aget q (ps_hashes (s_provs s id))), s') /\ same_state s s'.
Proof.
  intro L. unfold run_scoped. rewrite L. unfold run_op, with_prov. cbv beta iota zeta. cbn [s_provs s_iv s_ex s_configs s_shared s_tpc s_mods s_next s_trace]. rewrite Nat.eqb_refl. cbn [ps_hashes ps_fn].
  eexists. split; [ reflexivity | ]. constructor; try reflexivity. intro j. cbn [s_provs].
  destruct (Nat.eqb_spec j id) as [E|N]; [ subst | reflexivity ].
  destruct (s_provs s id) as [f h l]. cbn [ps_locked ps_fn ps_hashes] in *. rewrite L. reflexivity.
Qed.

Lemma data_hash_found w rec id e f loc s q m : ps_locked (s_provs s id) = false ->
  place_of loc = Ok q -> aget q (ps_hashes (s_provs s id)) = Some m ->
  exists s', data_hash w rec id e f loc s = (Ok m, s') /\ same_state s s'.
Proof.
  intros L Q H. unfold data_hash. unfold bind at 1. rewrite (place_run loc q s Q).
  unfold bind at 1. rewrite (options_run e loc q s Q). unfold bind at 1.
  destruct (read_hash id q s L) as (s' & E & S). rewrite E, H. exists s'. split; [ reflexivity | exact S ].
Qed.

Lemma data_hash_fills w n id e f loc s m s1 : id < s_next s -> ps_locked (s_provs s id) = false ->
  data_hash w (run w n) id e f loc s = (Ok m, s1) ->
  exists q, place_of loc = Ok q /\ aget q (ps_hashes (s_provs s1 id)) = Some m.
Proof.
  intros Hid L E. unfold data_hash in E. apply bind_ok in E as (q & s0 & E0 & E).
  assert (Q : place_of loc = Ok q /\ s0 = s).
  { destruct loc as [l|]; unfold lift, ret in E0; cbn [place_of]; inversion E0; auto. }
  destruct Q as [Q ->]. exists q. split; [ exact Q | ].
  apply bind_ok in E as (opts & s2 & E2 & E). rewrite (options_run e loc q s Q) in E2. inversion E2; subst.
  apply bind_ok in E as (h & s3 & E3 & E). destruct (read_hash id q s2 L) as (s' & E' & S). rewrite E' in E3. inversion E3; subst.
  destruct (aget q (ps_hashes (s_provs s2 id))) as [h|] eqn:Eh.
  - inversion E; subst. rewrite (ss_provs _ _ S). exact Eh.
  - unfold fill, run_scoped in E. rewrite (ss_provs _ _ S), L in E.
    match type of E with context [bind _ _ ?s] => set (s4 := s) in * end.
    unfold bind at 1 in E. change (run_op (OHash id q) s4) with (Ok (aget q (ps_hashes (s_provs s4 id))), s4) in E.
    assert (P4 : aget q (ps_hashes (s_provs s4 id)) = None).
    { unfold s4, with_prov. cbn [s_provs]. rewrite Nat.eqb_refl. exact Eh. }
    rewrite P4 in E. unfold bind at 1 in E.
    destruct ((l <- provider_function w id e f;; call_hash w (run w n) l (own_options e loc q)) s4) as [[x|y| |] s5] eqn:E5;
      try discriminate E.
    unfold bind, run_op, ret in E. inversion E; subst. cbn [with_prov s_provs]. rewrite !Nat.eqb_refl. cbn [ps_hashes aget aput].
    rewrite String.eqb_refl. reflexivity.
Qed.

(** When a lookup of a provider that is not in use has returned, the data is
    fixed: this lookup saw the data [m], and so does every later lookup of the
    provider at the same location, whatever ran in between; it looks in [m]
    without loading or calling the function, or reading the file, again. *)
Theorem C33_same_data : forall w n p f loc k s v s1,
  e_function (p_entry p) = Some f -> f_kind f = KDataHash ->
  p_id p < s_next s -> ps_locked (s_provs s (p_id p)) = false ->
  provider_lookup w (run w n) k p loc s = (Ok v, s1) ->
  exists m s0, look_in w n m k s0 = (Ok v, s1) /\
    forall s2 n2 k2, later w s1 s2 ->
      exists s3, same_state s2 s3 /\ provider_lookup w (run w n2) k2 p loc s2 = look_in w n2 m k2 s3.
Proof.
  intros w n p f loc k s v s1 Hf Hk Hid L E.
  unfold provider_lookup in E. rewrite Hf, Hk in E.
  apply bind_ok in E as (r & sa & Ea & E). unfold lift in Ea. inversion Ea as [[Hr Es]]. subst sa.
  apply bind_ok in E as (m & s0 & E0 & E). exists m, s0. split.
  { unfold look_in, bind at 1, lift. rewrite Hr. exact E. }
  intros s2 n2 k2 H2.
  destruct (data_hash_fills w n (p_id p) (p_entry p) f loc s m s0 Hid L E0) as (q & Q & Hq).
  assert (K0 : data_kept s s0).
  { pose proof (c_data_hash w _ (data_kept_closed w) (run w n) (run w n) (c_run w _ (data_kept_closed w) n) (p_id p) (p_entry p) f loc s) as K.
    rewrite E0 in K. exact K. }
  assert (K1 : data_kept s0 s1).
  { pose proof (data_kept_closed w) as C. pose proof (c_run w _ C n) as Hrec.
    assert (K : steps data_kept _ (v0 <- match mgets r m with Some v => interpolate (run w n) true v | None => ret None end;;
       (report_found r v0;;; ret v0)) (v0 <- match mgets r m with Some v => interpolate (run w n) true v | None => ret None end;;
       (report_found r v0;;; ret v0))).
    { apply (c_bind w _ C).
      - destruct (mgets r m); [ apply (c_interpolate w _ C); exact Hrec | apply (c_lift w _ C) ].
      - intro. apply (c_bind w _ C); [ apply (c_report_found w _ C) | intro; apply (c_lift w _ C) ]. }
    specialize (K s0). rewrite E in K. exact K. }
  pose proof (later_kept _ _ _ H2) as K2.
  assert (Hid0 : p_id p < s_next s0) by (pose proof (dk_next _ _ K0); lia).
  assert (Hid1 : p_id p < s_next s1) by (pose proof (dk_next _ _ K1); lia).
  assert (Hq2 : aget q (ps_hashes (s_provs s2 (p_id p))) = Some m).
  { apply (dk_hash _ _ K2); [ exact Hid1 | ]. apply (dk_hash _ _ K1); [ exact Hid0 | exact Hq ]. }
  assert (L2 : ps_locked (s_provs s2 (p_id p)) = false).
  { rewrite (dk_locked _ _ K2), (dk_locked _ _ K1), (dk_locked _ _ K0); assumption. }
  destruct (data_hash_found w (run w n2) (p_id p) (p_entry p) f loc s2 q m L2 Q Hq2) as (s3 & E3 & S3).
  unfold provider_lookup, look_in. rewrite Hf, Hk.
  destruct (root k2) as [r2|x| |] eqn:R2; [ | exists s2; split; [ constructor; reflexivity | reflexivity ] .. ].
  exists s3. split; [ exact S3 | ]. unfold bind at 1 3, lift. unfold bind at 1. rewrite E3. reflexivity.
Qed.
Print Assumptions C33_same_data.

(** In particular, values that refer to nothing are then given without asking
    anything of the outside world; whatever was asked to get the data is asked
    once.  (Without explainer: an explainer that was handed a node of another
    kind can panic.) *)
Theorem C33_asks_nothing_again : forall w n p f loc k s v s1,
  e_function (p_entry p) = Some f -> f_kind f = KDataHash ->
  p_id p < s_next s -> ps_locked (s_provs s (p_id p)) = false ->
  provider_lookup w (run w n) k p loc s = (Ok v, s1) ->
  exists m,
    (forall r x, root k = Ok r -> mgets r m = Some x -> settled x -> n <> 0 -> v = Some x) /\
    (forall r, root k = Ok r -> mgets r m = None -> v = None) /\
    forall s2 n2 k2 r2, later w s1 s2 -> root k2 = Ok r2 -> iv_expl (s_iv s2) = false ->
      (forall x, mgets r2 m = Some x -> settled x ->
         exists s3, provider_lookup w (run w (S n2)) k2 p loc s2 = (Ok (Some x), s3) /\ same_state s2 s3) /\
      (mgets r2 m = None ->
         exists s3, provider_lookup w (run w n2) k2 p loc s2 = (Ok None, s3) /\ same_state s2 s3).
Proof.
  intros w n p f loc k s v s1 Hf Hk Hid L E.
  destruct (C33_same_data w n p f loc k s v s1 Hf Hk Hid L E) as (m & s0 & E0 & H). exists m.
  assert (G : forall r, root k = Ok r -> exists s', match mgets r m with None => ret None | Some v => interpolate (run w n) true v end s0 = (Ok v, s')).
  { intros r R. unfold look_in in E0. rewrite R in E0. unfold bind at 1, lift in E0.
    apply bind_ok in E0 as (v' & s' & E1 & E0). apply bind_ok in E0 as (u & s'' & E2 & E0).
    unfold ret in E0. inversion E0; subst. exists s'. exact E1. }
  split; [ | split ].
  - intros r x R Hx Sx Hn. destruct (G r R) as [s' E1]. rewrite Hx in E1. destruct n as [|n]; [ contradiction | ].
    rewrite (interpolate_settled w n true x s0 Sx) in E1. inversion E1. reflexivity.
  - intros r R Hx. destruct (G r R) as [s' E1]. rewrite Hx in E1. inversion E1. reflexivity.
  - intros s2 n2 k2 r2 H2 R2 O2.
    assert (O3 : forall s3, same_state s2 s3 -> iv_expl (s_iv s3) = false) by (intros s3 S3; rewrite (ss_iv _ _ S3); exact O2).
    split.
    + intros x Hx Sx. destruct (H s2 (S n2) k2 H2) as (s3 & S3 & E3). exists s3. split; [ | exact S3 ].
      rewrite E3. unfold look_in. rewrite R2. unfold bind at 1, lift. rewrite Hx. unfold bind at 1.
      rewrite (interpolate_settled w n2 true x s3 Sx). unfold report_found, bind, run_op. rewrite (O3 s3 S3). reflexivity.
    + intro Hx. destruct (H s2 n2 k2 H2) as (s3 & S3 & E3). exists s3. split; [ | exact S3 ].
      rewrite E3. unfold look_in. rewrite R2. unfold bind at 1, lift. rewrite Hx. unfold bind, ret, lift.
      unfold report_found, run_op. rewrite (O3 s3 S3). reflexivity.
Qed.
Print Assumptions C33_asks_nothing_again.

(** A function that gives another number at each call: two lookups in one
    invocation see the same data, and a lookup in the next invocation, which has
    providers of its own, calls it again. *)
Definition count_calls (t : list event) : nat :=
  length (filter (fun e => match e with EvCall _ _ => true | _ => false end) t).
Definition counting_w : world :=
  let w := file_world [("/h/hiera.yaml", vmap [("version", VInt 5); ("hierarchy", VArr
                          [vmap [("name", VStr "counter"); ("data_hash", VStr "count")]])])] [] in
  mk_world (w_stat w) (w_glob w) (w_config w) (w_yaml w) (w_json w) (w_readdir w) (w_lstat w)
           (fun _ n => String.eqb n "count") (w_plugin w)
           (fun t _ _ => PRet (Some (vmap [("a", VInt (Z.of_nat (count_calls t))); ("b", VInt (Z.of_nat (count_calls t)))])))
           (w_dig w) (w_env w) (w_cwd w) (w_show w) (w_parse_type w) (w_new w)
           (w_top w) (w_cfgpath w) (w_mux w) (w_modpath w) (w_yamlpath w).
Definition key_a : key := mk_key "a" [PStr "a"].
Definition key_b : key := mk_key "b" [PStr "b"].

Example C33_ex_counting :
  let s1 := snd (run_lookup counting_w 9 key_a None (init_st (ScMap []) None)) in
  let s2 := snd (run_lookup counting_w 9 key_b None s1) in
  let s3 := snd (run_lookup counting_w 9 key_b None (invocation (ScMap []) false s2)) in
  fst (run_lookup counting_w 9 key_b None s1) = Ok (Some (VInt 0)) /\
  count_calls (s_trace s2) = 1%nat /\
  fst (run_lookup counting_w 9 key_b None (invocation (ScMap []) false s2)) = Ok (Some (VInt 1)) /\
  count_calls (s_trace s3) = 2%nat.
Proof. vm_compute. repeat split; reflexivity. Qed.

Definition counting_p : provider :=
  mk_provider 3 (mk_entry "data" "/h/plugin" "" None (Some (mk_fdef KDataHash "count")) "e" None).
Definition counting_s : st := with_next 4 (init_st (ScMap []) None).

Example C33_ex : exists v s1 m,
  provider_lookup counting_w (run counting_w 9) key_a counting_p None counting_s = (Ok (Some v), s1) /\
  forall s2, later counting_w s1 s2 -> iv_expl (s_iv s2) = false ->
    (forall x, mgets "b" m = Some x -> settled x ->
       exists s3, provider_lookup counting_w (run counting_w 9) key_b counting_p None s2 = (Ok (Some x), s3) /\ same_state s2 s3).
Proof.
  assert (E : fst (provider_lookup counting_w (run counting_w 9) key_a counting_p None counting_s) = Ok (Some (VInt 0)))
    by (vm_compute; reflexivity).
  destruct (provider_lookup counting_w (run counting_w 9) key_a counting_p None counting_s) as [o s1] eqn:E1.
  cbn [fst] in E. subst o. exists (VInt 0), s1.
  destruct (C33_asks_nothing_again counting_w 9 counting_p (mk_fdef KDataHash "count") None key_a counting_s _ s1
              eq_refl eq_refl ltac:(apply Nat.leb_le; reflexivity) eq_refl E1) as (m & _ & _ & H).
  exists m. split; [ reflexivity | ]. intros s2 H2 O2 x. exact (proj1 (H s2 8 key_b "b" H2 eq_refl O2) x).
Qed.

(** ** C62 *)

(** The options that belong to an entry and one of its locations: the path of
    the location, and otherwise what the entry says. *)
Definition options_given (e : entry) (loc : option location) (opts : entries) : Prop :=
  (forall l, loc = Some l -> exists q, resolved_as l q /\ mget (VStr "path") opts = Some (VStr q)) /\
  (forall j, loc = None \/ j <> VStr "path" ->
     mget j opts = match e_options e with Some o => mget j o | None => None end).

(** Asking for the function itself. *)
Definition loading (name : string) (v : event) : Prop :=
  v = EvFun name \/ exists path, v = EvPlugin path name.

(** What [m] asks of the outside world when it is run in [s]. *)
Definition asks {A} (m : M st A) (s : st) (P : list event -> Prop) : Prop :=
  exists t, s_trace (snd (m s)) = s_trace s ++ t /\ P t.

Lemma asks_bind {A B} (m : M st A) (f : A -> M st B) s (P Q : list event -> Prop) :
  asks m s P -> (forall t, P t -> Q t) ->
  (forall a s1, m s = (Ok a, s1) -> forall t, P t -> asks (f a) s1 (fun u => Q (t ++ u))) ->
  asks (bind m f) s Q.
Proof.
  intros (t & E & Pt) H0 H. unfold asks, bind in *. destruct (m s) as [[a|x| |] s1] eqn:Em; cbn [snd] in *;
    try (exists t; auto; fail).
  destruct (H a s1 eq_refl t Pt) as (u & Eu & Qu). exists (t ++ u). split; [ | exact Qu ].
  rewrite Eu, E, app_assoc. reflexivity.
Qed.

(** Something that asks nothing first. *)
Lemma asks_silent {A B} (m : M st A) (f : A -> M st B) s (Q : list event -> Prop) :
  s_trace (snd (m s)) = s_trace s -> Q [] ->
  (forall a s1, m s = (Ok a, s1) -> asks (f a) s1 Q) ->
  asks (bind m f) s Q.
Proof.
  intros E Q0 H. apply (asks_bind m f s (fun t => t = []) Q).
  - exists []. split; [ rewrite app_nil_r; exact E | reflexivity ].
  - intros t ->. exact Q0.
  - intros a s1 Em t ->. exact (H a s1 Em).
Qed.

Lemma report_silent r s : s_trace (snd (run_op (OReport r) s)) = s_trace s.
Proof. unfold run_op. destruct (iv_expl (s_iv s)); [ destruct (xaccept r (s_ex s)) | ]; reflexivity. Qed.

Lemma asks_nothing {A} (m : M st A) s (P : list event -> Prop) : s_trace (snd (m s)) = s_trace s -> P [] -> asks m s P.
Proof. intros E H. exists []. rewrite app_nil_r. auto. Qed.

Lemma reported_silent k v s : s_trace (snd (bind (report_found k v) (fun _ => ret v) s)) = s_trace s.
Proof.
  unfold report_found, bind. destruct v as [x|];
    match goal with |- context [run_op (OReport ?r) s] => pose proof (report_silent r s) as H; destruct (run_op (OReport r) s) as [[]] end;
    exact H.
Qed.

Lemma asks_event {A} v (f : list event -> A) s : asks (ask v f) s (fun t => t = [v]).
Proof. exists [v]. split; reflexivity. Qed.

Lemma asks_load_function w e n s : asks (load_function w e n) s (Forall (loading n)).
Proof.
  unfold load_function. eapply asks_bind; [ apply asks_event | | ].
  - intros t ->. constructor; [ left; reflexivity | constructor ].
  - intros here s1 _ t ->. destruct here.
    { apply asks_nothing; [ reflexivity | ]. constructor; [ left; reflexivity | constructor ]. }
    destruct (loader_path (plugin_path (w_cwd w) e n)) as [path|];
      [ | apply asks_nothing; [ reflexivity | ]; constructor; [ left; reflexivity | constructor ] ].
    eapply asks_bind; [ apply asks_event | | ].
    + intros t ->. constructor; [ left; reflexivity | constructor; [ right; eauto | constructor ] ].
    + intros o s2 _ t ->. apply asks_nothing.
      * unfold bind, lift, ret. destruct o; reflexivity.
      * constructor; [ left; reflexivity | constructor; [ right; eauto | constructor ] ].
Qed.

Lemma asks_load_provider w e f s : asks (load_provider w e f) s (Forall (loading (f_name f))).
Proof.
  assert (N : forall A (a : A), asks (ret a) s (Forall (loading (f_name f)))) by (intros; apply asks_nothing; [ reflexivity | constructor ]).
  assert (O : asks (x <- load_function w e (f_name f) ;;
      match x with
      | Some r => ret (LdFn r)
      | None => run_op (OReport (RText ("unresolved function '" ++ f_name f ++ "'"))) ;;; ret LdNone
      end) s (Forall (loading (f_name f)))).
  { eapply asks_bind; [ apply asks_load_function | auto | ].
    intros [r|] s1 _ t Ht; (apply asks_nothing; [ | rewrite app_nil_r; exact Ht ]); [ reflexivity | ].
    unfold bind. match goal with |- context [run_op (OReport ?r) s1] => pose proof (report_silent r s1) as H; destruct (run_op (OReport r) s1) as [[]] end; exact H. }
  unfold load_provider. destruct (f_kind f); [ exact O | | ];
    repeat (match goal with |- context [if String.eqb (f_name f) ?y then _ else _] => destruct (String.eqb (f_name f) y) end);
    try apply N; exact O.
Qed.

Lemma asks_provider_function w id e f s : asks (provider_function w id e f) s (Forall (loading (f_name f))).
Proof.
  unfold provider_function. apply asks_silent; [ reflexivity | constructor | ].
  intros [l|] s1 _; [ apply asks_nothing; [ reflexivity | constructor ] | ].
  eapply asks_bind; [ apply asks_load_provider | auto | ].
  intros l s2 _ t Ht. apply asks_nothing; [ reflexivity | rewrite app_nil_r; exact Ht ].
Qed.

Lemma asks_call_fn w n f a s : asks (call_fn w (run w n) f a) s (fun t => exists t', t = EvCall f a :: t').
Proof.
  unfold call_fn. eapply asks_bind; [ apply asks_event | intros t ->; eauto | ].
  intros p s1 _ t ->.
  destruct (c_run_prog w _ (longer_closed w) (run w n) (run w n) (c_run w _ (longer_closed w) n) p s1) as [t E].
  exists t. split; [ exact E | exists t; reflexivity ].
Qed.

Lemma options_given_own e loc q : place_of loc = Ok q -> options_given e loc (own_options e loc q).
Proof.
  intro Q. unfold own_options, entry_options. split.
  - intros l ->. cbn [place_of] in Q. exists q. split; [ apply resolved_place; exact Q | ].
    unfold options_with_location, mmerge, mputall. cbn [fold_left fst snd].
    generalize (match e_options e with Some o => o | None => [] end). induction e0 as [|[k v] r IH]; cbn [mput mget].
    + reflexivity.
    + destruct (veq (VStr "path") k) eqn:E; cbn [mget]; rewrite E; [ reflexivity | exact IH ].
  - intros j H. destruct loc as [l|].
    + destruct H as [H|H]; [ discriminate | ].
      unfold options_with_location, mmerge, mputall. cbn [fold_left fst snd].
      assert (J : forall o : entries, mget j (mput (VStr "path") (VStr q) o) = mget j o).
      { induction o as [|[k v] r IH]; cbn [mput mget].
        - destruct (veq j (VStr "path")) eqn:E; [ | reflexivity ]. exfalso. apply H.
          destruct j; try discriminate E. cbn [veq] in E. apply String.eqb_eq in E. congruence.
        - destruct (veq (VStr "path") k) eqn:E; cbn [mget]; [ | rewrite IH; reflexivity ].
          apply veq_str_l in E. subst k. destruct (veq j (VStr "path")) eqn:E; [ | reflexivity ]. exfalso. apply H.
          destruct j; try discriminate E. cbn [veq] in E. apply String.eqb_eq in E. congruence. }
      rewrite J. destruct (e_options e); reflexivity.
    + destruct (e_options e); reflexivity.
Qed.

(** What a lookup of a lookup_key entry at a location asks: perhaps for the
    function, and then nothing, or first of all the function for the key with
    the options of this entry and this location, whatever the state holds and
    whatever is asked later. *)
Theorem C62_lookup_key : forall w n k p loc s f,
  e_function (p_entry p) = Some f -> f_kind f = KLookupKey ->
  exists load t,
    s_trace (snd (provider_lookup w (run w n) k p loc s)) = s_trace s ++ load ++ t /\
    Forall (loading (f_name f)) load /\
    (t = [] \/ exists fn opts r t', t = EvCall fn (ALookupKey opts r) :: t' /\
                 root k = Ok r /\ options_given (p_entry p) loc opts).
Proof.
  intros w n k p loc s f Hf Hk.
  set (Q := fun u : list event => exists load t, u = load ++ t /\ Forall (loading (f_name f)) load /\
    (t = [] \/ exists fn opts r t', t = EvCall fn (ALookupKey opts r) :: t' /\ root k = Ok r /\ options_given (p_entry p) loc opts)).
  enough (H : asks (provider_lookup w (run w n) k p loc) s Q).
  { destruct H as (u & E & load & t & -> & H). exists load, t. split; [ exact E | exact H ]. }
  assert (Q0 : Q []) by (exists [], []; split; [ reflexivity | split; [ constructor | left; reflexivity ] ]).
  unfold provider_lookup. rewrite Hf, Hk.
  apply asks_silent; [ reflexivity | exact Q0 | ]. intros r s0 Er. unfold lift in Er. inversion Er as [[R E0]]. clear Er.
  assert (P : exists o, provider_options (p_entry p) loc s0 = (match o with Ok q => Ok (own_options (p_entry p) loc q) | x => recast x end, s0) /\
                place_of loc = o).
  { exists (place_of loc). split; [ | reflexivity ]. destruct loc as [l|]; cbn [place_of]; [ | reflexivity ].
    unfold provider_options, bind, lift. destruct (loc_resolved l); reflexivity. }
  destruct P as (o & P & Po).
  apply asks_silent; [ rewrite P; reflexivity | exact Q0 | ]. intros opts s1 Eo. rewrite P in Eo.
  assert (O : options_given (p_entry p) loc opts /\ s1 = s0).
  { destruct o as [q|x| |]; inversion Eo; subst. split; [ apply options_given_own; exact Po | reflexivity ]. }
  destruct O as [O ->]. clear Eo P Po.
  eapply asks_bind; [ apply asks_provider_function | | ].
  { intros t Ht. exists t, []. rewrite app_nil_r. auto. }
  intros l s2 _ load Hload.
  assert (QL : Q (load ++ [])) by (exists load, []; split; [ reflexivity | split; [ exact Hload | left; reflexivity ] ]).
  assert (N : s_trace (snd (call_key w (run w n) l opts r s2)) = s_trace s2 ->
     asks (v <- call_key w (run w n) l opts r ;; (report_found r v ;;; ret v)) s2 (fun u => Q (load ++ u))).
  { intro Es. apply asks_silent; [ exact Es | exact QL | ]. intros a s3 _. apply asks_nothing; [ apply reported_silent | exact QL ]. }
  destruct l as [| | | |g|]; try (apply N; reflexivity).
  eapply asks_bind; [ apply asks_call_fn | | ].
  - intros t (t' & ->). exists load, (EvCall g (ALookupKey opts r) :: t'). split; [ reflexivity | ]. split; [ exact Hload | right ].
    exists g, opts, r, t'. auto.
  - intros v s3 _ t (t' & ->). apply asks_nothing; [ apply reported_silent | ]. rewrite app_nil_r.
    exists load, (EvCall g (ALookupKey opts r) :: t'). split; [ reflexivity | ]. split; [ exact Hload | right ].
    exists g, opts, r, t'. auto.
Qed.
Print Assumptions C62_lookup_key.

(** What a lookup of a data_dig entry at a location asks: perhaps for the
    function, and then nothing, or the function for all parts of the key. *)
Theorem C62_data_dig : forall w n k p loc s f,
  e_function (p_entry p) = Some f -> f_kind f = KDataDig ->
  exists load t,
    s_trace (snd (provider_lookup w (run w n) k p loc s)) = s_trace s ++ load ++ t /\
    Forall (loading (f_name f)) load /\
    (t = [] \/ exists fn, t = [EvDig fn (k_parts k)]).
Proof.
  intros w n k p loc s f Hf Hk.
  set (Q := fun u : list event => exists load t, u = load ++ t /\ Forall (loading (f_name f)) load /\
    (t = [] \/ exists fn, t = [EvDig fn (k_parts k)])).
  enough (H : asks (provider_lookup w (run w n) k p loc) s Q).
  { destruct H as (u & E & load & t & -> & H). exists load, t. split; [ exact E | exact H ]. }
  assert (Q0 : Q []) by (exists [], []; split; [ reflexivity | split; [ constructor | left; reflexivity ] ]).
  unfold provider_lookup. rewrite Hf, Hk.
  apply asks_silent; [ | exact Q0 | ].
  { unfold provider_options, bind, lift. destruct loc as [l|]; [ destruct (loc_resolved l) | ]; reflexivity. }
  intros opts s1 Eo.
  eapply asks_bind; [ apply asks_provider_function | | ].
  { intros t Ht. exists t, []. rewrite app_nil_r. auto. }
  intros l s2 _ load Hload.
  assert (QL : Q (load ++ [])) by (exists load, []; split; [ reflexivity | split; [ exact Hload | left; reflexivity ] ]).
  assert (T : forall v s3, s_trace (snd ((match v with
      | Some x => report_found (k_source k) v ;;; ret (Some (bury k x))
      | None => report_found (k_source k) None ;;; ret None
      end) s3)) = s_trace s3).
  { intros [x|] s3; unfold report_found, bind, ret, lift; cbv beta iota zeta delta [run_op];
      destruct (iv_expl (s_iv s3)); [ destruct (xaccept _ (s_ex s3)) | | destruct (xaccept _ (s_ex s3)) | ]; reflexivity. }
  assert (N : s_trace (snd (call_dig w l (k_parts k) s2)) = s_trace s2 ->
     asks (v <- call_dig w l (k_parts k) ;; match v with
      | Some x => report_found (k_source k) v ;;; ret (Some (bury k x))
      | None => report_found (k_source k) None ;;; ret None
      end) s2 (fun u => Q (load ++ u))).
  { intro Es. apply asks_silent; [ exact Es | exact QL | ]. intros a s3 _. apply asks_nothing; [ apply T | exact QL ]. }
  destruct l as [| | | |g|]; try (apply N; reflexivity).
  assert (QD : Q (load ++ [EvDig g (k_parts k)])).
  { exists load, [EvDig g (k_parts k)]. split; [ reflexivity | split; [ exact Hload | right; eauto ] ]. }
  apply (asks_bind _ _ _ (fun u => u = [EvDig g (k_parts k)])).
  - exists [EvDig g (k_parts k)]. split; [ | reflexivity ].
    unfold call_dig, ask, bind, ret, lift. reflexivity.
  - intros t ->. exact QD.
  - intros v s3 _ t ->. apply asks_nothing; [ apply T | ]. rewrite app_nil_r. exact QD.
Qed.
Print Assumptions C62_data_dig.

(** The question that a data_hash function or built-in is asked with the options
    of an entry and a location. *)
Definition asked_for_data (w : world) (e : entry) (loc : option location) (v : event) : Prop :=
  exists opts, options_given e loc opts /\
    ((exists fn, v = EvCall fn (ADataHash opts)) \/
     (exists x, mget (VStr "path") opts = Some x /\ (v = EvYaml (vstring w x) \/ v = EvJson (vstring w x)))).

Lemma call_hash_asks w n e loc opts l s : options_given e loc opts ->
  exists t, s_trace (snd (call_hash w (run w n) l opts s)) = s_trace s ++ t /\
    ((t = [] /\ forall m, fst (call_hash w (run w n) l opts s) = Ok m -> m = []) \/
     exists v t', t = v :: t' /\ asked_for_data w e loc v).
Proof.
  intro O.
  assert (F : forall b, exists t, s_trace (snd (file_data w b opts s)) = s_trace s ++ t /\
    ((t = [] /\ forall m, fst (file_data w b opts s) = Ok m -> m = []) \/
     exists v t', t = v :: t' /\ asked_for_data w e loc v)).
  { intro b. unfold file_data. destruct (mgets "path" opts) as [x|] eqn:X.
    2:{ exists []. rewrite app_nil_r. split; [ reflexivity | left ]. split; [ reflexivity | discriminate ]. }
    exists [if b then EvJson (vstring w x) else EvYaml (vstring w x)]. split.
    - destruct b; unfold bind, ask, run_op, bind, ret, lift; cbn [with_trace s_trace];
        match goal with |- context [match ?d with DfMissing => _ | _ => _ end] => destruct d as [|y|y] end; try reflexivity;
        destruct y; reflexivity.
    - right. eexists _, []. split; [ reflexivity | ]. exists opts. split; [ exact O | right ].
      exists x. split; [ exact X | ]. destruct b; auto. }
  destruct l as [| | | |g|]; cbn [call_hash]; try apply F;
    try (exists []; rewrite app_nil_r; split; [ reflexivity | left ]; split; [ reflexivity | intros m E; inversion E; reflexivity ]).
  destruct (asks_call_fn w n g (ADataHash opts) s) as (t & E & t' & ->).
  exists (EvCall g (ADataHash opts) :: t'). split.
  - unfold bind. destruct (call_fn w (run w n) g (ADataHash opts) s) as [[a|x| |] s1]; exact E.
  - right. eexists _, t'. split; [ reflexivity | ]. exists opts. split; [ exact O | left; eauto ].
Qed.

(** What a lookup of a data_hash entry at a location, for which it has no data
    yet, asks: perhaps for the function, and then nothing, or first of all the
    data with the options of this entry and this location. *)
Theorem C62_data_hash : forall w n k p loc s f,
  e_function (p_entry p) = Some f -> f_kind f = KDataHash ->
  (forall q, place_of loc = Ok q -> aget q (ps_hashes (s_provs s (p_id p))) = None) ->
  exists load t,
    s_trace (snd (provider_lookup w (run w n) k p loc s)) = s_trace s ++ load ++ t /\
    Forall (loading (f_name f)) load /\
    (t = [] \/ exists v t', t = v :: t' /\ asked_for_data w (p_entry p) loc v).
Proof.
  intros w n k p loc s f Hf Hk Hn.
  assert (Nothing : forall x : st, s_trace x = s_trace s -> exists load t,
    s_trace x = s_trace s ++ load ++ t /\ Forall (loading (f_name f)) load /\
    (t = [] \/ exists v t', t = v :: t' /\ asked_for_data w (p_entry p) loc v)).
  { intros x E. exists [], []. rewrite E, app_nil_r. split; [ reflexivity | split; [ constructor | left; reflexivity ] ]. }
  unfold provider_lookup. rewrite Hf, Hk.
  unfold bind at 1, lift. destruct (root k) as [r|x| |]; try (apply Nothing; reflexivity).
  destruct (data_hash w (run w n) (p_id p) (p_entry p) f loc s) as [o s1] eqn:Ed.
  assert (D : exists load t, s_trace s1 = s_trace s ++ load ++ t /\ Forall (loading (f_name f)) load /\
    ((t = [] /\ forall m, o = Ok m -> m = []) \/ exists v t', t = v :: t' /\ asked_for_data w (p_entry p) loc v)).
  { assert (N0 : s_trace s1 = s_trace s -> (forall m, o = Ok m -> m = []) -> exists load t,
      s_trace s1 = s_trace s ++ load ++ t /\ Forall (loading (f_name f)) load /\
      ((t = [] /\ forall m, o = Ok m -> m = []) \/ exists v t', t = v :: t' /\ asked_for_data w (p_entry p) loc v)).
    { intros E Ho. exists [], []. rewrite E, app_nil_r. split; [ reflexivity | split; [ constructor | left; auto ] ]. }
    unfold data_hash in Ed. unfold bind at 1 in Ed.
    destruct (place_of loc) as [q|x| |] eqn:Q.
    2-4: destruct loc as [l|]; [ | discriminate Q ]; cbn [place_of] in Q; unfold lift in Ed; rewrite Q in Ed;
      inversion Ed; subst; apply N0; [ reflexivity | discriminate ].
    rewrite (place_run loc q s Q) in Ed. unfold bind at 1 in Ed. rewrite (options_run (p_entry p) loc q s Q) in Ed.
    unfold bind at 1 in Ed.
    destruct (ps_locked (s_provs s (p_id p))) eqn:L.
    { unfold run_scoped in Ed. rewrite L in Ed. inversion Ed; subst. apply N0; [ reflexivity | discriminate ]. }
    destruct (read_hash (p_id p) q s L) as (s' & E' & S). rewrite E', (Hn q eq_refl) in Ed.
    unfold fill, run_scoped in Ed. rewrite (ss_provs _ _ S), L in Ed.
    match type of Ed with context [bind (run_op (OHash (p_id p) q)) _ ?x] => set (s4 := x) in * end.
    unfold bind at 1 in Ed. change (run_op (OHash (p_id p) q) s4) with (Ok (aget q (ps_hashes (s_provs s4 (p_id p)))), s4) in Ed.
    assert (P4 : aget q (ps_hashes (s_provs s4 (p_id p))) = None).
    { unfold s4, with_prov. cbn [s_provs]. rewrite Nat.eqb_refl. cbn [ps_hashes]. exact (Hn q eq_refl). }
    assert (T4 : s_trace s4 = s_trace s) by (unfold s4; cbn [with_prov s_trace]; exact (ss_trace _ _ S)).
    rewrite P4 in Ed.
    destruct (asks_provider_function w (p_id p) (p_entry p) f s4) as (load & El & Hl).
    unfold bind in Ed. destruct (provider_function w (p_id p) (p_entry p) f s4) as [[l|x| |] s5] eqn:E5; cbn [snd] in El.
    2-4: exists load, []; apply pair_equal_spec in Ed as [<- <-]; cbn [with_prov s_trace]; rewrite El, T4, app_nil_r;
      split; [ reflexivity | split; [ exact Hl | left; split; [ reflexivity | discriminate ] ] ].
    destruct (call_hash_asks w n (p_entry p) loc (own_options (p_entry p) loc q) l s5 (options_given_own (p_entry p) loc q Q)) as (t & Et & Ht).
    exists load, t.
    destruct (call_hash w (run w n) l (own_options (p_entry p) loc q) s5) as [[m|x| |] s6]; cbn [snd fst] in Et, Ht;
      unfold run_op, ret, lift in Ed; apply pair_equal_spec in Ed as [<- <-]; cbn [with_prov s_trace]; rewrite Et, El, T4, app_assoc; auto. }
  destruct D as (load & t & E & Hload & Ht).
  unfold bind at 1. rewrite Ed.
  destruct o as [m|x| |].
  2-4: exists load, t; split; [ exact E | split; [ exact Hload | destruct Ht as [[-> _]|Ht]; auto ] ].
  destruct Ht as [[-> Hm]|(v & t' & -> & Hv)].
  - rewrite (Hm m eq_refl). cbn [mgets mget].
    match goal with |- context [bind (ret None) ?f s1] => change (bind (ret None) f s1) with (f None s1) end. cbv beta.
    exists load, []. rewrite reported_silent. split; [ exact E | split; [ exact Hload | left; reflexivity ] ].
  - assert (K : longer s1 (snd ((v0 <- match mgets r m with Some v => interpolate (run w n) true v | None => ret None end;;
       (report_found r v0;;; ret v0)) s1))).
    { pose proof (longer_closed w) as C. pose proof (c_run w _ C n) as Hrec.
      assert (K : steps longer _ (v0 <- match mgets r m with Some v => interpolate (run w n) true v | None => ret None end;;
       (report_found r v0;;; ret v0)) (v0 <- match mgets r m with Some v => interpolate (run w n) true v | None => ret None end;;
       (report_found r v0;;; ret v0))).
      { apply (c_bind w _ C).
        - destruct (mgets r m); [ apply (c_interpolate w _ C); exact Hrec | apply (c_lift w _ C) ].
        - intro. apply (c_bind w _ C); [ apply (c_report_found w _ C) | intro; apply (c_lift w _ C) ]. }
      exact (K s1). }
    destruct K as [u Eu]. exists load, (v :: t' ++ u). split; [ | split; [ exact Hload | right; exists v, (t' ++ u); auto ] ].
    rewrite Eu, E, <- !app_assoc. reflexivity.
Qed.
Print Assumptions C62_data_hash.

(** An entry with an option and two locations, as a lookup_key function and as a
    data_hash function that are not loaded yet. *)
Definition given_entry (kind : fkind) : entry :=
  mk_entry "data" "/h/plugin" "" (Some [(VStr "o", VInt 1); (VStr "path", VStr "mine")]) (Some (mk_fdef kind "fn")) "e"
    (Some [LPath "a" "/h/a" true; LUri "b" "http://b"]).
Definition given_w : world := with_funs [("fn", fun _ => PRet None)] (file_world [] []).

Example C62_lookup_key_ex : exists load t,
  s_trace (snd (provider_lookup given_w (run given_w 3) key_a (mk_provider 0 (given_entry KLookupKey)) (Some (LUri "b" "http://b"))
                  (init_st (ScMap []) None))) = load ++ t /\
  Forall (loading "fn") load /\
  exists fn opts t', t = EvCall fn (ALookupKey opts "a") :: t' /\
    mget (VStr "path") opts = Some (VStr "http://b") /\ mget (VStr "o") opts = Some (VInt 1) /\ mget (VStr "x") opts = None.
Proof.
  destruct (C62_lookup_key given_w 3 key_a (mk_provider 0 (given_entry KLookupKey)) (Some (LUri "b" "http://b"))
             (init_st (ScMap []) None) (mk_fdef KLookupKey "fn") eq_refl eq_refl) as (load & t & E & L & H).
  exists load, t. split; [ exact E | split; [ exact L | ] ].
  destruct H as [->|(fn & opts & r & t' & -> & R & [G1 G2])].
  - exfalso. rewrite app_nil_r in E. vm_compute in E. subst load. rewrite Forall_forall in L.
    destruct (L (EvCall (FnSession "fn") (ALookupKey [(VStr "o", VInt 1); (VStr "path", VStr "http://b")] "a"))) as [H|[x H]];
      [ right; left; reflexivity | discriminate H | discriminate H ].
  - inversion R; subst r. exists fn, opts, t'. split; [ reflexivity | ].
    destruct (G1 _ eq_refl) as (q & Q & Hq). cbn [resolved_as] in Q. subst q.
    split; [ exact Hq | ]. rewrite !G2 by (right; discriminate). split; reflexivity.
Qed.

Example C62_data_hash_ex :
  s_trace (snd (provider_lookup given_w (run given_w 3) key_a (mk_provider 0 (given_entry KDataHash)) (Some (LPath "a" "/h/a" true))
                  (init_st (ScMap []) None)))
  = [EvFun "fn"; EvCall (FnSession "fn") (ADataHash [(VStr "o", VInt 1); (VStr "path", VStr "/h/a")])] /\
  exists load t, [EvFun "fn"; EvCall (FnSession "fn") (ADataHash [(VStr "o", VInt 1); (VStr "path", VStr "/h/a")])] = load ++ t /\
    Forall (loading "fn") load /\
    (t = [] \/ exists v t', t = v :: t' /\ asked_for_data given_w (given_entry KDataHash) (Some (LPath "a" "/h/a" true)) v).
Proof.
  split; [ vm_compute; reflexivity | ].
  destruct (C62_data_hash given_w 3 key_a (mk_provider 0 (given_entry KDataHash)) (Some (LPath "a" "/h/a" true))
             (init_st (ScMap []) None) (mk_fdef KDataHash "fn") eq_refl eq_refl) as (load & t & E & H).
  { intros q _. reflexivity. }
  exists load, t. split; [ | exact H ]. change (load ++ t) with (s_trace (init_st (ScMap []) None) ++ load ++ t).
  rewrite <- E. vm_compute. reflexivity.
Qed.

Example C62_data_dig_ex :
  let k := mk_key "a.0" [PStr "a"; PInt 0] in
  let p := mk_provider 0 (given_entry KDataDig) in
  s_trace (snd (provider_lookup given_w (run given_w 3) k p (Some (LPath "a" "/h/a" true)) (init_st (ScMap []) None)))
  = [EvFun "fn"; EvDig (FnSession "fn") [PStr "a"; PInt 0]] /\
  e_function (p_entry p) = Some (mk_fdef KDataDig "fn").
Proof. split; vm_compute; reflexivity. Qed.
