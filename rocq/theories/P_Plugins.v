(** The processes of plugins: C52. *)

From Coq Require Import String Ascii List ZArith Bool Arith Lia.
From Verif Require Import Str Value Outcome State Conc Plugin.
Import ListNotations.
Open Scope string_scope.
Open Scope list_scope.
Open Scope bool_scope.

(** ** The specification *)

(** A process is alive. *)
Definition alive (g : registry) (pid : nat) (path : string) : Prop :=
  nth_error (rg_processes g) pid = Some (mk_process path true).

(** The session knows a process: it is registered under the path of its program. *)
Definition known (g : registry) (pid : nat) (path : string) (p : plugin) : Prop :=
  aget path (plugins_of g) = Some p /\ pl_process p = Some pid.

(** A goroutine is starting the process, and has it in its hands. *)
Definition being_started (ts : list starter) (pid : nat) (path : string) : Prop :=
  exists i l, nth_error ts i = Some l /\ ((exists r, sr_pc l = PcStarted path pid r) \/ sr_pc l = PcRegistered path pid).

(** No goroutine is busy with the registry. *)
Definition at_rest (ts : list starter) : Prop :=
  forall i l, nth_error ts i = Some l -> sr_pc l = PcIdle.

(** The plugin has told about its functions as it should: for each kind a list
    of names. *)
Definition told_functions (p : plugin) : Prop :=
  Forall (fun e => exists names, snd e = VArr names /\ Forall (fun n => exists t, n = VStr t) names) (pl_functions p).

(** ** Functions *)

Lemma add_names_ok k names : forall m m', add_names k names m = Ok m' -> Forall (fun n => exists t, n = VStr t) names.
Proof.
  induction names as [|n names IH]; intros m m' H; [ constructor | ]. cbn [add_names] in H.
  destruct n; try discriminate H. constructor; [ eauto | ]. exact (IH _ _ H).
Qed.

Lemma function_map_ok fs : forall m m', function_map fs m = Ok m' ->
  Forall (fun e => exists names, snd e = VArr names /\ Forall (fun n => exists t, n = VStr t) names) fs.
Proof.
  induction fs as [|[k v] fs IH]; intros m m' H; [ constructor | ]. cbn [function_map] in H.
  destruct v; try discriminate H. destruct (add_names (kind_of k) l m) as [m1|e| |] eqn:E; try discriminate H.
  constructor; [ | exact (IH _ _ H) ]. cbn [snd]. exists l. split; [ reflexivity | exact (add_names_ok _ _ _ _ E) ].
Qed.

(** ** Maps and processes *)

Lemma aget_rput path p l q : aget q (rput path p l) = if String.eqb q path then Some p else aget q l.
Proof.
  induction l as [|[k x] l IH]; cbn [rput aget].
  - reflexivity.
  - destruct (String.eqb_spec path k) as [E|N]; cbn [aget].
    + subst k. destruct (String.eqb q path); reflexivity.
    + rewrite IH. destruct (String.eqb_spec q k) as [E|N2]; [ | reflexivity ]. subst k.
      destruct (String.eqb_spec q path); [ congruence | reflexivity ].
Qed.

Lemma keys_rput path p l : map fst (rput path p l) = if existsb (String.eqb path) (map fst l) then map fst l else map fst l ++ [path].
Proof.
  induction l as [|[k x] l IH]; cbn [rput map fst existsb app]; [ reflexivity | ].
  destruct (String.eqb_spec path k) as [E|N]; cbn [map fst orb]; [ subst; reflexivity | ].
  rewrite IH. destruct (existsb (String.eqb path) (map fst l)); reflexivity.
Qed.

Lemma aget_in {A} k (l : list (string * A)) : aget k l <> None <-> In k (map fst l).
Proof.
  induction l as [|[q x] l IH]; cbn [aget map fst In].
  - split; [ congruence | intros [] ].
  - destruct (String.eqb_spec k q) as [E|N]; [ subst; split; [ auto | discriminate ] | ]. rewrite IH. split; [ auto | intros [E|H]; [ congruence | exact H ] ].
Qed.

Lemma existsb_in k (l : list string) : existsb (String.eqb k) l = true <-> In k l.
Proof.
  rewrite existsb_exists. split; [ intros (x & H & E); apply String.eqb_eq in E; subst; exact H | ].
  intro H. exists k. split; [ exact H | apply String.eqb_refl ].
Qed.

Lemma keys_rput_in path p l : In path (map fst l) -> map fst (rput path p l) = map fst l.
Proof. intro H. rewrite keys_rput. apply existsb_in in H. rewrite H. reflexivity. Qed.

Lemma NoDup_rput path p l : NoDup (map fst l) -> NoDup (map fst (rput path p l)).
Proof.
  intro H. rewrite keys_rput. destruct (existsb (String.eqb path) (map fst l)) eqn:E; [ exact H | ].
  assert (N : ~ In path (map fst l)) by (intro I; apply existsb_in in I; congruence).
  clear E. induction (map fst l) as [|x r IH]; cbn [app]; [ constructor; [ intros [] | constructor ] | ].
  inversion H; subst. constructor.
  - intro I. apply in_app_or in I as [I|[I|[]]]; [ auto | subst; apply N; left; reflexivity ].
  - apply IH; [ assumption | intro I; apply N; right; exact I ].
Qed.

(** The path of a process that was started. *)
Definition path_of (ps : list process) (pid : nat) : option string := option_map pc_path (nth_error ps pid).

Lemma end_path pid ps j : path_of (end_process pid ps) j = path_of ps j.
Proof.
  unfold path_of. revert pid j. induction ps as [|p ps IH]; intros pid j; [ destruct pid, j; reflexivity | ].
  destruct pid; cbn [end_process]; destruct j; cbn [nth_error]; try reflexivity. apply IH.
Qed.

Lemma end_alive pid ps j path : nth_error (end_process pid ps) j = Some (mk_process path true) ->
  j <> pid /\ nth_error ps j = Some (mk_process path true).
Proof.
  revert pid j. induction ps as [|p ps IH]; intros pid j H; [ destruct pid, j; discriminate | ].
  destruct pid; cbn [end_process] in H; destruct j; cbn [nth_error] in *; try discriminate.
  - split; [ discriminate | exact H ].
  - split; [ discriminate | exact H ].
  - destruct (IH _ _ H). split; [ congruence | assumption ].
Qed.

Lemma alive_path g pid path : alive g pid path -> path_of (rg_processes g) pid = Some path.
Proof. unfold alive, path_of. intros ->. reflexivity. Qed.

Lemma path_new ps path : path_of (ps ++ [mk_process path true]) (length ps) = Some path.
Proof. unfold path_of. rewrite nth_error_app2 by lia. rewrite Nat.sub_diag. reflexivity. Qed.

Lemma path_old ps x pid path : path_of ps pid = Some path -> path_of (ps ++ [x]) pid = Some path.
Proof.
  unfold path_of. destruct (nth_error ps pid) as [p|] eqn:E; [ | discriminate ].
  intro H. rewrite nth_error_app1; [ rewrite E; exact H | ]. apply nth_error_Some. congruence.
Qed.

(** ** The invariant *)

Definition fine (g : registry) (path : string) (p : plugin) : Prop :=
  pl_locked p = false /\ exists pid, pl_process p = Some pid /\ path_of (rg_processes g) pid = Some path.

Definition plugin_ok (pc : plugin_pc) (g : registry) (path : string) (p : plugin) : Prop :=
  match pc with
  | PcStopping rest _ => (In path rest -> fine g path p) /\ (~ In path rest -> pl_process p = None)
  | PcTerminated q pid rest _ =>
      (path = q -> pl_process p = Some pid) /\
      (path <> q -> (In path rest -> fine g path p) /\ (~ In path rest -> pl_process p = None))
  | _ => fine g path p
  end.

Definition phase_ok (pc : plugin_pc) (g : registry) : Prop :=
  match pc with
  | PcIdle => True
  | PcStarted path pid r => aget path (plugins_of g) = None /\ path_of (rg_processes g) pid = Some path /\ (forall a b, r <> RpPipe a b) /\ (forall a, r <> RpStart a)
  | PcRegistered path pid => exists p, aget path (plugins_of g) = Some p /\ pl_process p = Some pid
  | PcStopping rest _ => NoDup rest /\ incl rest (map fst (plugins_of g))
  | PcTerminated q pid rest _ => NoDup (q :: rest) /\ incl (q :: rest) (map fst (plugins_of g)) /\ path_of (rg_processes g) pid = Some q
  end.

Definition live_ok (pc : plugin_pc) (g : registry) (pid : nat) (path : string) : Prop :=
  (exists r, pc = PcStarted path pid r) \/
  exists p, known g pid path p /\ (pc = PcRegistered path pid \/ exists m, function_map (pl_functions p) [] = Ok m).

Record good (pc : plugin_pc) (g : registry) : Prop := mk_good {
  gd_keys : NoDup (map fst (plugins_of g));
  gd_plugins : forall path p, aget path (plugins_of g) = Some p -> plugin_ok pc g path p;
  gd_phase : phase_ok pc g;
  gd_live : forall pid path, alive g pid path -> live_ok pc g pid path
}.

Definition is_idle (pc : plugin_pc) : bool := match pc with PcIdle => true | _ => false end.

Inductive inv : list starter * registry -> Prop :=
| inv_rest : forall ts g, at_rest ts -> rg_locked g = false -> good PcIdle g -> inv (ts, g)
| inv_busy : forall ts g i l, nth_error ts i = Some l -> is_idle (sr_pc l) = false -> rg_locked g = true ->
    (forall j l', j <> i -> nth_error ts j = Some l' -> sr_pc l' = PcIdle) -> good (sr_pc l) g -> inv (ts, g).

(** Other processes may end at any time. *)
Lemma good_end pc g pid b : good pc g -> good pc (mk_registry b (rg_plugins g) (end_process pid (rg_processes g))).
Proof.
  intros [G1 G2 G3 G4]. constructor; try exact G1.
  - intros path p H. specialize (G2 path p H). destruct pc; unfold plugin_ok, fine in *; cbn [rg_processes];
      try (destruct G2 as [L (j & E & P)]; split; [ exact L | exists j; rewrite end_path; auto ]).
    + destruct G2 as [A B]. split; [ | exact B ]. intro I. destruct (A I) as [L (j & E & P)]. split; [ exact L | exists j; rewrite end_path; auto ].
    + destruct G2 as [A B]. split; [ exact A | ]. intro N. destruct (B N) as [C D]. split; [ | exact D ].
      intro I. destruct (C I) as [L (j & E & P)]. split; [ exact L | exists j; rewrite end_path; auto ].
  - destruct pc; cbn [phase_ok] in *; try exact G3; cbn [rg_processes]; rewrite end_path; exact G3.
  - intros j path H. unfold alive in H. cbn [rg_processes] in H. apply end_alive in H as [_ H].
    destruct (G4 j path H) as [L|(p & K & L)]; [ left; exact L | right; exists p; split; [ exact K | exact L ] ].
Qed.

(** A goroutine that has the lock, or takes it. *)
Lemma step_good proto go_int l g l' g' :
  plugin_step proto go_int l g = Some (l', g') ->
  (is_idle (sr_pc l) = true -> rg_locked g = false) -> (is_idle (sr_pc l) = false -> rg_locked g = true) ->
  good (sr_pc l) g ->
  good (sr_pc l') g' /\ rg_locked g' = negb (is_idle (sr_pc l')).
Proof.
  intros H Hi Hb G. unfold plugin_step in H. destruct (sr_pc l) as [|path pid r|path pid|rest r|path pid rest r] eqn:Epc.
  - (* idle *)
    specialize (Hi eq_refl). destruct (sr_ops l) as [|[path r|r|pid] ops]; [ discriminate H | | | ].
    + rewrite Hi in H. destruct (aget path (plugins_of g)) as [p|] eqn:E.
      { injection H as <- <-. cbn. split; [ exact G | exact Hi ]. }
      assert (St : good (PcStarted path (length (rg_processes g)) r) (mk_registry true (rg_plugins g) (rg_processes g ++ [mk_process path true])) \/ (exists a b, r = RpPipe a b) \/ (exists a, r = RpStart a)).
      { destruct r; [ right; left; eauto | right; right; eauto | .. ]; left; (destruct G as [G1 G2 G3 G4]; constructor; [ exact G1 | | | ];
          [ intros q p H2; specialize (G2 q p H2); cbn [plugin_ok] in *; destruct G2 as [L (j & E2 & P)];
            split; [ exact L | exists j; split; [ exact E2 | cbn [rg_processes]; apply path_old; exact P ] ]
          | cbn [phase_ok rg_processes]; split; [ exact E | split; [ apply path_new | split; discriminate ] ]
          | intros j q H2; unfold alive in H2; cbn [rg_processes] in H2;
            destruct (Nat.lt_ge_cases j (length (rg_processes g))) as [Lt|Ge];
            [ rewrite nth_error_app1 in H2 by exact Lt; destruct (G4 j q H2) as [(r0 & D)|(p & K & [D|D])]; try discriminate D;
              right; exists p; split; [ exact K | right; exact D ]
            | rewrite nth_error_app2 in H2 by exact Ge; destruct (j - length (rg_processes g)) as [|d] eqn:Ed; cbn [nth_error] in H2;
              [ injection H2 as <-; left; replace j with (length (rg_processes g)) by lia; eauto
              | destruct d; discriminate H2 ] ] ]). }
      destruct r; injection H as <- <-; cbn [sr_pc finish]; try (split; [ exact G | exact Hi ]);
        (destruct St as [St|[St|St]]; [ split; [ exact St | reflexivity ] | destruct St as (? & ? & St); discriminate St | destruct St as (? & St); discriminate St ]).
    + rewrite Hi in H. injection H as <- <-. split; [ | reflexivity ]. destruct G as [G1 G2 G3 G4]. constructor; try exact G1; cbn [sr_pc].
      * intros q p H. specialize (G2 q p H). cbn [plugin_ok] in *. split; [ intros _; exact G2 | ].
        intro N. exfalso. apply N. apply aget_in. cbn in H. change (aget q (plugins_of g) <> None). unfold plugins_of. unfold plugins_of in H. cbn in H. congruence.
      * cbn [phase_ok]. split; [ exact G1 | apply incl_refl ].
      * intros j q H. destruct (G4 j q H) as [(r0 & D)|(p & K & [D|D])]; try discriminate D. right. exists p. split; [ exact K | right; exact D ].
    + injection H as <- <-. cbn [sr_pc]. split; [ apply good_end; exact G | exact Hi ].
  - (* started *)
    specialize (Hb eq_refl). destruct G as [G1 G2 [P1 [P2 [P3 P4]]] G4].
    assert (Ended : forall b o, match o with Some x => x | None => [] end = plugins_of g ->
                      good PcIdle (mk_registry b o (end_process pid (rg_processes g)))).
    { intros b o D. assert (D2 : plugins_of (mk_registry b o (end_process pid (rg_processes g))) = plugins_of g) by exact D.
      constructor.
      - rewrite D2. exact G1.
      - intros q p H2. rewrite D2 in H2. specialize (G2 q p H2). cbn [plugin_ok] in *. unfold fine in *. cbn [rg_processes].
        destruct G2 as [L (j & E2 & P)]. split; [ exact L | exists j; rewrite end_path; auto ].
      - exact I.
      - intros j q H2. unfold alive in H2. cbn [rg_processes] in H2. apply end_alive in H2 as [N H2].
        destruct (G4 j q H2) as [(r0 & E)|(p & K & [E|E])]; [ injection E as _ <- _; congruence | discriminate E | ].
        right. exists p. unfold known in *. rewrite D2. split; [ exact K | right; exact E ]. }
    assert (Dflt : match rg_plugins g with Some x => x | None => [] end = plugins_of g) by reflexivity.
    destruct r as [a b|a| |a|m]; try (injection H as <- <-; cbn [sr_pc finish rg_locked is_idle negb]; split; [ apply Ended; exact Dflt | reflexivity ]).
    destruct (initialize proto go_int path m) as [i|e| |] eqn:Ei;
      try (injection H as <- <-; cbn [sr_pc finish rg_locked is_idle negb]; split; [ apply Ended; reflexivity | reflexivity ]).
    injection H as <- <-. cbn [sr_pc rg_locked is_idle negb]. split; [ | reflexivity ].
    assert (Nw : exists ad nw fs, new_plugin pid i = mk_plugin false (Some pid) ad nw fs) by (destruct i as [[ad nw] fs]; exists ad, nw, fs; reflexivity).
    destruct Nw as (ad & nw & fs & Nw). rewrite Nw.
    constructor.
    + apply NoDup_rput. exact G1.
    + intros q p H2. unfold plugins_of at 1 in H2. cbn [rg_plugins] in H2. rewrite aget_rput in H2. cbn [plugin_ok].
      destruct (String.eqb_spec q path) as [E|N].
      * injection H2 as <-. subst q. split; [ reflexivity | exists pid; split; [ reflexivity | exact P2 ] ].
      * exact (G2 q p H2).
    + cbn [phase_ok]. unfold plugins_of at 1. cbn [rg_plugins]. rewrite aget_rput, String.eqb_refl. eexists. split; reflexivity.
    + intros j q H2. destruct (G4 j q H2) as [(r0 & E)|(p & [K1 K2] & [E|E])]; [ injection E as <- <- _ | discriminate E | ].
      * right. eexists. split; [ | left; reflexivity ]. split; [ unfold plugins_of at 1; cbn [rg_plugins]; rewrite aget_rput, String.eqb_refl; reflexivity | reflexivity ].
      * right. exists p. split; [ | right; exact E ]. split; [ | exact K2 ]. unfold plugins_of at 1. cbn [rg_plugins]. rewrite aget_rput.
        destruct (String.eqb_spec q path) as [E2|N]; [ subst; congruence | exact K1 ].
  - (* registered *)
    specialize (Hb eq_refl). destruct G as [G1 G2 (p & P1 & P2) G4]. rewrite P1 in H.
    assert (Kept : forall b ps, (forall j, path_of ps j = path_of (rg_processes g) j) ->
              (forall j q, nth_error ps j = Some (mk_process q true) -> nth_error (rg_processes g) j = Some (mk_process q true) /\ (j <> pid \/ exists m, function_map (pl_functions p) [] = Ok m)) ->
              good PcIdle (mk_registry b (rg_plugins g) ps)).
    { intros b ps Hp Ha. constructor; [ exact G1 | | exact I | ].
      - intros q x H2. specialize (G2 q x H2). cbn [plugin_ok] in *. unfold fine in *. cbn [rg_processes].
        destruct G2 as [L (j & E2 & P)]. split; [ exact L | exists j; rewrite Hp; auto ].
      - intros j q H2. destruct (Ha j q H2) as [A B]. destruct (G4 j q A) as [(r0 & E)|(x & [K1 K2] & [E|E])]; [ discriminate E | | ].
        + injection E as <- <-. destruct B as [B|B]; [ congruence | ]. right. exists x. split; [ split; assumption | ].
          right. rewrite P1 in K1. injection K1 as <-. exact B.
        + right. exists x. split; [ split; assumption | right; exact E ]. }
    destruct (function_map (pl_functions p) []) as [m|e| |] eqn:Ef; injection H as <- <-; cbn [sr_pc finish rg_locked is_idle negb]; (split; [ | reflexivity ]).
    + apply Kept; [ reflexivity | ]. intros j q H2. split; [ exact H2 | right; eauto ].
    + apply Kept; [ intro; apply end_path | ]. intros j q H2. apply end_alive in H2 as [N H2]. auto.
    + apply Kept; [ intro; apply end_path | ]. intros j q H2. apply end_alive in H2 as [N H2]. auto.
    + apply Kept; [ intro; apply end_path | ]. intros j q H2. apply end_alive in H2 as [N H2]. auto.
  - (* stopping *)
    specialize (Hb eq_refl). destruct G as [G1 G2 [P1 P2] G4]. destruct rest as [|path rest].
    + injection H as <- <-. cbn [sr_pc rg_locked is_idle negb]. split; [ | reflexivity ]. constructor.
      * constructor.
      * intros q p H. discriminate H.
      * exact I.
      * intros j q H. destruct (G4 j q H) as [(r0 & E)|(x & [K1 K2] & _)]; [ discriminate E | ].
        destruct (G2 q x K1) as [_ N]. rewrite (N (fun f => f)) in K2. discriminate K2.
    + destruct (aget path (plugins_of g)) as [p|] eqn:E.
      2:{ exfalso. apply (proj2 (aget_in path (plugins_of g))); [ apply P2; left; reflexivity | exact E ]. }
      destruct (G2 path p E) as [F _]. destruct (F (or_introl eq_refl)) as [L (pid & Ep & Epath)].
      rewrite L, Ep in H. injection H as <- <-. cbn [sr_pc rg_locked is_idle negb]. split; [ | reflexivity ].
      assert (Ik : In path (map fst (plugins_of g))) by (apply P2; left; reflexivity).
      constructor.
      * apply NoDup_rput. exact G1.
      * intros q x H. unfold plugins_of at 1 in H. cbn [rg_plugins] in H. rewrite aget_rput in H. cbn [plugin_ok].
        destruct (String.eqb_spec q path) as [Eq|N].
        -- injection H as <-. split; [ intros _; reflexivity | intro N; contradiction ].
        -- split; [ intro Eq; contradiction | ]. intros _. destruct (G2 q x H) as [A B]. split; [ intro Iq; apply A; right; exact Iq | ].
           intro Nq. apply B. intros [Eq|Iq]; [ congruence | contradiction ].
      * cbn [phase_ok]. unfold plugins_of at 1. cbn [rg_plugins rg_processes]. rewrite keys_rput_in by exact Ik. split; [ exact P1 | split; [ exact P2 | exact Epath ] ].
      * intros j q H. destruct (G4 j q H) as [(r0 & D)|(x & [K1 K2] & [D|D])]; [ discriminate D | discriminate D | ].
        destruct (String.eqb_spec q path) as [Eq|N].
        -- subst q. rewrite E in K1. injection K1 as <-. right. eexists.
           split; [ split; [ unfold plugins_of at 1; cbn [rg_plugins]; rewrite aget_rput, String.eqb_refl; reflexivity | cbn [pl_process]; exact (eq_trans (eq_sym Ep) K2) ] | right; exact D ].
        -- right. exists x. split; [ split; [ unfold plugins_of at 1; cbn [rg_plugins]; rewrite aget_rput | exact K2 ] | right; exact D ].
           destruct (String.eqb_spec q path); [ contradiction | exact K1 ].
  - (* terminated *)
    specialize (Hb eq_refl). destruct G as [G1 G2 [P1 [P2 P3]] G4]. inversion P1 as [|? ? P1a P1b]; subst.
    assert (Ik : In path (map fst (plugins_of g))) by (apply P2; left; reflexivity).
    destruct (aget path (plugins_of g)) as [p|] eqn:E.
    2:{ exfalso. apply (proj2 (aget_in path (plugins_of g))); [ exact Ik | exact E ]. }
    destruct (G2 path p E) as [F _]. specialize (F eq_refl).
    match type of H with Some (_, mk_registry _ _ ?x) = _ => replace x with (end_process pid (rg_processes g)) in H by (destruct (r path); reflexivity) end.
    injection H as <- <-. cbn [sr_pc rg_locked is_idle negb]. split; [ | reflexivity ]. constructor.
    + apply NoDup_rput. exact G1.
    + intros q x H. unfold plugins_of at 1 in H. cbn [rg_plugins] in H. rewrite aget_rput in H. cbn [plugin_ok].
      destruct (String.eqb_spec q path) as [Eq|N].
      * injection H as <-. subst q. split; [ intro Iq; contradiction | reflexivity ].
      * destruct (G2 q x H) as [_ B]. destruct (B N) as [C D]. split; [ | exact D ]. intro Iq. destruct (C Iq) as [L (j & Ep & Epath)].
        split; [ exact L | exists j; split; [ exact Ep | cbn [rg_processes]; rewrite end_path; exact Epath ] ].
    + cbn [phase_ok]. unfold plugins_of at 1. cbn [rg_plugins]. rewrite keys_rput_in by exact Ik. split; [ exact P1b | ].
      intros q Iq. apply P2. right. exact Iq.
    + intros j q H. unfold alive in H. cbn [rg_processes] in H. apply end_alive in H as [N H].
      destruct (G4 j q H) as [(r0 & D)|(x & [K1 K2] & [D|D])]; [ discriminate D | discriminate D | ].
      destruct (String.eqb_spec q path) as [Eq|Nq].
      * subst q. rewrite E in K1. injection K1 as <-. congruence.
      * right. exists x. split; [ split; [ unfold plugins_of at 1; cbn [rg_plugins]; rewrite aget_rput | exact K2 ] | right; exact D ].
        destruct (String.eqb_spec q path); [ contradiction | exact K1 ].
Qed.

Lemma idle_is pc : is_idle pc = true -> pc = PcIdle.
Proof. destruct pc; [ reflexivity | discriminate .. ]. Qed.

(** A goroutine that does not have the lock while another one has it: only a
    process may end. *)
Lemma step_waits proto go_int l g l' g' :
  plugin_step proto go_int l g = Some (l', g') -> sr_pc l = PcIdle -> rg_locked g = true ->
  sr_pc l' = PcIdle /\ exists pid, g' = mk_registry true (rg_plugins g) (end_process pid (rg_processes g)).
Proof.
  intros H Ei L. unfold plugin_step in H. rewrite Ei, L in H. destruct (sr_ops l) as [|[path r|r|pid] ops]; try discriminate H.
  injection H as <- <-. split; [ reflexivity | eauto ].
Qed.

Lemma inv_step proto go_int ts g i l l' g' :
  inv (ts, g) -> nth_error ts i = Some l -> plugin_step proto go_int l g = Some (l', g') -> inv (set_nth i l' ts, g').
Proof.
  intros Hinv Hi H. inversion Hinv as [ts0 g0 R L G|ts0 g0 k x Hk B L O G]; subst.
  - pose proof (R i l Hi) as Ei.
    destruct (step_good proto go_int l g l' g' H) as [G' L']; [ auto | rewrite Ei; discriminate | rewrite Ei; exact G | ].
    destruct (is_idle (sr_pc l')) eqn:Ib; cbn [negb] in L'.
    + apply inv_rest; [ | exact L' | apply idle_is in Ib; rewrite Ib in G'; exact G' ].
      intros j t Hj. destruct (Nat.eq_dec i j) as [E|N].
      * subst j. rewrite (set_nth_same ts i l' l Hi) in Hj. injection Hj as <-. apply idle_is. exact Ib.
      * rewrite set_nth_other in Hj by exact N. exact (R j t Hj).
    + apply (inv_busy _ _ i l'); [ exact (set_nth_same ts i l' l Hi) | exact Ib | exact L' | | exact G' ].
      intros j t N Hj. rewrite set_nth_other in Hj by congruence. exact (R j t Hj).
  - destruct (Nat.eq_dec k i) as [E|N].
    + subst k. assert (x = l) by congruence. subst x.
      destruct (step_good proto go_int l g l' g' H) as [G' L']; [ rewrite B; discriminate | auto | exact G | ].
      destruct (is_idle (sr_pc l')) eqn:Ib; cbn [negb] in L'.
      * apply inv_rest; [ | exact L' | apply idle_is in Ib; rewrite Ib in G'; exact G' ].
        intros j t Hj. destruct (Nat.eq_dec i j) as [E|N].
        -- subst j. rewrite (set_nth_same ts i l' l Hi) in Hj. injection Hj as <-. apply idle_is. exact Ib.
        -- rewrite set_nth_other in Hj by exact N. apply (O j t); [ congruence | exact Hj ].
      * apply (inv_busy _ _ i l'); [ exact (set_nth_same ts i l' l Hi) | exact Ib | exact L' | | exact G' ].
        intros j t N Hj. rewrite set_nth_other in Hj by congruence. exact (O j t N Hj).
    + assert (Ei : sr_pc l = PcIdle) by (apply (O i l); [ congruence | exact Hi ]).
      destruct (step_waits proto go_int l g l' g' H Ei L) as [Ei' (pid & ->)].
      apply (inv_busy _ _ k x); [ rewrite set_nth_other by congruence; exact Hk | exact B | reflexivity | | apply good_end; exact G ].
      intros j t Nj Hj. destruct (Nat.eq_dec i j) as [E|Ni].
      * subst j. rewrite (set_nth_same ts i l' l Hi) in Hj. injection Hj as <-. exact Ei'.
      * rewrite set_nth_other in Hj by exact Ni. exact (O j t Nj Hj).
Qed.

Lemma inv_start opss : inv (starters opss, no_plugins).
Proof.
  apply inv_rest; [ | reflexivity | ].
  - intros i l H. unfold starters in H. apply nth_error_In in H. apply in_map_iff in H as (ops & <- & _). reflexivity.
  - constructor; cbn; [ constructor | intros path p H; discriminate H | exact I | ].
    intros pid path H. unfold alive in H. destruct pid; discriminate H.
Qed.

Section Theorems.
  Variable proto : Z.
  Variable go_int : Z -> Z.

  (** What goroutines of a session can lead to. *)
  Definition session_reaches (opss : list (list plugin_op)) (ts : list starter) (g : registry) : Prop :=
    reaches (plugin_step proto go_int) (starters opss, no_plugins) (ts, g).

  Lemma reached opss ts g : session_reaches opss ts g -> inv (ts, g).
  Proof.
    intros [sched <-]. apply (turns_invariant (plugin_step proto go_int) inv); [ | apply inv_start ].
    intros ts0 s i l l' s' I Hi H. exact (inv_step proto go_int ts0 s i l l' s' I Hi H).
  Qed.

  Lemma live_unique pc g a b path : good pc g -> alive g a path -> alive g b path -> a = b.
  Proof.
    intros G A B. destruct (gd_live pc g G a path A) as [(ra & Ea)|(p & [K1 K2] & _)];
      destruct (gd_live pc g G b path B) as [(rb & Eb)|(q & [K3 K4] & _)].
    - congruence.
    - subst pc. destruct (gd_phase _ _ G) as [N _]. congruence.
    - subst pc. destruct (gd_phase _ _ G) as [N _]. congruence.
    - congruence.
  Qed.

  (** C52: at any time there is at most one live process of each program. *)
  Theorem C52_one_process opss ts g a b path :
    session_reaches opss ts g -> alive g a path -> alive g b path -> a = b.
  Proof. intros H. pose proof (reached _ _ _ H) as I. inversion I; subst; eapply live_unique; eauto. Qed.

  (** C52: each live process is known to the session, and has told about its
      functions as it should, or else a goroutine is just starting it. *)
  Theorem C52_known opss ts g pid path :
    session_reaches opss ts g -> alive g pid path ->
    (exists p, known g pid path p /\ told_functions p) \/ being_started ts pid path.
  Proof.
    intros H A. pose proof (reached _ _ _ H) as I. inversion I as [ts0 g0 R L G|ts0 g0 k x Hk B L O G]; subst.
    - destruct (gd_live _ _ G _ _ A) as [(r & E)|(p & K & [E|(m & E)])]; [ discriminate E | discriminate E | ].
      left. exists p. split; [ exact K | exact (function_map_ok _ _ _ E) ].
    - destruct (gd_live _ _ G _ _ A) as [(r & E)|(p & K & [E|(m & E)])].
      + right. exists k, x. split; [ exact Hk | left; eauto ].
      + right. exists k, x. split; [ exact Hk | right; exact E ].
      + left. exists p. split; [ exact K | exact (function_map_ok _ _ _ E) ].
  Qed.

  (** C52: when a start ends, then either the process it has started, under
      [pid], gave functions, and it is known, or it does not live. *)
  Theorem C52_failed_start opss ts g i l l' g' path pid o :
    session_reaches opss ts g -> nth_error ts i = Some l ->
    (exists r, sr_pc l = PcStarted path pid r) \/ sr_pc l = PcRegistered path pid ->
    plugin_step proto go_int l g = Some (l', g') -> sr_results l' = (path, o) :: sr_results l ->
    (exists fs p, o = Ok fs /\ known g' pid path p /\ told_functions p) \/
    ((forall fs, o <> Ok fs) /\ forall q, ~ alive g' pid q).
  Proof.
    intros H Hi Hpc Hs Hr. pose proof (reached _ _ _ H) as I.
    assert (G : good (sr_pc l) g).
    { inversion I as [ts0 g0 R L G|ts0 g0 k x Hk B L O G]; subst.
      - rewrite (R i l Hi) in Hpc. destruct Hpc as [(r & E)|E]; discriminate E.
      - destruct (Nat.eq_dec i k) as [E|N]; [ subst; assert (x = l) by congruence; subst; exact G | ].
        rewrite (O i l N Hi) in Hpc. destruct Hpc as [(r & E)|E]; discriminate E. }
    assert (Ended : forall b o q, ~ alive (mk_registry b o (end_process pid (rg_processes g))) pid q).
    { intros b o0 q A. unfold alive in A. cbn [rg_processes] in A. apply end_alive in A as [N _]. congruence. }
    unfold plugin_step in Hs. destruct Hpc as [(r & E)|E]; rewrite E in Hs.
    - right. destruct r as [a b|a| |a|m]; try (injection Hs as <- <-; injection Hr as <-; split; [ discriminate | apply Ended ]).
      destruct (initialize proto go_int path m) as [x|e| |] eqn:Ei.
      + injection Hs as <- <-. cbn [sr_results] in Hr. apply (f_equal (@length _)) in Hr. cbn [length] in Hr. lia.
      + injection Hs as <- <-. injection Hr as <-. split; [ discriminate | apply Ended ].
      + injection Hs as <- <-. injection Hr as <-. split; [ discriminate | apply Ended ].
      + injection Hs as <- <-. injection Hr as <-. split; [ discriminate | apply Ended ].
    - rewrite E in G. destruct (gd_phase _ _ G) as (p & P1 & P2). rewrite P1 in Hs.
      destruct (function_map (pl_functions p) []) as [m|e| |] eqn:Ef; injection Hs as <- <-; injection Hr as <-.
      + left. exists m, p. split; [ reflexivity | ]. split; [ split; [ exact P1 | exact P2 ] | exact (function_map_ok _ _ _ Ef) ].
      + right. split; [ discriminate | apply Ended ].
      + right. split; [ discriminate | apply Ended ].
      + right. split; [ discriminate | apply Ended ].
  Qed.

  (** C52: when KillPlugins ends, no process that the session has started is
      alive, and the session knows no plugin any more. *)
  Theorem C52_none_after_stop opss ts g i l l' g' rest r :
    session_reaches opss ts g -> nth_error ts i = Some l -> sr_pc l = PcStopping rest r ->
    plugin_step proto go_int l g = Some (l', g') -> sr_pc l' = PcIdle ->
    (forall pid path, ~ alive g' pid path) /\ forall path, aget path (plugins_of g') = None.
  Proof.
    intros H Hi Hpc Hs He. pose proof (reached _ _ _ H) as I. pose proof (inv_step _ _ _ _ _ _ _ _ I Hi Hs) as I'.
    assert (N : plugins_of g' = []).
    { unfold plugin_step in Hs. rewrite Hpc in Hs. destruct rest as [|path rest].
      - injection Hs as <- <-. reflexivity.
      - destruct (aget path (plugins_of g)) as [p|]; [ | injection Hs as <- <-; discriminate He ].
        destruct (pl_locked p); [ discriminate Hs | ]. destruct (pl_process p); injection Hs as <- <-; discriminate He. }
    split; [ | intro path; rewrite N; reflexivity ].
    intros pid path A. inversion I' as [ts0 g0 R L G|ts0 g0 k x Hk B L O G]; subst.
    - destruct (gd_live _ _ G _ _ A) as [(r0 & E)|(p & [K _] & _)]; [ discriminate E | rewrite N in K; discriminate K ].
    - assert (Hin : inv (ts, g)) by exact I. inversion Hin as [ts0 g0 R2 L2 G2|ts0 g0 k2 x2 Hk2 B2 L2 O2 G2]; subst.
      + rewrite (R2 i l Hi) in Hpc. discriminate Hpc.
      + destruct (Nat.eq_dec i k2) as [E|Nk]; [ | rewrite (O2 i l Nk Hi) in Hpc; discriminate Hpc ]. subst k2.
        destruct (Nat.eq_dec i k) as [E|Nk].
        * subst k. rewrite (set_nth_same ts i l' l Hi) in Hk. injection Hk as <-. rewrite He in B. discriminate B.
        * rewrite set_nth_other in Hk by exact Nk. rewrite (O2 k x) in B; [ discriminate B | congruence | exact Hk ].
  Qed.

  (** No goroutine is going to start a plugin. *)
  Definition no_starts (ts : list starter) : Prop :=
    Forall (fun l => (forall path pid r, sr_pc l <> PcStarted path pid r) /\ (forall path r, ~ In (OpStart path r) (sr_ops l))) ts.

  (** C52: and it stays so as long as no plugin is started. *)
  Theorem C52_stays_stopped ts g sched ts' g' :
    (forall pid path, ~ alive g pid path) -> no_starts ts ->
    turns (plugin_step proto go_int) sched (ts, g) = (ts', g') ->
    forall pid path, ~ alive g' pid path.
  Proof.
    intros Hd Hn Ht.
    set (J := fun c : list starter * registry => (forall pid path, ~ alive (snd c) pid path) /\ no_starts (fst c)).
    assert (J (ts', g')) as [Q _]; [ | exact Q ]. rewrite <- Ht.
    apply (turns_invariant (plugin_step proto go_int) J); [ | split; assumption ].
    clear. intros ts g i l l' g' [A B] Hi H. cbn [fst snd] in *.
    pose proof (proj1 (Forall_forall _ _) B l (nth_error_In _ _ Hi)) as [B1 B2].
    assert (W : forall b o pid q j, ~ alive (mk_registry b o (end_process pid (rg_processes g))) j q).
    { intros b o pid q j X. unfold alive in X. cbn [rg_processes] in X. apply end_alive in X as [_ X]. exact (A _ _ X). }
    assert (W2 : forall b o q j, ~ alive (mk_registry b o (rg_processes g)) j q) by (intros b o q j X; exact (A _ _ X)).
    assert (S : (forall pid path, ~ alive g' pid path) /\ (forall path pid r, sr_pc l' <> PcStarted path pid r) /\ incl (sr_ops l') (sr_ops l)).
    { unfold plugin_step in H. destruct (sr_pc l) as [|path pid r|path pid|rest r|path pid rest r] eqn:Epc.
      - destruct (sr_ops l) as [|[path r|r|pid] ops] eqn:Eo; [ discriminate H | exfalso; exact (B2 path r (or_introl eq_refl)) | | ].
        + destruct (rg_locked g); [ discriminate H | ]. injection H as <- <-. repeat split; [ intros; apply W2 | discriminate | apply incl_tl, incl_refl ].
        + injection H as <- <-. repeat split; [ intros; apply W | discriminate | apply incl_tl, incl_refl ].
      - exfalso. exact (B1 path pid r eq_refl).
      - destruct (aget path (plugins_of g)) as [p|]; [ | injection H as <- <-; repeat split; [ exact A | discriminate | apply incl_refl ] ].
        destruct (function_map (pl_functions p) []); injection H as <- <-; repeat split; try (intros; apply W2); try (intros; apply W); try discriminate; apply incl_refl.
      - destruct rest as [|path rest]; [ injection H as <- <-; repeat split; [ intros; apply W2 | discriminate | apply incl_refl ] | ].
        destruct (aget path (plugins_of g)) as [p|]; [ | injection H as <- <-; repeat split; [ exact A | discriminate | apply incl_refl ] ].
        destruct (pl_locked p); [ discriminate H | ]. destruct (pl_process p); injection H as <- <-; repeat split; try (intros; apply W2); try discriminate; apply incl_refl.
      - destruct (aget path (plugins_of g)) as [p|]; [ | injection H as <- <-; repeat split; [ exact A | discriminate | apply incl_refl ] ].
        destruct (r path); injection H as <- <-; repeat split; try (intros; apply W); try discriminate; apply incl_refl. }
    destruct S as [S1 [S2 S3]]. split; [ exact S1 | ]. unfold no_starts. apply Forall_forall. intros t It. change (In t (set_nth i l' ts)) in It. apply In_nth_error in It as [j Hj].
    destruct (Nat.eq_dec i j) as [E|N].
    - subst j. rewrite (set_nth_same ts i l' l Hi) in Hj. injection Hj as <-. split; [ exact S2 | ]. intros path r X. exact (B2 path r (S3 _ X)).
    - rewrite set_nth_other in Hj by exact N. exact (proj1 (Forall_forall _ _) B t (nth_error_In _ _ Hj)).
  Qed.

  (** C52: starts and stops never wait for ever: as long as some goroutine is not
      done, one of them can go on. *)
  Theorem C52_goes_on opss ts g i l :
    session_reaches opss ts g -> nth_error ts i = Some l -> sr_pc l <> PcIdle \/ sr_ops l <> [] ->
    exists j x, nth_error ts j = Some x /\ plugin_step proto go_int x g <> None.
  Proof.
    intros H Hi Hd. pose proof (reached _ _ _ H) as I. inversion I as [ts0 g0 R L G|ts0 g0 k x Hk B L O G]; subst.
    - exists i, l. split; [ exact Hi | ]. pose proof (R i l Hi) as E. unfold plugin_step. rewrite E, L.
      destruct Hd as [D|D]; [ congruence | ]. destruct (sr_ops l) as [|[path r|r|pid] ops]; try congruence.
      destruct (aget path (plugins_of g)); [ discriminate | ]. destruct r; discriminate.
    - exists k, x. split; [ exact Hk | ]. unfold plugin_step. destruct (sr_pc x) as [|path pid r|path pid|rest r|path pid rest r]; [ discriminate B | | | | ].
      + destruct r as [a b|a| |a|m]; try discriminate. destruct (initialize proto go_int path m); discriminate.
      + destruct (aget path (plugins_of g)) as [p|]; [ | discriminate ]. destruct (function_map (pl_functions p) []); discriminate.
      + destruct rest as [|path rest]; [ discriminate | ]. destruct (aget path (plugins_of g)) as [p|] eqn:E; [ | discriminate ].
        destruct (gd_plugins _ _ G _ _ E) as [F _]. destruct (F (or_introl eq_refl)) as [Lp _]. rewrite Lp.
        destruct (pl_process p); discriminate.
      + destruct (aget path (plugins_of g)); discriminate.
  Qed.
  (** A plugin says who it is: the version of the protocol, an address, perhaps a
      network, and its functions. *)
  Inductive introduces (m : entries) (addr network : string) (fs : entries) : Prop :=
  | introduces_as v :
      mgets "version" m = Some (VFloat v) -> go_int v = proto ->
      mgets "address" m = Some (VStr addr) ->
      mgets "network" m = Some (VStr network) \/ (forall n, mgets "network" m <> Some (VStr n)) /\ network = "tcp" ->
      mgets "functions" m = Some (VMap fs) ->
      introduces m addr network fs.

  Lemma introduces_spec path m i : initialize proto go_int path m = Ok i <-> introduces m (fst (fst i)) (snd (fst i)) (snd i).
  Proof.
    unfold initialize. split.
    - intro H. destruct (mgets "version" m) as [[]|] eqn:V; try discriminate H. destruct (Z.eqb _ proto) eqn:P; [ | discriminate H ].
      destruct (mgets "address" m) as [[]|] eqn:A; try discriminate H.
      destruct (mgets "functions" m) as [[]|] eqn:F; try discriminate H. injection H as <-. cbn [fst snd].
      econstructor; [ exact V | apply Z.eqb_eq; exact P | exact A | | exact F ].
      destruct (mgets "network" m) as [[]|]; (left; reflexivity) || (right; split; [ discriminate | reflexivity ]).
    - destruct i as [[addr network] fs]. cbn [fst snd]. intros [v V P A N F]. rewrite V, P, Z.eqb_refl, A, F.
      destruct N as [N|[N ->]]; [ rewrite N; reflexivity | ].
      destruct (mgets "network" m) as [[]|]; try reflexivity. exfalso. eapply N. reflexivity.
  Qed.

  Lemma initialize_error path m : (exists i, initialize proto go_int path m = Ok i) \/ exists t, initialize proto go_int path m = Panic (EErr t).
  Proof.
    unfold initialize. destruct (mgets "version" m) as [[]|]; eauto. destruct (Z.eqb _ proto); eauto.
    destruct (mgets "address" m) as [[]|]; eauto. destruct (mgets "functions" m) as [[]|]; eauto.
  Qed.

  (** C52: a process that was started becomes a plugin of the session, with the
      address, network and functions that it told, exactly if it has introduced
      itself, with the right version; otherwise the start gives an error, and
      the plugins are what they were. *)
  Theorem C52_handshake l g path pid r l' g' :
    sr_pc l = PcStarted path pid r -> plugin_step proto go_int l g = Some (l', g') ->
    (sr_pc l' = PcRegistered path pid /\ exists m addr network fs, r = RpMeta m /\ introduces m addr network fs /\
       aget path (plugins_of g') = Some (mk_plugin false (Some pid) addr network fs)) \/
    (sr_pc l' = PcIdle /\ (forall m addr network fs, r = RpMeta m -> ~ introduces m addr network fs) /\
       (exists t, sr_results l' = (path, Panic (EErr t)) :: sr_results l) /\ plugins_of g' = plugins_of g).
  Proof.
    intros E H. unfold plugin_step in H. rewrite E in H. destruct r as [a b|a| |a|m].
    1-4: injection H as <- <-; right; split; [ reflexivity | ]; split; [ discriminate | ]; split; [ eexists; reflexivity | reflexivity ].
    destruct (initialize_error path m) as [[i I]|[t I]]; rewrite I in H; injection H as <- <-.
    - left. split; [ reflexivity | ]. apply introduces_spec in I. destruct i as [[addr network] fs]. exists m, addr, network, fs.
      split; [ reflexivity | ]. split; [ exact I | ]. cbn [plugins_of rg_plugins]. rewrite aget_rput, String.eqb_refl. reflexivity.
    - right. split; [ reflexivity | ]. split.
      + intros m' addr network fs [= <-] N. apply (introduces_spec path m (addr, network, fs)) in N. congruence.
      + split; [ eexists; reflexivity | reflexivity ].
  Qed.
  (** What a start that fails says: what went wrong, with which plugin, and what the
      operating system said about it. *)
  Inductive complaint (path : string) : start_reply -> string -> Prop :=
  | cp_pipe pipe msg : complaint path (RpPipe pipe msg) ("unable to create " ++ pipe ++ " pipe to plugin " ++ path ++ ": " ++ msg)
  | cp_start msg : complaint path (RpStart msg) ("unable to start plugin " ++ path ++ ": " ++ msg)
  | cp_time : complaint path RpTimeout ("timeout while waiting for plugin " ++ path ++ " to start")
  | cp_meta msg : complaint path (RpBadMeta msg) ("error reading meta data of plugin " ++ path ++ ": " ++ msg)
  | cp_protocol m : ~ (exists v, mgets "version" m = Some (VFloat v) /\ go_int v = proto) ->
      complaint path (RpMeta m) ("plugin " ++ path ++ " uses unsupported protocol")
  | cp_address m v : mgets "version" m = Some (VFloat v) -> go_int v = proto -> (forall a, mgets "address" m <> Some (VStr a)) ->
      complaint path (RpMeta m) ("plugin " ++ path ++ " did not provide a valid address")
  | cp_functions m v a : mgets "version" m = Some (VFloat v) -> go_int v = proto -> mgets "address" m = Some (VStr a) ->
      (forall fs, mgets "functions" m <> Some (VMap fs)) ->
      complaint path (RpMeta m) ("plugin " ++ path ++ " did not provide a valid functions map").

  Lemma initialize_says path m t : initialize proto go_int path m = Panic (EErr t) -> complaint path (RpMeta m) t.
  Proof.
    unfold initialize. destruct (mgets "version" m) as [x|] eqn:V.
    2: { intro H. injection H as <-. apply cp_protocol. intros (v & E & _). congruence. }
    destruct x; try (intro H; injection H as <-; apply cp_protocol; intros (v & E & _); congruence).
    match goal with H : mgets "version" m = Some (VFloat ?v) |- _ => destruct (Z.eqb_spec (go_int v) proto) as [P|P] end.
    2: { intro H. injection H as <-. apply cp_protocol. intros (v & E & Q). rewrite V in E. injection E as <-. congruence. }
    destruct (mgets "address" m) as [x|] eqn:A.
    2: { intro H. injection H as <-. eapply cp_address; [ exact V | exact P | congruence ]. }
    destruct x; try (intro H; injection H as <-; (eapply cp_address; [ exact V | exact P | congruence ]); fail).
    destruct (mgets "functions" m) as [x|] eqn:F.
    2: { intro H. injection H as <-. eapply cp_functions; [ exact V | exact P | exact A | congruence ]. }
    destruct x; try discriminate; intro H; injection H as <-; (eapply cp_functions; [ exact V | exact P | exact A | congruence ]).
  Qed.

  (** C52: a start of a plugin that is not there yet fails, at once or after its
      process was started, with what went wrong. *)
  Theorem C52_complains l g l' g' path r :
    (exists ops, sr_pc l = PcIdle /\ sr_ops l = OpStart path r :: ops /\ aget path (plugins_of g) = None) \/ (exists pid, sr_pc l = PcStarted path pid r) ->
    plugin_step proto go_int l g = Some (l', g') ->
    sr_results l' = sr_results l \/ exists t, complaint path r t /\ sr_results l' = (path, Panic (EErr t)) :: sr_results l.
  Proof.
    intros [(ops & E & Eo & A)|(pid & E)] H; unfold plugin_step in H; rewrite E in H.
    - rewrite Eo in H. destruct (rg_locked g); [ discriminate H | ]. rewrite A in H.
      destruct r as [a b|a| |a|m]; injection H as <- <-; cbn [sr_results finish]; try (left; reflexivity); right; eexists; (split; [ constructor | reflexivity ]).
    - destruct r as [a b|a| |a|m]; try (injection H as <- <-; right; eexists; split; [ constructor | reflexivity ]).
      destruct (initialize_error path m) as [[i I]|[t I]]; rewrite I in H; injection H as <- <-; [ left; reflexivity | right ].
      exists t. split; [ exact (initialize_says path m t I) | reflexivity ].
  Qed.
End Theorems.

(** ** Examples *)

Definition good_meta : entries :=
  [(VStr "version", VFloat 1); (VStr "address", VStr "/tmp/p.sock"); (VStr "network", VStr "unix");
   (VStr "functions", VMap [(VStr "data_hash", VArr [VStr "vault"; VStr "consul"]); (VStr "lookup_key", VArr [VStr "secret"])])].
Definition bad_names : entries :=
  [(VStr "version", VFloat 1); (VStr "address", VStr "/tmp/q.sock"); (VStr "functions", VMap [(VStr "data_hash", VStr "vault")])].
Definition old_meta : entries := [(VStr "version", VFloat 0)].

Definition run_plugins (opss : list (list plugin_op)) (sched : list nat) : list starter * registry :=
  turns (plugin_step 1 (fun z => z)) sched (starters opss, no_plugins).

(** Two goroutines want the plugin /p at the same time; one of them has started
    it and the other one waits. *)
Definition two_starts : list (list plugin_op) := [[OpStart "/p" (RpMeta good_meta)]; [OpStart "/p" (RpMeta good_meta)]].

Example C52_one_process_example :
  exists ts g, run_plugins two_starts [0; 1; 0; 1; 0; 1] = (ts, g) /\
    session_reaches 1 (fun z => z) two_starts ts g /\
    alive g 0 "/p" /\ (forall pid path, alive g pid path -> pid = 0) /\
    map (fun l => map snd (sr_results l)) ts =
      [[Ok [("secret", FKey); ("consul", FHash); ("vault", FHash)]]; [Ok [("secret", FKey); ("consul", FHash); ("vault", FHash)]]].
Proof.
  eexists. eexists. split; [ vm_compute; reflexivity | ]. split; [ exists [0; 1; 0; 1; 0; 1]; vm_compute; reflexivity | ].
  split; [ reflexivity | ]. split; [ | reflexivity ].
  intros pid path H. destruct pid as [|pid]; [ reflexivity | ]. unfold alive in H. cbn in H. destruct pid; discriminate H.
Qed.

(** The process is alive and known; before, it was alive and being started. *)
Example C52_known_example :
  (exists p, known (snd (run_plugins two_starts [0; 0; 0])) 0 "/p" p /\ told_functions p) /\
  alive (snd (run_plugins two_starts [0])) 0 "/p" /\ being_started (fst (run_plugins two_starts [0])) 0 "/p".
Proof.
  split; [ | split ].
  - eexists. split; [ split; vm_compute; reflexivity | ]. unfold told_functions. cbn.
    repeat (constructor; [ eexists; split; [ reflexivity | repeat (constructor; [ eauto | ]); constructor ] | ]). constructor.
  - reflexivity.
  - exists 0. eexists. split; [ vm_compute; reflexivity | left; eexists; reflexivity ].
Qed.

(** Starts that fail: no answer, another version, functions that are no list.
    The processes do not live; in the last case the plugin is known nevertheless. *)
Definition failing_starts : list (list plugin_op) :=
  [[OpStart "/a" RpTimeout; OpStart "/b" (RpMeta old_meta); OpStart "/c" (RpMeta bad_names); OpStart "/c" (RpMeta good_meta)]].

Example C52_failed_start_example :
  let c := run_plugins failing_starts [0; 0; 0; 0; 0; 0; 0; 0] in
  map pc_alive (rg_processes (snd c)) = [false; false; false] /\
  map (fun l => map (fun x => match snd x with Ok _ => true | _ => false end) (sr_results l)) (fst c) = [[false; false; false; false]] /\
  map fst (plugins_of (snd c)) = ["/c"].
Proof. vm_compute. repeat split. Qed.

(** The hypotheses of C52_failed_start: the step in which the start of /c fails. *)
Example C52_failed_start_step_example :
  let c := run_plugins failing_starts [0; 0; 0; 0; 0; 0] in
  exists l l' g' o, nth_error (fst c) 0 = Some l /\ sr_pc l = PcRegistered "/c" 2 /\
    alive (snd c) 2 "/c" /\
    plugin_step 1 (fun z => z) l (snd c) = Some (l', g') /\ sr_results l' = ("/c", o) :: sr_results l /\
    o = Panic bad_assert /\ nth_error (rg_processes g') 2 = Some (mk_process "/c" false).
Proof. do 4 eexists. vm_compute. repeat split; reflexivity. Qed.

(** Stopping two plugins while another goroutine waits to start one.  When the
    stop has ended nothing lives; then the other goroutine starts its plugin. *)
Definition stop_and_start : list (list plugin_op) :=
  [[OpStart "/p" (RpMeta good_meta); OpStart "/q" (RpMeta good_meta); OpStop (fun path => if String.eqb path "/p" then KlSlow else KlEnds)];
   [OpStart "/p" (RpMeta good_meta)]].

Example C52_none_after_stop_example :
  let c := run_plugins stop_and_start [0; 0; 0; 0; 0; 0; 0; 1; 0; 1; 0; 0; 0; 0] in
  let before := run_plugins stop_and_start [0; 0; 0; 0; 0; 0; 0; 1; 0; 1; 0; 0; 0] in
  option_map (fun l => match sr_pc l with PcStopping [] _ => true | _ => false end) (nth_error (fst before) 0) = Some true /\
  map pc_alive (rg_processes (snd (run_plugins stop_and_start [0; 0; 0; 0; 0; 0; 0]))) = [true; true] /\
  map pc_alive (rg_processes (snd c)) = [false; false] /\ plugins_of (snd c) = [] /\
  map pc_alive (rg_processes (snd (turns (plugin_step 1 (fun z => z)) [1; 1; 1] c))) = [false; false; true].
Proof. vm_compute. repeat match goal with |- _ /\ _ => split end; reflexivity. Qed.

(** Nothing comes back when nothing is started. *)
Example C52_stays_stopped_example :
  let opss := [[OpStart "/p" (RpMeta good_meta); OpStop (fun _ => KlError)]; [OpStop (fun _ => KlEnds); OpEnd 0]] in
  let c := run_plugins opss [0; 0; 0; 0; 0; 0; 0] in
  (forall pid path, ~ alive (snd c) pid path) /\ no_starts (fst c) /\
  map sr_ops (fst c) <> [[]; []].
Proof.
  split; [ | split ].
  - intros pid path H. unfold alive in H. vm_compute in H. destruct pid as [|[|pid]]; discriminate H.
  - vm_compute. repeat constructor; try (intros; discriminate); cbn; intuition discriminate.
  - vm_compute. discriminate.
Qed.

(** A goroutine that waits while another one goes on. *)
Example C52_goes_on_example :
  let c := run_plugins two_starts [0] in
  (exists l, nth_error (fst c) 1 = Some l /\ sr_ops l <> [] /\ plugin_step 1 (fun z => z) l (snd c) = None) /\
  exists l, nth_error (fst c) 0 = Some l /\ plugin_step 1 (fun z => z) l (snd c) <> None.
Proof. vm_compute. split; eexists; repeat split; discriminate. Qed.

(** Of two programs one introduces itself; the other one has a newer version. *)
Example C52_complains_example :
  map (fun l => rev (sr_results l))
    (fst (run_plugins [[OpStart "/a" (RpStart "exec format error"); OpStart "/a" RpTimeout; OpStart "/b" (RpMeta old_meta)]] (repeat 0 12))) =
  [[("/a", Panic (EErr "unable to start plugin /a: exec format error")); ("/a", Panic (EErr "timeout while waiting for plugin /a to start"));
    ("/b", Panic (EErr "plugin /b uses unsupported protocol"))]].
Proof. vm_compute. reflexivity. Qed.
Example C52_handshake_example :
  let newer := [(VStr "version", VFloat 2); (VStr "address", VStr "/tmp/p.sock"); (VStr "functions", VMap [])] in
  introduces 1 (fun z => z) good_meta "/tmp/p.sock" "unix"
    [(VStr "data_hash", VArr [VStr "vault"; VStr "consul"]); (VStr "lookup_key", VArr [VStr "secret"])] /\
  (forall addr network fs, ~ introduces 1 (fun z => z) newer addr network fs) /\
  forall m, exists l l' g', sr_pc l = PcStarted "/p" 0 (RpMeta m) /\ plugin_step 1 (fun z => z) l no_plugins = Some (l', g').
Proof.
  cbn zeta. split; [ | split ].
  - econstructor; try reflexivity. left. reflexivity.
  - intros addr network fs [v V P _ _ _]. vm_compute in V. injection V as <-. discriminate P.
  - intro m. exists (mk_starter (PcStarted "/p" 0 (RpMeta m)) [] []). unfold plugin_step. cbn [sr_pc].
    destruct (initialize_error 1 (fun z => z) "/p" m) as [[i I]|[t I]]; rewrite I; eauto.
Qed.

Print Assumptions C52_one_process.
Print Assumptions C52_known.
Print Assumptions C52_failed_start.
Print Assumptions C52_none_after_stop.
Print Assumptions C52_stays_stopped.
Print Assumptions C52_goes_on.
Print Assumptions C52_handshake.
Print Assumptions C52_complains.
