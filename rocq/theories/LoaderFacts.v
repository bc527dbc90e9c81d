(** Facts about the file of a plugin and the loaders. *)

From Coq Require Import String Ascii List Bool Arith Lia.
From Verif Require Import Str Value Outcome Fpath Loader Config State Engine SpecKey SpecPath SpecLookup PathFacts.
Import ListNotations.
Open Scope string_scope.
Open Scope list_scope.

Lemma plugin_name_is e n file : plugin_name e n file <-> file = (if String.eqb (e_pluginfile e) "" then n else e_pluginfile e).
Proof.
  unfold plugin_name. destruct (String.eqb_spec (e_pluginfile e) "") as [E|E]; split; intuition congruence.
Qed.

Lemma spelled_place p : is_abs p = true -> direct p -> p = spelled true (place [] p).
Proof.
  intros A D. revert A. destruct D as [es N|k es N]; intro A.
  - rewrite place_absolute by exact N. reflexivity.
  - rewrite spelled_head in A by (apply ups_elements; exact N). discriminate.
Qed.

Lemma plugin_path_file cwd e n : absolute cwd -> plugin_file cwd e n (plugin_path cwd e n).
Proof.
  intro C. unfold plugin_path. set (file := if String.eqb (e_pluginfile e) "" then n else e_pluginfile e).
  assert (F : plugin_name e n file) by (apply plugin_name_is; reflexivity).
  destruct (is_abs file) eqn:A.
  - destruct (clean_direct file) as (D & Ab & P). rewrite (spelled_place (clean file)); [ | congruence | exact D ].
    rewrite P by constructor.
    apply (pf_absolute cwd e n file); [ exact F | apply absolute_is; exact A | ]. apply reaches_place; [ constructor | reflexivity ].
  - pose proof (proj1 (absolute_is cwd) C) as Ca. assert (Hc : cwd <> "") by (intros ->; discriminate).
    set (home := place [] cwd). assert (Nh : Forall name home) by (apply place_names; constructor).
    assert (J : place home (join2 (e_plugindir e) file) = walk (place home (e_plugindir e)) (split_slash file)).
    { destruct (String.eqb_spec (e_plugindir e) "") as [E|E]; [ | apply place_join; assumption ].
      rewrite E. unfold join2. change (String.eqb "" "") with true. cbv iota. change (place home "") with (walk home [""]).
      rewrite walk_stay, walk_nil by auto. destruct (String.eqb_spec file "") as [Ef|_].
      - rewrite Ef. reflexivity.
      - rewrite place_clean by exact Nh. unfold place. rewrite A. reflexivity. }
    assert (W : walk (place home (e_plugindir e)) (split_slash file) = place (place home (e_plugindir e)) file)
      by (unfold place at 2; rewrite A; reflexivity).
    set (p := clean (join2 (e_plugindir e) file)).
    assert (R : forall q, is_abs q = true -> direct q -> place [] q = place home (join2 (e_plugindir e) file) -> plugin_file cwd e n q).
    { intros q Aq Dq E. rewrite (spelled_place q Aq Dq).
      apply (pf_relative cwd e n file home (place home (e_plugindir e))); auto.
      - rewrite absolute_is. congruence.
      - apply reaches_place; [ constructor | reflexivity ].
      - apply reaches_place; [ exact Nh | reflexivity ].
      - apply reaches_place; [ apply place_names; exact Nh | ]. rewrite E, J. exact W. }
    destruct (is_abs p) eqn:Ap.
    + apply R; [ apply clean_abs; exact Ap | apply clean_direct | ].
      rewrite place_clean by constructor. rewrite <- (place_clean home (join2 (e_plugindir e) file)) by exact Nh. fold p.
      unfold place. rewrite Ap. reflexivity.
    + apply R; [ rewrite join_is_abs by exact Hc; exact Ca | apply join_direct; exact Hc | ].
      rewrite place_join by (constructor || exact Hc). fold home.
      rewrite <- (place_clean home (join2 (e_plugindir e) file)) by exact Nh. fold p. unfold place. rewrite Ap. reflexivity.
Qed.

Lemma plugin_file_det cwd e n p : plugin_file cwd e n p -> forall q, plugin_file cwd e n q -> p = q.
Proof.
  intros [f t N A R|f h d t N A C R1 R2 R3] q [f' t' N' A' R'|f' h' d' t' N' A' C' R1' R2' R3'];
    apply plugin_name_is in N, N'; subst f; subst f'; try contradiction.
  - apply reaches_place in R, R'; [ | constructor | constructor ]. congruence.
  - apply reaches_place in R1, R1'; [ | constructor | constructor ].
    assert (Nh : Forall name (place [] cwd)) by (apply place_names; constructor). subst h h'.
    apply reaches_place in R2, R2'; [ | exact Nh | exact Nh ].
    assert (Nd : Forall name (place (place [] cwd) (e_plugindir e))) by (apply place_names; exact Nh). subst d d'.
    apply reaches_place in R3, R3'; [ | exact Nd | exact Nd ]. congruence.
Qed.

(** The path that the functions of the program make is the one described, also
    when the directory of the program is not absolute and the file is. *)
Lemma plugin_file_path cwd e n p : plugin_file cwd e n p -> p = plugin_path cwd e n.
Proof.
  intro H. destruct H as [f t N A R|f h d t N A C R1 R2 R3].
  - apply (plugin_file_det "/" e n); [ exact (pf_absolute "/" e n f t N A R) | ].
    replace (plugin_path cwd e n) with (plugin_path "/" e n); [ apply plugin_path_file; exists ""; reflexivity | ].
    apply plugin_name_is in N. subst f. unfold plugin_path. apply absolute_is in A. rewrite A. reflexivity.
  - apply (plugin_file_det cwd e n); [ exact (pf_relative cwd e n f h d t N A C R1 R2 R3) | apply plugin_path_file; exact C ].
Qed.

Lemma plugin_file_names cwd e n p : plugin_file cwd e n p -> exists es, Forall name es /\ p = spelled true es.
Proof.
  intros [f t N A R|f h d t N A C R1 R2 R3].
  - exists t. split; [ | reflexivity ]. apply reaches_place in R; [ | constructor ]. subst t. apply place_names. constructor.
  - exists t. split; [ | reflexivity ].
    apply reaches_place in R1; [ | constructor ].
    assert (Nh : Forall name h) by (subst h; apply place_names; constructor).
    apply reaches_place in R2; [ | exact Nh ]. assert (Nd : Forall name d) by (subst d; apply place_names; exact Nh).
    apply reaches_place in R3; [ | exact Nd ]. subst t. apply place_names. exact Nd.
Qed.

(** *** Loaders *)

Lemma namespaces_names es : Forall name es -> forall l, namespaces ("plugin" :: l) es = Some ("plugin" :: l ++ es).
Proof.
  induction 1 as [|e es [[He _] _] _ IH]; intro l; cbn [namespaces].
  - rewrite app_nil_r. reflexivity.
  - unfold namespace. destruct (String.eqb_spec e "") as [->|_]; [ congruence | ].
    change (String.eqb "plugin" "plugin") with true. cbv iota. cbn [app]. rewrite IH, <- app_assoc. reflexivity.
Qed.

Lemma substring_all s : String.substring 0 (String.length s) s = s.
Proof. induction s as [|c s IH]; [ reflexivity | ]. cbn. rewrite IH. reflexivity. Qed.

Lemma loader_path_root : loader_path "/" = None.
Proof. reflexivity. Qed.

Lemma loader_path_is es : Forall name es -> es <> [] -> loader_path (spelled true es) = Some (spelled true es).
Proof.
  intros H N. unfold loader_path. change (namespace [] "plugin") with (Some ["plugin"]). cbv iota.
  unfold spelled. change (split_slash ("/" ++ spelled_from es)%string) with ("" :: split_slash (spelled_from es)).
  rewrite split_spelled by (exact N || apply names_elements; exact H). cbn [namespaces].
  change (namespace ["plugin"] "") with (Some ["plugin"]). cbv iota. rewrite (namespaces_names es H []). cbn [app].
  unfold finder_path, absolute_name. rewrite join_spelled. destruct es as [|x es]; [ congruence | ].
  change (spelled_from ("plugin" :: x :: es)) with ("plugin/" ++ spelled_from (x :: es))%string.
  set (t := spelled_from (x :: es)). change ("/" ++ "plugin/" ++ t)%string with ("/plugin/" ++ t)%string.
  assert (I : String.index 0 "/plugin/" ("/plugin/" ++ t) = Some 0) by (destruct t; reflexivity). rewrite I. cbn [Nat.add].
  change (String.substring 7 (String.length ("/plugin/" ++ t) - 7) ("/plugin/" ++ t))
    with (String.substring 0 (String.length ("/" ++ t)) ("/" ++ t)).
  rewrite substring_all. reflexivity.
Qed.

Lemma spelled_root es : Forall name es -> (spelled true es = "/" <-> es = []).
Proof.
  intro H. split; [ | intros ->; reflexivity ]. intro E. apply (f_equal (place [])) in E. rewrite place_absolute in E by exact H.
  rewrite E. reflexivity.
Qed.

Lemma loader_plugin cwd e n p : plugin_file cwd e n p ->
  loader_path (plugin_path cwd e n) = (if String.eqb p "/" then None else Some p).
Proof.
  intro H. rewrite <- (plugin_file_path _ _ _ _ H). apply plugin_file_names in H as (es & N & ->).
  destruct (String.eqb_spec (spelled true es) "/") as [E|E].
  - rewrite E. reflexivity.
  - apply loader_path_is; [ exact N | ]. intro C. apply E. apply spelled_root; assumption.
Qed.
