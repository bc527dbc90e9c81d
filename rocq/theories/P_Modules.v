(** Modules: C57. *)

From Coq Require Import String Ascii List ZArith Bool Arith Lia.
From Verif Require Import Str Value Outcome Key Merge Fpath Config Ipl Explain State Engine Worlds Meta Kept ValueFacts Session StrFacts.
From Verif Require Import SpecIpl SpecLookup KeyFacts P_Provider.
Import ListNotations.
Open Scope string_scope.
Open Scope list_scope.
Open Scope bool_scope.
Open Scope monad_scope.

(** ** The specification *)

(** The same character, or the two cases of one letter. *)
Definition same_letter (c d : ascii) : Prop :=
  c = d \/
  (65 <= nat_of_ascii c <= 90 /\ nat_of_ascii d = nat_of_ascii c + 32) \/
  (65 <= nat_of_ascii d <= 90 /\ nat_of_ascii c = nat_of_ascii d + 32).

(** The same name when case is ignored. *)
Inductive same_name : string -> string -> Prop :=
| sn_nil : same_name "" ""
| sn_cons : forall c d a b, same_letter c d -> same_name a b -> same_name (String c a) (String d b).

(** The namespace of a key: what is before its first "::". *)
Definition namespace (key pre : string) : Prop :=
  pre <> "" /\ exists rest, key = (pre ++ "::" ++ rest)%string /\ ~ has "::" (pre ++ ":")%string.

(** A directory of the module path, given what is in the file system: it has
    the module, in this configuration file, or it does not have it. *)
Definition first_entry (pre : string) (l : list (string * bool)) (e : string * bool) : Prop :=
  exists a b, l = a ++ e :: b /\ same_name (fst e) pre /\ forall x, In x a -> ~ same_name (fst x) pre.

Inductive in_directory (rd : string -> dir_list) (ls : string -> lstat) (pre p : string) : option string -> Prop :=
| id_here : forall l d, rd p = DirEntries l -> first_entry pre l (d, true) ->
    ls (join2 (join2 p d) "hiera.yaml") = LsFound false ->
    in_directory rd ls pre p (Some (join2 (join2 p d) "hiera.yaml"))
| id_no_directory : rd p = DirMissing -> in_directory rd ls pre p None
| id_no_entry : forall l, rd p = DirEntries l -> (forall x, In x l -> ~ same_name (fst x) pre) -> in_directory rd ls pre p None
| id_plain_file : forall l d, rd p = DirEntries l -> first_entry pre l (d, false) -> in_directory rd ls pre p None
| id_no_config : forall l d, rd p = DirEntries l -> first_entry pre l (d, true) ->
    (ls (join2 (join2 p d) "hiera.yaml") = LsMissing \/ ls (join2 (join2 p d) "hiera.yaml") = LsFound true) ->
    in_directory rd ls pre p None.

(** The configuration of the module: from the first directory that has it. *)
Inductive in_path (rd : string -> dir_list) (ls : string -> lstat) (pre : string) : list string -> option string -> Prop :=
| ip_none : in_path rd ls pre [] None
| ip_here : forall p c r, in_directory rd ls pre p (Some c) -> in_path rd ls pre (p :: r) (Some c)
| ip_next : forall p c r, in_directory rd ls pre p None -> in_path rd ls pre r c -> in_path rd ls pre (p :: r) c.

(** The directories of the module path of a session. *)
Definition module_dirs (w : world) : list string :=
  match w_modpath w with Some mp => split_list mp | None => [] end.

(** A file system that does not change. *)
Definition settled_dirs (w : world) (rd : string -> dir_list) (ls : string -> lstat) : Prop :=
  (forall t p, w_readdir w t p = rd p) /\ (forall t p, w_lstat w t p = ls p).

(** The name that a session keeps a module under. *)
Definition module_name (pre name : string) : Prop :=
  same_name pre name /\ Forall (fun c => ~ 65 <= nat_of_ascii c <= 90) (list_ascii_of_string name).

(** ** Names *)

Lemma lower_char_nat c : nat_of_ascii (lower_char c) =
  if (65 <=? nat_of_ascii c)%nat && (nat_of_ascii c <=? 90)%nat then nat_of_ascii c + 32 else nat_of_ascii c.
Proof.
  unfold lower_char. destruct ((65 <=? nat_of_ascii c)%nat && (nat_of_ascii c <=? 90)%nat) eqn:E; [ | reflexivity ].
  apply andb_true_iff in E as [E1 E2]. apply Nat.leb_le in E1, E2. apply nat_ascii_embedding. lia.
Qed.

Lemma nat_of_ascii_eq c d : nat_of_ascii c = nat_of_ascii d -> c = d.
Proof. intro H. rewrite <- (ascii_nat_embedding c), <- (ascii_nat_embedding d), H. reflexivity. Qed.

Lemma same_letter_lower c d : same_letter c d <-> lower_char c = lower_char d.
Proof.
  assert (E : lower_char c = lower_char d <-> nat_of_ascii (lower_char c) = nat_of_ascii (lower_char d)).
  { split; [ intros ->; reflexivity | apply nat_of_ascii_eq ]. }
  assert (F : c = d <-> nat_of_ascii c = nat_of_ascii d).
  { split; [ intros ->; reflexivity | apply nat_of_ascii_eq ]. }
  unfold same_letter. rewrite E, F, !lower_char_nat.
  destruct (65 <=? nat_of_ascii c)%nat eqn:A1; destruct (nat_of_ascii c <=? 90)%nat eqn:A2;
    destruct (65 <=? nat_of_ascii d)%nat eqn:B1; destruct (nat_of_ascii d <=? 90)%nat eqn:B2; cbn [andb];
    rewrite ?Nat.leb_le, ?Nat.leb_gt in *; lia.
Qed.

Lemma same_name_lower a b : same_name a b <-> to_lower a = to_lower b.
Proof.
  split.
  - induction 1 as [|c d a b H _ IH]; [ reflexivity | ]. cbn [to_lower].
    apply same_letter_lower in H. rewrite H, IH. reflexivity.
  - revert b. induction a as [|c a IH]; intros [|d b] H; cbn [to_lower] in H; try discriminate; [ constructor | ].
    injection H as H1 H2. constructor; [ apply same_letter_lower; exact H1 | apply IH; exact H2 ].
Qed.

Lemma lower_char_twice c : lower_char (lower_char c) = lower_char c.
Proof.
  apply nat_of_ascii_eq. rewrite !lower_char_nat.
  destruct (65 <=? nat_of_ascii c)%nat eqn:A1; destruct (nat_of_ascii c <=? 90)%nat eqn:A2; cbn [andb];
    rewrite ?A1, ?A2; cbn [andb]; try reflexivity.
  apply Nat.leb_le in A1, A2. destruct (nat_of_ascii c + 32 <=? 90)%nat eqn:B; [ apply Nat.leb_le in B; lia | ].
  rewrite andb_false_r. reflexivity.
Qed.

Lemma to_lower_twice a : to_lower (to_lower a) = to_lower a.
Proof. induction a as [|c a IH]; [ reflexivity | ]. cbn [to_lower]. rewrite lower_char_twice, IH. reflexivity. Qed.

Lemma equal_fold_spec a b : equal_fold a b = true <-> same_name a b.
Proof. unfold equal_fold. rewrite String.eqb_eq. symmetry. apply same_name_lower. Qed.

Lemma module_name_lower pre name : module_name pre name <-> name = to_lower pre.
Proof.
  split.
  - intros [S F]. apply same_name_lower in S. rewrite S. clear S. symmetry.
    induction name as [|c r IH]; [ reflexivity | ]. cbn [to_lower list_ascii_of_string] in *. inversion F as [|? ? Hc Hr]; subst.
    rewrite (IH Hr). f_equal. apply nat_of_ascii_eq. rewrite lower_char_nat.
    destruct ((65 <=? nat_of_ascii c)%nat && (nat_of_ascii c <=? 90)%nat) eqn:E; [ | reflexivity ].
    apply andb_true_iff in E as [E1 E2]. apply Nat.leb_le in E1, E2. lia.
  - intros ->. split; [ apply same_name_lower; rewrite to_lower_twice; reflexivity | ].
    induction pre as [|c r IH]; cbn [to_lower list_ascii_of_string]; constructor; [ | exact IH ].
    rewrite lower_char_nat. destruct (65 <=? nat_of_ascii c)%nat eqn:A1; destruct (nat_of_ascii c <=? 90)%nat eqn:A2; cbn [andb];
      rewrite ?Nat.leb_le, ?Nat.leb_gt in *; lia.
Qed.

Lemma find_module_first l pre e : find_module l pre = Some e <-> first_entry pre l e.
Proof.
  unfold find_module. split.
  - induction l as [|x l IH]; cbn [find]; [ discriminate | ]. destruct (equal_fold (fst x) pre) eqn:E.
    + intro H. injection H as <-. exists [], l. repeat split; [ apply equal_fold_spec; exact E | intros ? [] ].
    + intro H. destruct (IH H) as (a & b & -> & S & N). exists (x :: a), b. repeat split; [ exact S | ].
      intros y [<-|Hy]; [ | auto ]. intro S2. apply equal_fold_spec in S2. congruence.
  - intros (a & b & -> & S & N). induction a as [|x a IH]; cbn [app find].
    + apply equal_fold_spec in S. rewrite S. reflexivity.
    + destruct (equal_fold (fst x) pre) eqn:E.
      * exfalso. apply (N x); [ left; reflexivity | apply equal_fold_spec; exact E ].
      * apply IH. intros y Hy. apply N. right. exact Hy.
Qed.

Lemma find_module_none l pre : (forall x, In x l -> ~ same_name (fst x) pre) -> find_module l pre = None.
Proof.
  intro N. unfold find_module. induction l as [|x l IH]; cbn [find]; [ reflexivity | ].
  destruct (equal_fold (fst x) pre) eqn:E.
  - exfalso. apply (N x); [ left; reflexivity | apply equal_fold_spec; exact E ].
  - apply IH. intros y Hy. apply N. right. exact Hy.
Qed.

Lemma namespace_split key pre : namespace key pre <-> pre <> "" /\ exists rest, split_at "::" key = Some (pre, rest).
Proof.
  split.
  - intros [N (rest & -> & F)]. split; [ exact N | ]. exists rest. clear N.
    induction pre as [|c pre IH].
    + reflexivity.
    + assert (F2 : ~ has "::" (pre ++ ":")%string).
      { intros (a & b & E). apply F. exists (String c a), b. cbn [append]. rewrite E. reflexivity. }
      specialize (IH F2).
      change (split_at "::" (String c (pre ++ "::" ++ rest)%string) = Some (String c pre, rest)).
      cbn [split_at]. rewrite IH.
      destruct (strip_prefix "::" (String c (pre ++ "::" ++ rest)%string)) as [r|] eqn:E; [ | reflexivity ].
      exfalso. apply strip_prefix_some in E. apply F.
      destruct pre as [|d pre]; cbn [append] in E; injection E.
      * intros _ ->. exists "", "". reflexivity.
      * intros _ -> ->. exists "", (pre ++ ":")%string. reflexivity.
  - intros [N (rest & E)]. split; [ exact N | ]. exists rest.
    apply split_at_some in E as [E H]. split; [ exact E | ]. intros (a & b & Ha).
    assert (G : key = (a ++ "::" ++ b ++ ":" ++ rest)%string).
    { rewrite E. change ("::" ++ rest)%string with (":" ++ (":" ++ rest))%string.
      rewrite <- (app_assoc_s pre ":" (":" ++ rest)%string), Ha. rewrite !app_assoc_s. reflexivity. }
    specialize (H _ _ G).
    assert (L : String.length (pre ++ ":")%string = String.length (a ++ "::" ++ b)%string) by (rewrite Ha; reflexivity).
    rewrite !length_app_s in L. cbn [String.length] in L. lia.
Qed.

(** ** Searching for a module *)

(** What searching changes: questions about directories and files are added to
    the trace. *)
Definition about_dirs (e : event) : Prop :=
  match e with EvReadDir _ | EvLstat _ => True | _ => False end.

Definition searched (s s' : st) : Prop :=
  exists l, Forall about_dirs l /\ s' = with_trace (s_trace s ++ l) s.

Lemma searched_refl s : searched s s.
Proof. exists []. split; [ constructor | ]. destruct s. unfold with_trace. cbn. rewrite app_nil_r. reflexivity. Qed.

Lemma searched_trans s1 s2 s3 : searched s1 s2 -> searched s2 s3 -> searched s1 s3.
Proof.
  intros (l & F & ->) (l2 & F2 & ->). exists (l ++ l2). split; [ apply Forall_app; auto | ].
  unfold with_trace. cbn. rewrite app_assoc. reflexivity.
Qed.

Lemma ask_run A e (f : list event -> A) s : about_dirs e ->
  exists s', ask e f s = (Ok (f (s_trace s)), s') /\ searched s s'.
Proof.
  intro H. eexists. split; [ reflexivity | ]. exists [e]. split; [ constructor; [ exact H | constructor ] | reflexivity ].
Qed.

Lemma load_module_spec w rd ls pre p c s : settled_dirs w rd ls -> in_directory rd ls pre p c ->
  exists s', load_module w p pre s = (Ok c, s') /\ searched s s'.
Proof.
  intros [R L] H. unfold load_module. unfold bind at 1.
  destruct (ask_run _ (EvReadDir p) (fun t => w_readdir w t p) s I) as (s1 & -> & S1). rewrite R.
  destruct H as [l d E F G|E|l E F|l d E F|l d E F G]; rewrite E.
  - apply find_module_first in F. rewrite F. unfold bind.
    destruct (ask_run _ (EvLstat (join2 (join2 p d) "hiera.yaml")) (fun t => w_lstat w t (join2 (join2 p d) "hiera.yaml")) s1 I) as (s2 & -> & S2).
    rewrite L, G. exists s2. split; [ reflexivity | ]. exact (searched_trans _ _ _ S1 S2).
  - exists s1. split; [ reflexivity | exact S1 ].
  - rewrite (find_module_none _ _ F). exists s1. split; [ reflexivity | exact S1 ].
  - apply find_module_first in F. rewrite F. exists s1. split; [ reflexivity | exact S1 ].
  - apply find_module_first in F. rewrite F. unfold bind.
    destruct (ask_run _ (EvLstat (join2 (join2 p d) "hiera.yaml")) (fun t => w_lstat w t (join2 (join2 p d) "hiera.yaml")) s1 I) as (s2 & -> & S2).
    rewrite L. destruct G as [-> | ->]; (exists s2; split; [ reflexivity | exact (searched_trans _ _ _ S1 S2) ]).
Qed.

Lemma load_from_spec w rd ls pre ps c : settled_dirs w rd ls -> in_path rd ls pre ps c -> forall s,
  exists s', load_from w ps pre s = (Ok c, s') /\ searched s s'.
Proof.
  intro W. induction 1 as [|p c r H|p c r H _ IH]; intro s; cbn [load_from].
  - exists s. split; [ reflexivity | apply searched_refl ].
  - unfold bind. destruct (load_module_spec w rd ls pre p (Some c) s W H) as (s1 & -> & S1). exists s1. split; [ reflexivity | exact S1 ].
  - unfold bind. destruct (load_module_spec w rd ls pre p None s W H) as (s1 & -> & S1).
    destruct (IH s1) as (s2 & E & S2). exists s2. split; [ exact E | exact (searched_trans _ _ _ S1 S2) ].
Qed.

Lemma module_config_new w rd ls pre c s : settled_dirs w rd ls -> in_path rd ls pre (module_dirs w) c ->
  aget pre (s_mods s) = None ->
  exists s', module_config w pre s = (Ok c, with_mods (aput pre c (s_mods s)) s') /\ searched s s'.
Proof.
  intros W H N. unfold module_config. unfold bind at 1. unfold run_op at 1. rewrite N.
  unfold module_dirs in H.
  assert (G : exists s1, (match w_modpath w with Some mp => load_from w (split_list mp) pre | None => ret None end) s = (Ok c, s1) /\ searched s s1).
  { destruct (w_modpath w) as [mp|]; [ exact (load_from_spec w rd ls pre _ c W H s) | ].
    inversion H; subst. exists s. split; [ reflexivity | apply searched_refl ]. }
  destruct G as (s1 & E & S). unfold bind at 1. rewrite E. unfold bind, run_op, ret, lift. exists s1. split; [ | exact S ].
  destruct S as (l & _ & ->). reflexivity.
Qed.

Lemma module_config_known w name c s : aget name (s_mods s) = Some c -> module_config w name s = (Ok c, s).
Proof. intro H. unfold module_config, bind, run_op. rewrite H. reflexivity. Qed.

(** What a lookup with the module function is. *)
Lemma module_lookup_inside w rec opts key pre : namespace key pre ->
  module_lookup w rec opts key =
  (cp <- module_config w (to_lower pre) ;;
   run_scoped (SNode (NModule (to_lower pre)) "")
     (match cp with
      | None => run_op (OReport RModuleNotFound) ;;; ret None
      | Some c => config_lookup_at w rec opts c key (to_lower pre)
      end)).
Proof.
  intro H. apply namespace_split in H as [N (rest & E)]. unfold module_lookup. rewrite E.
  destruct pre; [ congruence | reflexivity ].
Qed.

(** ** What a session knows about modules *)

(** A module stays as it was found; what is learnt has been found by a search. *)
Definition learnt (P : string -> option string -> Prop) (s s' : st) : Prop :=
  (forall name c, aget name (s_mods s) = Some c -> aget name (s_mods s') = Some c) /\
  (forall name c, aget name (s_mods s') = Some c -> aget name (s_mods s) = Some c \/ P name c).

Section Learnt.
  Variable P : string -> option string -> Prop.

  Lemma learnt_refl s : learnt P s s.
  Proof. split; auto. Qed.

  Lemma learnt_trans s1 s2 s3 : learnt P s1 s2 -> learnt P s2 s3 -> learnt P s1 s3.
  Proof.
    intros [A B] [C D]. split; [ auto | ]. intros name c H. destruct (D _ _ H) as [H2|H2]; [ | auto ].
    destruct (B _ _ H2); auto.
  Qed.

  Lemma learnt_same s s' : s_mods s' = s_mods s -> learnt P s s'.
  Proof. intro E. split; rewrite E; auto. Qed.

  Lemma learnt_like s1 s1' s2 s2' : s_mods s1' = s_mods s1 -> s_mods s2' = s_mods s2 -> learnt P s1 s2 -> learnt P s1' s2'.
  Proof. intros A B [C D]. split; rewrite A, B; assumption. Qed.

  Definition sets_mod {A} (o : op A) : bool := match o with OSetMod _ _ => true | _ => false end.

  Lemma learnt_op A (o : op A) : sets_mod o = false -> steps (learnt P) A (run_op o) (run_op o).
  Proof.
    intros F s. destruct o; try discriminate F; unfold run_op; try apply learnt_refl; try (apply learnt_same; reflexivity).
    destruct (iv_expl (s_iv s)); [ | apply learnt_refl ].
    destruct (xaccept r (s_ex s)); apply learnt_same; reflexivity.
  Qed.

  Lemma learnt_scoped A sc (m : M st A) : steps (learnt P) A m m -> steps (learnt P) A (run_scoped sc m) (run_scoped sc m).
  Proof.
    intros H s.
    assert (G : forall s1 g, s_mods s1 = s_mods s -> (forall x, s_mods (g x) = s_mods x) -> learnt P s (g (snd (m s1)))).
    { intros s1 g A1 A2. apply (learnt_like s1 s (snd (m s1)) _); auto; apply H. }
    destruct sc; unfold run_scoped, with_copy.
    - destruct (iv_expl (s_iv s)); [ | apply H ].
      destruct (xpush k init (s_ex s)) as [x|]; [ | apply learnt_same; reflexivity ].
      specialize (G (with_ex x s)). destruct (m (with_ex x s)) as [o s']. cbn [snd] in *.
      apply (G (fun x => with_ex (xpop (s_ex x)) x)); reflexivity.
    - destruct (iv_mode (s_iv s)); try apply H;
        match goal with |- context [m ?x] => specialize (G x); destruct (m x) as [o s'] end;
        exact (G (with_iv (s_iv s)) eq_refl (fun _ => eq_refl)).
    - destruct (iv_mode (s_iv s)); try apply H;
        match goal with |- context [m ?x] => specialize (G x); destruct (m x) as [o s'] end;
        exact (G (with_iv (s_iv s)) eq_refl (fun _ => eq_refl)).
    - destruct (iv_expl (s_iv s)); [ | apply H ].
      match goal with |- context [m ?x] => specialize (G x); destruct (m x) as [o s'] end;
        exact (G (with_iv (s_iv s)) eq_refl (fun _ => eq_refl)).
    - match goal with |- context [m ?x] => specialize (G x); destruct (m x) as [[a|e| |] s'] end;
        cbn [snd] in *;
        [ exact (G (fun x => with_iv (iv_with_scope (iv_scope (s_iv s)) (s_iv x)) x) eq_refl (fun _ => eq_refl))
        | exact (G (fun x => x) eq_refl (fun _ => eq_refl)) .. ].
    - destruct (iv_redacted (s_iv s)); [ apply H | ].
      match goal with |- context [m ?x] => specialize (G x); destruct (m x) as [o s'] end;
        exact (G (fun x => with_iv (iv_with_redacted false (s_iv x)) x) eq_refl (fun _ => eq_refl)).
    - destruct (ps_locked (s_provs s id)) eqn:L; [ apply learnt_refl | ].
      match goal with |- context [m ?x] => specialize (G x); destruct (m x) as [o s'] end.
      exact (G (fun x => with_prov id (mk_pstate (ps_fn (s_provs x id)) (ps_hashes (s_provs x id)) false) x) eq_refl (fun _ => eq_refl)).
  Qed.

  Lemma learnt_closed w :
    (forall name s c s', aget name (s_mods s) = None -> module_config w name s = (Ok c, s') -> P name c) ->
    closed w (steps (learnt P)).
  Proof.
    intro HP.
    pose proof (steps_lift (learnt P) learnt_refl) as Hl.
    pose proof (steps_bind (learnt P) learnt_trans) as Hb.
    constructor.
    - exact Hl.
    - exact Hb.
    - intros A o F. apply learnt_op. destruct o; try reflexivity; discriminate F.
    - intros A sc m m' _ H. exact (learnt_scoped A sc m H).
    - intros A m m' _ _ H. exact (learnt_scoped A SConfig m H).
    - intros id k m m' H.
      assert (F : steps (learnt P) _ (fill id k m) (fill id k m)); [ | exact F ].
      unfold fill. apply learnt_scoped.
      apply Hb; [ apply learnt_op; reflexivity | intros [h|] ]; [ apply Hl | ].
      apply Hb; [ exact H | intro ]. apply Hb; [ apply learnt_op; reflexivity | intro; apply Hl ].
    - intros p. unfold shared_config, load_config, ask.
      apply Hb; [ apply learnt_op; reflexivity | intros [[c|]|] ]; [ apply Hl | apply Hl | ].
      apply Hb; [ apply learnt_op; reflexivity | intro ].
      apply Hb; [ apply Hb; [ apply learnt_op; reflexivity | intro; apply Hl ] | intro ].
      apply Hb; [ apply Hl | intro ]. apply Hb; [ apply learnt_op; reflexivity | intro; apply Hl ].
    - intros c l. unfold set_merge. apply Hb.
      + destruct c; [ apply Hb; [ apply learnt_op; reflexivity | intro; apply Hl ] | ].
        destruct l; [ destruct (mgets "merge" e); [ apply Hb; [ apply learnt_op; reflexivity | intro; apply Hl ] | ] | ]; apply Hl.
      + intro. apply Hb; [ apply learnt_op; reflexivity | intro ]. apply Hb; [ apply Hl | intro ].
        apply learnt_op; reflexivity.
    - intros name s. specialize (HP name s).
      unfold module_config in *. unfold bind at 1 in HP. unfold bind at 1. unfold run_op at 1 in HP. unfold run_op at 1.
      destruct (aget name (s_mods s)) as [c|] eqn:K; [ apply learnt_refl | ].
      assert (L : steps (learnt P) _ (match w_modpath w with Some mp => load_from w (split_list mp) name | None => ret None end)
                                     (match w_modpath w with Some mp => load_from w (split_list mp) name | None => ret None end)).
      { clear HP. destruct (w_modpath w) as [mp|]; [ | apply Hl ]. induction (split_list mp) as [|p r IH]; cbn [load_from]; [ apply Hl | ].
        apply Hb; [ | intros [x|]; [ apply Hl | exact IH ] ]. unfold load_module, ask.
        apply Hb; [ apply Hb; [ apply learnt_op; reflexivity | intro; apply Hl ] | intros [|e|l] ]; [ apply Hl .. | ].
        destruct (find_module l name) as [[fn [|]]|]; [ | apply Hl .. ].
        apply Hb; [ apply Hb; [ apply learnt_op; reflexivity | intro; apply Hl ] | intros [|e|[|]]; apply Hl ]. }
      specialize (L s). unfold bind at 1 in HP. unfold bind at 1.
      destruct ((match w_modpath w with Some mp => load_from w (split_list mp) name | None => ret None end) s) as [[c|e| |] s1] eqn:E;
        cbn [snd] in *; try exact L.
      unfold bind, run_op, ret, lift in HP. specialize (HP _ _ eq_refl eq_refl).
      unfold bind, run_op, ret, lift. cbn [snd]. destruct L as [L1 L2].
      split; unfold aput; cbn [with_mods s_mods aget]; intros nm d H; destruct (String.eqb_spec nm name) as [En|N]; subst.
      + congruence.
      + auto.
      + injection H as <-. right. exact HP.
      + auto.
  Qed.

  Lemma later_learnt w s s' :
    (forall name s c s', aget name (s_mods s) = None -> module_config w name s = (Ok c, s') -> P name c) ->
    later w s s' -> learnt P s s'.
  Proof.
    intro HP. induction 1 as [s|n q s s' _ IH|sc x s s' _ IH].
    - apply learnt_refl.
    - apply (learnt_trans _ _ _ IH). exact (c_run w _ (learnt_closed w HP) n q s').
    - apply (learnt_trans _ _ _ IH). apply learnt_same. reflexivity.
  Qed.
End Learnt.

(** A search that ends gives what is in the module path. *)
Lemma load_module_ok w rd ls name p c s s' : settled_dirs w rd ls -> load_module w p name s = (Ok c, s') -> in_directory rd ls name p c.
Proof.
  intros [R L] H. unfold load_module in H. apply bind_ok in H as (d & s1 & E & H).
  unfold ask in E. apply bind_ok in E as (t & s2 & _ & E). unfold ret, lift in E. injection E as E _. rewrite R in E. subst d.
  destruct (rd p) as [|e|l] eqn:E; [ | discriminate | ].
  - injection H as <- _. apply id_no_directory. exact E.
  - destruct (find_module l name) as [[fn [|]]|] eqn:F.
    + apply bind_ok in H as (f & s3 & G & H). unfold ask in G. apply bind_ok in G as (t2 & s4 & _ & G).
      unfold ret, lift in G. injection G as G _. rewrite L in G. subst f. apply find_module_first in F.
      destruct (ls (join2 (join2 p fn) "hiera.yaml")) as [|e|[|]] eqn:G; [ | discriminate | | ]; injection H as <- _.
      * apply (id_no_config _ _ _ _ l fn E F). auto.
      * apply (id_no_config _ _ _ _ l fn E F). auto.
      * exact (id_here _ _ _ _ l fn E F G).
    + injection H as <- _. apply find_module_first in F. exact (id_plain_file _ _ _ _ l fn E F).
    + injection H as <- _. apply (id_no_entry _ _ _ _ l E). intros x Hx S. unfold find_module in F.
      apply (find_none _ _ F) in Hx. apply equal_fold_spec in S. congruence.
Qed.

Lemma load_from_ok w rd ls name ps c : settled_dirs w rd ls -> forall s s', load_from w ps name s = (Ok c, s') -> in_path rd ls name ps c.
Proof.
  intros W. induction ps as [|p r IH]; cbn [load_from]; intros s s' H.
  - injection H as <- _. constructor.
  - apply bind_ok in H as (x & s1 & E & H). apply (load_module_ok w rd ls name p x s s1 W) in E.
    destruct x as [x|]; [ injection H as <- _; apply ip_here; exact E | ].
    apply ip_next; [ exact E | exact (IH _ _ H) ].
Qed.

Lemma module_config_ok w rd ls name s c s' : settled_dirs w rd ls -> aget name (s_mods s) = None ->
  module_config w name s = (Ok c, s') -> in_path rd ls name (module_dirs w) c.
Proof.
  intros W N H. unfold module_config in H. apply bind_ok in H as (k & s1 & E & H).
  unfold run_op in E. injection E as <- <-. rewrite N in H. apply bind_ok in H as (x & s2 & E & H).
  apply bind_ok in H as (u & s3 & _ & H). injection H as <- _. unfold module_dirs.
  destruct (w_modpath w) as [mp|]; [ exact (load_from_ok w rd ls name _ x W _ _ E) | ].
  injection E as <- _. constructor.
Qed.

(** The module path has one answer. *)
Lemma in_directory_is rd ls pre p c : in_directory rd ls pre p c ->
  c = match rd p with
      | DirEntries l =>
          match find_module l pre with
          | Some (d, true) =>
              match ls (join2 (join2 p d) "hiera.yaml") with
              | LsFound false => Some (join2 (join2 p d) "hiera.yaml")
              | _ => None
              end
          | _ => None
          end
      | _ => None
      end.
Proof.
  destruct 1 as [l d E F G|E|l E F|l d E F|l d E F G]; rewrite E.
  - apply find_module_first in F. rewrite F, G. reflexivity.
  - reflexivity.
  - rewrite (find_module_none _ _ F). reflexivity.
  - apply find_module_first in F. rewrite F. reflexivity.
  - apply find_module_first in F. rewrite F. destruct G as [-> | ->]; reflexivity.
Qed.

Lemma in_directory_one rd ls pre p c c' : in_directory rd ls pre p c -> in_directory rd ls pre p c' -> c = c'.
Proof. intros A B. apply in_directory_is in A, B. congruence. Qed.

Lemma in_path_one rd ls pre ps c : in_path rd ls pre ps c -> forall c', in_path rd ls pre ps c' -> c = c'.
Proof.
  induction 1 as [|p c r H|p c r H _ IH]; intros c' H'; inversion H'; subst; try reflexivity.
  - eapply in_directory_one; eassumption.
  - pose proof (in_directory_one _ _ _ _ _ _ H ltac:(eassumption)). discriminate.
  - pose proof (in_directory_one _ _ _ _ _ _ H ltac:(eassumption)). discriminate.
  - apply IH. assumption.
Qed.

Lemma same_name_through a b c : same_name a b -> (same_name c a <-> same_name c b).
Proof. rewrite !same_name_lower. intros ->. reflexivity. Qed.

Lemma in_path_same rd ls a b ps c : same_name a b -> in_path rd ls a ps c -> in_path rd ls b ps c.
Proof.
  intro S. assert (F : forall l e, first_entry a l e -> first_entry b l e).
  { intros l e (x & y & -> & S1 & N). exists x, y. repeat split; [ apply (same_name_through a b _ S); exact S1 | ].
    intros z Hz Sz. apply (N z Hz). apply (same_name_through a b _ S). exact Sz. }
  assert (D : forall p c, in_directory rd ls a p c -> in_directory rd ls b p c).
  { intros p c0 H. destruct H as [l d E G K|E|l E G|l d E G|l d E G K].
    - exact (id_here _ _ _ _ l d E (F _ _ G) K).
    - apply id_no_directory. exact E.
    - apply (id_no_entry _ _ _ _ l E). intros x Hx Sx. apply (G x Hx). apply (same_name_through a b _ S). exact Sx.
    - exact (id_plain_file _ _ _ _ l d E (F _ _ G)).
    - exact (id_no_config _ _ _ _ l d E (F _ _ G) K). }
  induction 1; [ constructor | apply ip_here; auto | apply ip_next; auto ].
Qed.

(** ** C57 *)

(** A key without a namespace reaches no module and asks nothing. *)
Theorem C57_no_namespace w rec opts key s : (forall pre, ~ namespace key pre) -> module_lookup w rec opts key s = (Ok None, s).
Proof.
  intro H. unfold module_lookup. destruct (split_at "::" key) as [[m rest]|] eqn:E; [ | reflexivity ].
  destruct m as [|c m]; [ reflexivity | ]. exfalso. apply (H (String c m)). apply namespace_split. split; [ discriminate | ].
  exists rest. exact E.
Qed.

(** Whatever happened before in the session, a key in a namespace is looked up
    in the configuration of the module of that name, the one that the module
    path has, and in no other; when the path has none the answer is that there
    is no value. *)
Lemma found_where w rd ls sc x s pre c : settled_dirs w rd ls -> later w (init_st sc x) s ->
  in_path rd ls pre (module_dirs w) c ->
  exists s0, searched s s0 /\ module_config w (to_lower pre) s = (Ok c, s0) \/
             searched s s0 /\ module_config w (to_lower pre) s = (Ok c, with_mods (aput (to_lower pre) c (s_mods s)) s0).
Proof.
  intros W La H.
  assert (Hp : in_path rd ls (to_lower pre) (module_dirs w) c).
  { apply (in_path_same rd ls pre); [ apply same_name_lower; rewrite to_lower_twice; reflexivity | exact H ]. }
  destruct (aget (to_lower pre) (s_mods s)) as [d|] eqn:K.
  - destruct (later_learnt (fun name c => in_path rd ls name (module_dirs w) c) w _ _
                (fun name s c s' => module_config_ok w rd ls name s c s' W) La) as [_ L].
    destruct (L _ _ K) as [L0|L1]; [ discriminate | ].
    rewrite (in_path_one _ _ _ _ _ Hp _ L1). exists s. left. split; [ apply searched_refl | ].
    apply module_config_known. exact K.
  - destruct (module_config_new w rd ls (to_lower pre) c s W Hp K) as (s0 & E & S). exists s0. right. split; [ exact S | exact E ].
Qed.

Theorem C57_own_module w rd ls sc x s n opts key pre c :
  settled_dirs w rd ls -> later w (init_st sc x) s ->
  namespace key pre -> in_path rd ls pre (module_dirs w) (Some c) ->
  exists name s0 ms, module_name pre name /\ searched s s0 /\
    module_lookup w (run w n) opts key s =
    run_scoped (SNode (NModule name) "") (config_lookup_at w (run w n) opts c key name) (with_mods ms s0).
Proof.
  intros W La N H. exists (to_lower pre).
  rewrite (module_lookup_inside w (run w n) opts key pre N).
  destruct (found_where w rd ls sc x s pre (Some c) W La H) as (s0 & [[S E]|[S E]]).
  - exists s0, (s_mods s0). split; [ apply module_name_lower; reflexivity | ]. split; [ exact S | ].
    unfold bind at 1. rewrite E. destruct s0; reflexivity.
  - exists s0. eexists. split; [ apply module_name_lower; reflexivity | ]. split; [ exact S | ].
    unfold bind at 1. rewrite E. reflexivity.
Qed.

Theorem C57_missing_module w rd ls sc x s n opts key pre :
  settled_dirs w rd ls -> later w (init_st sc x) s -> iv_expl (s_iv s) = false ->
  namespace key pre -> in_path rd ls pre (module_dirs w) None ->
  exists s0 ms, searched s s0 /\ module_lookup w (run w n) opts key s = (Ok None, with_mods ms s0).
Proof.
  intros W La X N H.
  rewrite (module_lookup_inside w (run w n) opts key pre N).
  assert (X0 : forall s0 ms, searched s s0 -> iv_expl (s_iv (with_mods ms s0)) = false).
  { intros s0 ms (l & _ & ->). exact X. }
  destruct (found_where w rd ls sc x s pre None W La H) as (s0 & [[S E]|[S E]]).
  - exists s0, (s_mods s0). split; [ exact S | ]. specialize (X0 s0 (s_mods s0) S).
    unfold bind at 1. rewrite E. unfold run_scoped. cbn in X0. rewrite X0. unfold bind, run_op. rewrite X0. destruct s0; reflexivity.
  - exists s0. eexists. split; [ exact S | ]. specialize (X0 s0 (aput (to_lower pre) None (s_mods s)) S).
    unfold bind at 1. rewrite E. unfold run_scoped. rewrite X0. unfold bind, run_op. rewrite X0. reflexivity.
Qed.

(** What is known after a key of a namespace has been answered. *)
Lemma known_after w n opts key pre s o s1 : namespace key pre -> module_lookup w (run w n) opts key s = (Ok o, s1) ->
  exists c s0, module_config w (to_lower pre) s = (Ok c, s0) /\ forall s2, later w s1 s2 -> aget (to_lower pre) (s_mods s2) = Some c.
Proof.
  intros N H. rewrite (module_lookup_inside w (run w n) opts key pre N) in H.
  apply bind_ok in H as (c & s0 & E & H). exists c, s0. split; [ exact E | ]. intros s2 La.
  set (T := fun (_ : string) (_ : option string) => True).
  assert (HT : forall name s c s', aget name (s_mods s) = None -> module_config w name s = (Ok c, s') -> T name c) by (intros; exact I).
  assert (K0 : aget (to_lower pre) (s_mods s0) = Some c).
  { unfold module_config in E. apply bind_ok in E as (k & s3 & E1 & E). unfold run_op in E1. injection E1 as <- <-.
    destruct (aget (to_lower pre) (s_mods s)) as [d|] eqn:K; [ injection E as <- <-; exact K | ].
    apply bind_ok in E as (d & s4 & _ & E). apply bind_ok in E as (u & s5 & E2 & E). injection E as <- <-.
    unfold run_op in E2. injection E2 as _ <-. unfold aput. cbn [with_mods s_mods aget]. rewrite String.eqb_refl. reflexivity. }
  assert (K1 : aget (to_lower pre) (s_mods s1) = Some c).
  { pose proof (learnt_closed T w HT) as C.
    assert (Hrec : forall r, steps (learnt T) _ (run w n r) (run w n r)) by (intro r; apply (c_run w _ C)).
    assert (G : steps (learnt T) _
      (run_scoped (SNode (NModule (to_lower pre)) "")
         match c with Some c0 => config_lookup_at w (run w n) opts c0 key (to_lower pre) | None => run_op (OReport RModuleNotFound);;; ret None end)
      (run_scoped (SNode (NModule (to_lower pre)) "")
         match c with Some c0 => config_lookup_at w (run w n) opts c0 key (to_lower pre) | None => run_op (OReport RModuleNotFound);;; ret None end)).
    { apply (c_scoped w _ C); [ discriminate | ]. destruct c as [c|].
      - apply (c_config_lookup_at w _ C (run w n) (run w n)); try (intro; apply quiet_run); exact Hrec.
      - apply (c_bind w _ C); [ apply (c_op w _ C); reflexivity | intro; apply (c_lift w _ C) ]. }
    destruct (G s0) as [G1 _]. rewrite H in G1. exact (G1 _ _ K0). }
  destruct (later_learnt T w s1 s2 HT La) as [L _]. exact (L _ _ K1).
Qed.

(** After a key of a namespace has been answered no later lookup in the session
    searches for that module again, in whatever case its name is written: it
    begins with the configuration found then, or says at once that there is
    none.  The directories may have changed in the meantime. *)
Theorem C57_searched_once w n opts key pre s o s1 :
  namespace key pre -> module_lookup w (run w n) opts key s = (Ok o, s1) ->
  exists name c, module_name pre name /\
    forall s2 rec opts' key' pre', later w s1 s2 -> namespace key' pre' -> same_name pre' pre ->
      module_lookup w rec opts' key' s2 =
      run_scoped (SNode (NModule name) "")
        (match c with
         | None => run_op (OReport RModuleNotFound) ;;; ret None
         | Some cfg => config_lookup_at w rec opts' cfg key' name
         end) s2.
Proof.
  intros N H. destruct (known_after w n opts key pre s o s1 N H) as (c & s0 & _ & K).
  exists (to_lower pre), c. split; [ apply module_name_lower; reflexivity | ].
  intros s2 rec opts' key' pre' La N' S'. apply same_name_lower in S'.
  rewrite (module_lookup_inside w rec opts' key' pre' N'), S'. unfold bind at 1.
  rewrite (module_config_known w _ c s2 (K s2 La)). reflexivity.
Qed.

(** A module that was missing stays missing for the session, and looking for it
    again asks nothing. *)
Theorem C57_missing_searched_once w rd ls sc x n opts key pre s :
  settled_dirs w rd ls -> later w (init_st sc x) s -> iv_expl (s_iv s) = false ->
  namespace key pre -> in_path rd ls pre (module_dirs w) None ->
  forall s2 rec opts' key' pre', later w (snd (module_lookup w (run w n) opts key s)) s2 -> iv_expl (s_iv s2) = false ->
    namespace key' pre' -> same_name pre' pre ->
    module_lookup w rec opts' key' s2 = (Ok None, s2).
Proof.
  intros W La X N H s2 rec opts' key' pre' La2 X2 N' S'.
  destruct (C57_missing_module w rd ls sc x s n opts key pre W La X N H) as (s0 & ms & _ & E0).
  rewrite E0 in La2. cbn [snd] in La2.
  destruct (known_after w n opts key pre s None _ N E0) as (c & s3 & E & K).
  assert (c = None) as ->.
  { destruct (found_where w rd ls sc x s pre None W La H) as (s4 & [[_ E2]|[_ E2]]); congruence. }
  apply same_name_lower in S'. rewrite (module_lookup_inside w rec opts' key' pre' N'), S'. unfold bind at 1.
  rewrite (module_config_known w _ None s2 (K s2 La2)).
  unfold run_scoped. rewrite X2. unfold bind, run_op. rewrite X2. reflexivity.
Qed.

(** The lookup options of a module are for keys in its namespace only: with the
    configuration that was resolved for the module, a key outside it has no
    lookup options in a search for options, and is looked up with the options of
    the caller alone. *)
Lemma resolve_config_module w rec c name s rc s' : resolve_config w rec c name s = (Ok rc, s') -> rc_module rc = name.
Proof.
  unfold resolve_config. intro H. repeat (apply bind_ok in H as (? & ? & _ & H)). injection H as <- _. reflexivity.
Qed.

Theorem C57_options w n path name s cfg s1 k r :
  aget path (s_configs s) = None -> path <> "" -> name <> "" ->
  get_config w (run w n) path name s = (Ok cfg, s1) ->
  root k = Ok r -> ~ (exists rest, r = (name ++ "::" ++ rest)%string) ->
  lookup_options cfg k = Ok None.
Proof.
  intros N P Nm H R Ns. unfold get_config in H. destruct (String.eqb_spec path "") as [E|_]; [ congruence | ].
  apply bind_ok in H as (x & s2 & E & H). unfold run_op in E. injection E as <- <-. rewrite N in H.
  apply bind_ok in H as (c & s3 & _ & H). apply bind_ok in H as (rc & s4 & E & H). apply resolve_config_module in E.
  apply bind_ok in H as (u & s5 & _ & H). injection H as <- _.
  unfold lookup_options. rewrite R. cbn [obind]. destruct (rc_luopts rc) as [m|]; [ | reflexivity ].
  rewrite E. destruct (String.eqb_spec name "") as [E0|_]; [ congruence | ]. cbn [orb].
  destruct (has_prefix (name ++ "::")%string r) eqn:F; [ | reflexivity ].
  exfalso. apply has_prefix_app in F as [rest F]. apply Ns. exists rest. rewrite F, app_assoc_s. reflexivity.
Qed.

Theorem C57_options_not_used w rec path name s cfg key k opts :
  aget path (s_configs s) = Some cfg -> path <> "" -> new_key key = Ok k -> lookup_options cfg k = Ok None ->
  iv_mode (s_iv s) = MdTop ->
  config_lookup_at w rec opts path key name s =
  run_scoped SData
    (run_scoped (SNode NLookup (k_source k))
       (set_merge (mgets "merge" opts) None ;;;
        lookup_and_convert w (s <- run_op OStrat ;; merge_hierarchy w rec k (rc_providers cfg) s))) s.
Proof.
  intros C P K L Md. unfold config_lookup_at, get_config. destruct (String.eqb_spec path "") as [E|_]; [ congruence | ].
  unfold bind at 1. unfold bind at 1. unfold run_op at 1. rewrite C. cbn [ret lift].
  unfold bind at 1. unfold lift at 1. rewrite K. unfold bind at 1. unfold run_op at 1. rewrite Md.
  rewrite L. reflexivity.
Qed.

(** And to the keys in its namespace they do apply: the options of such a key are
    those that the data of the module has for it. *)
Theorem C57_own_options w n path name s cfg s1 k r rest all lo :
  aget path (s_configs s) = None -> path <> "" ->
  get_config w (run w n) path name s = (Ok cfg, s1) -> rc_luopts cfg = as_map all ->
  root k = Ok r -> r = (name ++ "::" ++ rest)%string -> options_for all r lo ->
  lookup_options cfg k = Ok lo.
Proof.
  intros N P H A R Ns Ho. unfold get_config in H. destruct (String.eqb_spec path "") as [E|_]; [ congruence | ].
  apply bind_ok in H as (x & s2 & E & H). unfold run_op in E. injection E as <- <-. rewrite N in H.
  apply bind_ok in H as (c & s3 & _ & H). apply bind_ok in H as (rc & s4 & E & H). apply resolve_config_module in E.
  apply bind_ok in H as (u & s5 & _ & H). injection H as <- _.
  unfold lookup_options. rewrite R, A, E. cbn [obind].
  assert (Pr : has_prefix (name ++ "::") r = true).
  { apply has_prefix_app. exists rest. rewrite Ns, app_assoc_s. reflexivity. }
  rewrite Pr, orb_true_r.
  destruct Ho as [m o -> Hg|m -> Hg|Hn]; cbn [as_map].
  - rewrite Hg. reflexivity.
  - destruct (mgets r m) as [[]|] eqn:Em; try reflexivity. destruct (Hg _ eq_refl).
  - destruct all as [[]|]; try reflexivity. destruct (Hn _ eq_refl).
Qed.
Print Assumptions C57_own_options.

(** ** Examples *)

(** Two modules; one directory is written with a capital. *)
Definition mods_w : world :=
  with_top LkModule None
    (with_modules ["Apache"; "nginx"]
      (file_world
        [("/mods/Apache/hiera.yaml", levels ["common"]); ("/mods/nginx/hiera.yaml", levels ["common"])]
        [("/mods/Apache/data/common.yaml",
            vmap [("apache::port", VInt 80); ("nginx::port", VInt 1); ("Apache::list", VArr [VInt 1]);
                  ("lookup_options", vmap [("apache::port", vmap [("merge", VStr "unique")]);
                                           ("Apache::list", vmap [("merge", VStr "nonsense")]);
                                           ("nginx::port", vmap [("merge", VStr "nonsense")])])]);
         ("/mods/nginx/data/common.yaml", vmap [("nginx::port", VInt 8080)])])).

Definition mods_rd (p : string) : dir_list :=
  if String.eqb p "/mods" then DirEntries [("Apache", true); ("nginx", true)] else DirMissing.
Definition mods_ls (p : string) : lstat :=
  if String.eqb p "/mods/Apache/hiera.yaml" || String.eqb p "/mods/nginx/hiera.yaml" then LsFound false else LsMissing.

Example C57_ex_settled : settled_dirs mods_w mods_rd mods_ls.
Proof.
  split; intros t p; cbn [mods_w w_readdir w_lstat with_top with_modules map]; [ reflexivity | ].
  unfold mods_ls, file_world. cbn [w_config aget].
  destruct (String.eqb p "/mods/Apache/hiera.yaml"); [ reflexivity | ]. destruct (String.eqb p "/mods/nginx/hiera.yaml"); reflexivity.
Qed.

Example C57_ex_namespace : namespace "APACHE::a::b" "APACHE".
Proof. apply namespace_split. split; [ discriminate | ]. exists "a::b". reflexivity. Qed.

Example C57_ex_no_namespace : forall pre, ~ namespace "::apache::port" pre /\ ~ namespace "port" pre.
Proof.
  intro pre. split; intro H; apply namespace_split in H as [N (rest & E)]; vm_compute in E; [ | discriminate ].
  injection E as <- _. congruence.
Qed.

Example C57_ex_here : in_path mods_rd mods_ls "APACHE" (module_dirs mods_w) (Some "/mods/Apache/hiera.yaml").
Proof.
  apply ip_here. apply (id_here mods_rd mods_ls "APACHE" "/mods" [("Apache", true); ("nginx", true)] "Apache"); [ reflexivity | | reflexivity ].
  apply find_module_first. reflexivity.
Qed.

Example C57_ex_missing : in_path mods_rd mods_ls "mysql" (module_dirs mods_w) None.
Proof.
  apply ip_next; [ | constructor ]. apply (id_no_entry _ _ _ _ [("Apache", true); ("nginx", true)]); [ reflexivity | ].
  intros x [<-|[<-|[]]] S; apply same_name_lower in S; discriminate.
Qed.

(** The case of the module name does not matter for finding the module; the
    case of the key matters for its data. *)
Example C57_ex_lookups :
  look mods_w 20 [] "apache::port" None = Ok (Some (VInt 80)) /\
  look mods_w 20 [] "nginx::port" None = Ok (Some (VInt 8080)) /\
  look mods_w 20 [] "APACHE::port" None = Ok None /\
  look mods_w 20 [] "mysql::port" None = Ok None /\
  look mods_w 20 [] "::apache::port" None = Ok None /\
  look mods_w 20 [] "port" None = Ok None.
Proof. vm_compute. repeat split. Qed.

(** The search for a missing module: the second lookup asks nothing. *)
Example C57_ex_asked_once :
  let s0 := init_st (ScMap []) None in
  let r1 := module_lookup mods_w (run mods_w 20) [] "mysql::a" s0 in
  let r2 := module_lookup mods_w (run mods_w 20) [] "MySQL::b" (snd r1) in
  fst r1 = Ok None /\ s_trace (snd r1) = [EvReadDir "/mods"] /\
  fst r2 = Ok None /\ s_trace (snd r2) = [EvReadDir "/mods"] /\
  iv_expl (s_iv s0) = false /\ later mods_w s0 s0 /\ namespace "MySQL::b" "MySQL" /\ same_name "MySQL" "mysql".
Proof.
  cbv zeta. repeat split; try (vm_compute; reflexivity); try (constructor; fail); try discriminate.
  - exists "b". split; [ reflexivity | ]. apply split_at_none. reflexivity.
  - apply same_name_lower. reflexivity.
Qed.

(** Options are found under the name in lower case only: the options written for
    a key with a capital in its module name are in the module, the module is
    found, and the options are not used. *)
Example C57_ex_options :
  match get_config mods_w (run mods_w 20) "/mods/Apache/hiera.yaml" "apache" (init_st (ScMap []) None) with
  | (Ok cfg, _) =>
      lookup_options cfg (mk_key "apache::port" [PStr "apache::port"]) = Ok (Some [(VStr "merge", VStr "unique")]) /\
      lookup_options cfg (mk_key "nginx::port" [PStr "nginx::port"]) = Ok None /\
      lookup_options cfg (mk_key "Apache::list" [PStr "Apache::list"]) = Ok None
  | _ => False
  end /\
  look mods_w 20 [] "Apache::list" None = Ok (Some (VArr [VInt 1])).
Proof. vm_compute. repeat split. Qed.

Print Assumptions C57_no_namespace.
Print Assumptions C57_own_module.
Print Assumptions C57_missing_module.
Print Assumptions C57_searched_once.
Print Assumptions C57_missing_searched_once.
Print Assumptions C57_options.
Print Assumptions C57_options_not_used.
