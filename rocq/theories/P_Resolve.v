(** Properties C39, C41, C42, C43 and C44: resolving a configuration. *)

From Coq Require Import String Ascii List ZArith Bool Arith Lia.
From Verif Require Import Str Value Outcome Key Merge Fpath Config Ipl Explain State Engine Meta Worlds
  SpecKey SpecIpl SpecInterp SpecConfig SpecResolve SpecPath
  KeyFacts ValueFacts StrFacts IplFacts InterpFacts IplExact ResolveFacts ResolveRun PathFacts Kept Leaves.
Import ListNotations.
Open Scope nat_scope.
Open Scope string_scope.
Open Scope list_scope.

(** ** C39 *)

(** Every field of a resolved entry is its own, interpolated, or else that of
    the defaults, or else the fixed one. *)
Record inherits (w : world) (n : nat) (sc : scope) (root : string) (d : option entry) (e e' : entry) : Prop := mk_inherits {
  in_function : exists f, e_function e' = Some f /\
    match e_function e, d with
    | Some f0, _ => f_kind f = f_kind f0 /\ text_result w n sc (f_name f0) (f_name f)
    | None, Some d => e_function d = Some f
    | None, None => f = mk_fdef KDataHash "yaml_data"
    end;
  in_datadir : match e_datadir e, d with
               | "", Some d => e_datadir e' = e_datadir d
               | "", None => e_datadir e' = match lookup_env (w_env w) "HIERA_DATADIR" with Some x => x | None => "data" end
               | t, _ => text_result w n sc t (e_datadir e')
               end;
  in_plugindir : exists p, e_plugindir e' = below root p /\
               match e_plugindir e, d with
               | "", Some d => p = e_plugindir d
               | "", None => p = match lookup_env (w_env w) "HIERA_PLUGINDIR" with Some x => x | None => "plugin" end
               | t, _ => text_result w n sc t p
               end;
  in_options : match e_options e, d with
               | Some o, _ => exists o', value_result w n sc (VMap o) (VMap o') /\ e_options e' = Some o'
               | None, Some d => e_options e' = Some (match e_options d with Some o => o | None => [] end)
               | None, None => e_options e' = Some []
               end
}.

Lemma ran_dir_cases w n sc d inh d' : ran_dir w n sc d inh d' -> (d <> "" /\ text_result w n sc d d') \/ (d = "" /\ d' = inh).
Proof. intros [? ? ? H1 H2|]; auto. Qed.

(** Full statement: forall w n root d e s e' s',
      resolve_entry w (run w n) root d e s = (Ok e', s') -> inherits w n (iv_scope (s_iv s)) root d e e'.
    False for function names, which are interpolated twice, see
    [C39_function_twice_refuted].  What is proved: all the rest for any entry, and
    the function when what its name becomes holds no further expression. *)
Theorem C39_inherits_partial : forall w n root d e s e' s',
  resolve_entry w (run w n) root d e s = (Ok e', s') ->
  (forall f t, e_function e = Some f -> text_result w n (iv_scope (s_iv s)) (f_name f) t -> ~ has "%{" t) ->
  (forall d' f, d = Some d' -> e_function d' = Some f -> ~ has "%{" (f_name f)) ->
  inherits w n (iv_scope (s_iv s)) root d e e'.
Proof.
  intros w n root d e s e' s' E H1 H2. apply resolve_ran in E as [_ [N P (f & Ef & F) D (p & Dp & Ep) O L]].
  constructor.
  - exists f. split; [ exact Ef | ]. destruct (e_function e) as [f0|] eqn:E0.
    + destruct F as [K (t & T1 & T2)]. split; [ exact K | ].
      rewrite (text_plain _ _ _ _ _ (H1 f0 t eq_refl T1) T2). exact T1.
    + destruct F as (f0 & E1 & K & T). destruct d as [d|].
      * rewrite E1. f_equal. apply (text_plain _ _ _ _ _ (H2 d f0 eq_refl E1)) in T.
        destruct f, f0; cbn in *; congruence.
      * injection E1 as <-. cbn in K, T. apply text_plain in T; [ destruct f; cbn in *; congruence | now apply contains_not ].
  - destruct (ran_dir_cases _ _ _ _ _ _ D) as [[Ha Ht]|[Ha ->]].
    + destruct (e_datadir e); [ congruence | exact Ht ].
    + rewrite Ha. destruct d; reflexivity.
  - exists p. split; [ exact Ep | ]. destruct (ran_dir_cases _ _ _ _ _ _ Dp) as [[Ha Ht]|[Ha ->]].
    + destruct (e_plugindir e); [ congruence | exact Ht ].
    + rewrite Ha. destruct d; reflexivity.
  - destruct (e_options e); [ exact O | ]. destruct d; exact O.
Qed.
Print Assumptions C39_inherits_partial.

(** All the entries of a configuration: each with the same, resolved defaults. *)
Theorem C39_all_entries_partial : forall w n c es s ps s',
  create_providers w (run w n) c es s = (Ok ps, s') ->
  (forall e f t, In e (c_defaults c :: es) -> e_function e = Some f ->
     text_result w n (iv_scope (s_iv s)) (f_name f) t -> ~ has "%{" t) ->
  exists d, inherits w n (iv_scope (s_iv s)) (c_root c) None (c_defaults c) d /\
    Forall2 (fun e p => inherits w n (iv_scope (s_iv s)) (c_root c) (Some d) e (p_entry p)) es ps.
Proof.
  intros w n c es s ps s' E H. unfold create_providers in E. apply bind_ok in E as (d & s1 & E1 & E2).
  assert (I : inherits w n (iv_scope (s_iv s)) (c_root c) None (c_defaults c) d).
  { apply (C39_inherits_partial _ _ _ _ _ _ _ _ E1); [ | discriminate ]. intros f t. apply H. left. reflexivity. }
  exists d. split; [ exact I | ].
  assert (S1 : s_iv s1 = s_iv s) by (apply resolve_ran in E1; tauto).
  assert (Fd : forall f, e_function d = Some f -> ~ has "%{" (f_name f)).
  { intros f Ef. destruct (in_function _ _ _ _ _ _ _ I) as (f' & Ef' & F). rewrite Ef in Ef'. injection Ef' as <-.
    destruct (e_function (c_defaults c)) as [f0|] eqn:E0.
    - destruct F as [_ T]. apply (H (c_defaults c) f0); [ left; reflexivity | exact E0 | exact T ].
    - subst f. cbn. now apply contains_not. }
  rewrite <- S1 in *. clear E1 S1 I s.
  assert (G : forall es0, (forall e, In e es0 -> In e es) -> forall s ps s', iv_scope (s_iv s) = iv_scope (s_iv s1) ->
     create_each w (run w n) (c_root c) d es0 s = (Ok ps, s') ->
     Forall2 (fun e p => inherits w n (iv_scope (s_iv s1)) (c_root c) (Some d) e (p_entry p)) es0 ps).
  { clear E2 ps s'. induction es0 as [|e es0 IH]; intros Hin s ps s' Hs E; cbn [create_each] in E.
    - injection E as <- _. constructor.
    - apply bind_ok in E as (e' & s2 & E1 & E). apply bind_ok in E as (p & s3 & E2 & E). apply bind_ok in E as (ps' & s4 & E3 & E).
      injection E as <- _.
      assert (S2 : s_iv s2 = s_iv s) by (apply resolve_ran in E1; tauto).
      pose proof (quiet_create_provider e' _ _ _ E2) as S3. constructor.
      + unfold create_provider in E2. destruct (e_function e') as [fe|] eqn:Ee; [ | discriminate ]. apply bind_ok in E2 as (id & s5 & _ & E2).
        injection E2 as <- _. cbn [p_entry]. rewrite <- Hs. apply (C39_inherits_partial _ _ _ _ _ _ _ _ E1).
        * rewrite Hs. intros f t. apply H. right. apply Hin. left. reflexivity.
        * intros d' f Ed. injection Ed as <-. apply Fd.
      + apply (IH (fun e0 He0 => Hin e0 (or_intror He0)) s3 ps' s4); [ congruence | exact E3 ]. }
  exact (G es (fun e He => He) s1 ps s' eq_refl E2).
Qed.
Print Assumptions C39_all_entries_partial.

(** Exactly: what is inherited is as claimed, and then the name of the function,
    its own or inherited, is interpolated once more.  For every entry. *)
Definition with_function (f : fdef) (e : entry) : entry :=
  mk_entry (e_datadir e) (e_plugindir e) (e_pluginfile e) (e_options e) (Some f) (e_name e) (e_locations e).
Definition inherits_then (w : world) (n : nat) (sc : scope) (root : string) (d : option entry) (e e' : entry) : Prop :=
  exists f1 f, inherits w n sc root d e (with_function f1 e') /\
    e_function e' = Some f /\ f_kind f = f_kind f1 /\ text_result w n sc (f_name f1) (f_name f).

Theorem C39_exactly : forall w n root d e s e' s',
  resolve_entry w (run w n) root d e s = (Ok e', s') -> inherits_then w n (iv_scope (s_iv s)) root d e e'.
Proof.
  intros w n root d e s e' s' E. apply resolve_ran in E as [_ [N P (f & Ef & F) D (p & Dp & Ep) O L]].
  assert (G : forall f1, match e_function e, d with
    | Some f0, _ => f_kind f1 = f_kind f0 /\ text_result w n (iv_scope (s_iv s)) (f_name f0) (f_name f1)
    | None, Some d => e_function d = Some f1
    | None, None => f1 = mk_fdef KDataHash "yaml_data"
    end -> inherits w n (iv_scope (s_iv s)) root d e (with_function f1 e')).
  { intros f1 H. constructor; cbn [with_function e_function e_datadir e_plugindir e_options].
    - exists f1. split; [ reflexivity | exact H ].
    - destruct (ran_dir_cases _ _ _ _ _ _ D) as [[Ha Ht]|[Ha ->]].
      + destruct (e_datadir e); [ congruence | exact Ht ].
      + rewrite Ha. destruct d; reflexivity.
    - exists p. split; [ exact Ep | ]. destruct (ran_dir_cases _ _ _ _ _ _ Dp) as [[Ha Ht]|[Ha ->]].
      + destruct (e_plugindir e); [ congruence | exact Ht ].
      + rewrite Ha. destruct d; reflexivity.
    - destruct (e_options e); [ exact O | ]. destruct d; exact O. }
  destruct (e_function e) as [f0|] eqn:E0.
  - destruct F as [K (t & T1 & T2)]. exists (mk_fdef (f_kind f0) t), f.
    split; [ apply G; cbn [f_kind f_name]; auto | ]. cbn [f_kind f_name]. auto.
  - destruct F as (f0 & E1 & K & T). exists f0, f. split; [ apply G; destruct d as [d|]; [ exact E1 | congruence ] | ]. auto.
Qed.
Print Assumptions C39_exactly.

Theorem C39_all_entries_exactly : forall w n c es s ps s',
  create_providers w (run w n) c es s = (Ok ps, s') ->
  exists d, inherits_then w n (iv_scope (s_iv s)) (c_root c) None (c_defaults c) d /\
    Forall2 (fun e p => inherits_then w n (iv_scope (s_iv s)) (c_root c) (Some d) e (p_entry p)) es ps.
Proof.
  intros w n c es s ps s' E. unfold create_providers in E. apply bind_ok in E as (d & s1 & E1 & E2).
  exists d. split; [ exact (C39_exactly _ _ _ _ _ _ _ _ E1) | ].
  assert (S1 : s_iv s1 = s_iv s) by (apply resolve_ran in E1; tauto). rewrite <- S1. clear E1 S1 s.
  assert (G : forall es0 s ps s', iv_scope (s_iv s) = iv_scope (s_iv s1) ->
     create_each w (run w n) (c_root c) d es0 s = (Ok ps, s') ->
     Forall2 (fun e p => inherits_then w n (iv_scope (s_iv s1)) (c_root c) (Some d) e (p_entry p)) es0 ps).
  { clear E2 ps s'. induction es0 as [|e es0 IH]; intros s ps s' Hs E; cbn [create_each] in E.
    - injection E as <- _. constructor.
    - apply bind_ok in E as (e' & s2 & E1 & E). apply bind_ok in E as (p & s3 & E2 & E). apply bind_ok in E as (ps' & s4 & E3 & E).
      injection E as <- _.
      assert (S2 : s_iv s2 = s_iv s) by (apply resolve_ran in E1; tauto).
      pose proof (quiet_create_provider e' _ _ _ E2) as S3. constructor.
      + unfold create_provider in E2. destruct (e_function e') as [fe|] eqn:Ee; [ | discriminate ].
        apply bind_ok in E2 as (id & s5 & _ & E2).
        injection E2 as <- _. cbn [p_entry]. rewrite <- Hs. exact (C39_exactly _ _ _ _ _ _ _ _ E1).
      + apply (IH s3 ps' s4); [ congruence | exact E3 ]. }
  exact (G es s1 ps s' eq_refl E2).
Qed.
Print Assumptions C39_all_entries_exactly.

(** Defaults whose function needs two passes, and an entry that inherits it. *)
Example C39_exactly_ex : exists ps s',
  create_providers (file_world [] []) (run (file_world [] []) 5)
    (mk_config "/h" "" (mk_entry "" "" "" None (Some (mk_fdef KLookupKey "%{x}{y}")) "defaults" None) [] [])
    [mk_entry "" "" "" None None "one" None]
    (init_st (ScMap [(VStr "x", VStr "%"); (VStr "y", VStr "fn")]) None) = (Ok ps, s') /\
  map (fun p => e_function (p_entry p)) ps = [Some (mk_fdef KLookupKey "fn")].
Proof. eexists. eexists. split; [ vm_compute; reflexivity | reflexivity ]. Qed.

(** When the variables that the entry mentions are settled, it is resolved, and
    to what the text stands for. *)
Theorem C39_resolved : forall w n on_disk matching sc root d e e' s,
  (forall t p, w_stat w t p = on_disk p) -> (forall t p, w_glob w t p = matching p) ->
  entry_resolved w on_disk matching sc (w_env w) root d e e' ->
  iv_scope (s_iv s) = sc -> iv_expl (s_iv s) = false ->
  exists s', resolve_entry w (run w (S (S n))) root d e s = (Ok e', s').
Proof.
  intros w n od mt sc root d e e' s Hs Hg H Hsc Ho. destruct (gives_entry w n od mt Hs Hg sc root d e e' H s Hsc Ho) as (s' & E & _).
  exists s'. exact E.
Qed.
Print Assumptions C39_resolved.

(** The name of a function is interpolated twice: with x = % and y = yaml_data,
    the name %{x}{y} becomes %{y}, and then yaml_data. *)
Theorem C39_function_twice_refuted : exists w n root d e s e' s' f0 f t,
  resolve_entry w (run w n) root d e s = (Ok e', s') /\
  e_function e = Some f0 /\ e_function e' = Some f /\
  run w n (RStr (f_name f0) false) s = (Ok (Some (VStr t), true), s) /\ f_name f <> t.
Proof.
  exists (file_world [] []), 5, "/h", None, (mk_entry "" "" "" None (Some (mk_fdef KDataHash "%{x}{y}")) "e" None),
    (init_st (ScMap [(VStr "x", VStr "%"); (VStr "y", VStr "yaml_data")]) None).
  eexists. eexists. eexists. eexists. eexists.
  split; [ vm_compute; reflexivity | ]. split; [ reflexivity | ]. split; [ reflexivity | ].
  split; [ vm_compute; reflexivity | ]. discriminate.
Qed.
Print Assumptions C39_function_twice_refuted.

(** An entry that inherits its function, its data directory and its options,
    and one that has its own. *)
Definition defs39 : entry := mk_entry "%{env}/data" "" "" (Some [(VStr "o", VStr "%{env}")]) (Some (mk_fdef KLookupKey "fn_%{env}")) "defaults" None.
Definition entries39 : list entry :=
  [mk_entry "" "" "" None None "one" (Some [LPath "a.yaml" "" false]);
   mk_entry "own" "/p" "" (Some []) (Some (mk_fdef KDataHash "yaml_data")) "two" None].
Definition st39 : st := init_st (ScMap [(VStr "env", VStr "prod")]) None.
Example C39_all_entries_example :
  exists ps s', create_providers (file_world [] []) (run (file_world [] []) 5) (mk_config "/h" "" defs39 entries39 []) entries39 st39 = (Ok ps, s') /\
  map p_entry ps =
    [mk_entry "prod/data" "/h/plugin" "" (Some [(VStr "o", VStr "prod")]) (Some (mk_fdef KLookupKey "fn_prod")) "one" (Some [LPath "a.yaml" "/h/prod/data/a.yaml" false]);
     mk_entry "own" "/p" "" (Some []) (Some (mk_fdef KDataHash "yaml_data")) "two" None] /\
  forall e f t, In e (defs39 :: entries39) -> e_function e = Some f ->
     text_result (file_world [] []) 5 (iv_scope (s_iv st39)) (f_name f) t -> ~ has "%{" t.
Proof.
  eexists. eexists. split; [ vm_compute; reflexivity | ]. split; [ reflexivity | ].
  intros e f t He Ef (s1 & s2 & o & b & Hs & E & ->).
  destruct He as [<-|[<-|[<-|[]]]]; cbn in Ef; try discriminate; injection Ef as <-; cbn [f_name] in E.
  - assert (Q : fst (run (file_world [] []) 5 (RStr "fn_%{env}" false) s1) = Ok (Some (VStr "fn_prod"), true) \/
                forall x, fst (run (file_world [] []) 5 (RStr "fn_%{env}" false) s1) <> Ok x).
    { destruct s1 as [[nm sc lo stg ex md re] x cf sh tp mo pr nx tr]. cbn in Hs. subst sc.
      destruct ex; [ | left; vm_compute; reflexivity ].
      destruct x as [a1 a2 a3 a4 a5]. destruct a5; [ right; intros ?; vm_compute; discriminate | left; vm_compute; reflexivity ]. }
    rewrite E in Q. cbn [fst] in Q. destruct Q as [Q|Q]; [ | destruct (Q _ eq_refl) ]. injection Q as -> _. now apply contains_not.
  - rewrite run_plain in E by now apply contains_not. injection E as <- _ _. now apply contains_not.
Qed.

Example C39_resolved_example : entry_resolved (file_world [] []) (fun _ => false) (fun _ => []) (ScMap []) [] "/h" None
  (mk_entry "" "" "" None None "e" (Some [LPath "a.yaml" "" false]))
  (mk_entry "data" "/h/plugin" "" (Some []) (Some (mk_fdef KDataHash "yaml_data")) "e" (Some [LPath "a.yaml" "/h/data/a.yaml" false])).
Proof.
  constructor; try reflexivity.
  - exists (mk_fdef KDataHash "yaml_data"). split; [ reflexivity | ]. split; [ now apply contains_not | reflexivity ].
  - apply dir_inherited.
  - exists "plugin". split; [ apply dir_inherited | reflexivity ].
  - exists [[LPath "a.yaml" "/h/data/a.yaml" false]]. split; [ | reflexivity ]. constructor; [ | constructor ].
    change "/h/data/a.yaml" with (join2 "/h/data" "a.yaml"). apply loc_path. apply expands_plain. now apply contains_not.
Qed.

(** ** C41 *)

(** [p] is where the text [t] leads to from the directory [dr]: the place reached
    by going along its parts, and inside when it never goes up further than down. *)
Record joined (dr t p : string) : Prop := mk_joined {
  jn_inside : keeps_inside t -> within dr p;
  jn_place : forall at_ d ps to, Forall name at_ -> reaches at_ dr d -> parts t ps -> (reaches at_ p to <-> walks d ps to)
}.
Inductive leads (w : world) (dr t : string) : string -> Prop :=
| leads_path : forall p, joined dr t p -> leads w dr t p
| leads_glob : forall pattern tr p, joined dr t pattern -> In p (w_glob w tr pattern) -> leads w dr t p.

Lemma join_joined dr t : dr <> "" -> joined dr t (join2 dr t).
Proof.
  intros Hd. split; [ apply inside_within; exact Hd | ]. intros at_ d ps to Ha Hr Hp. apply parts_split in Hp. subst ps.
  apply reaches_place in Hr; [ | exact Ha ]. subst d. rewrite reaches_place by exact Ha. rewrite place_join by assumption.
  symmetry. apply walks_walk; [ apply place_names; exact Ha | apply split_pieces_ok ].
Qed.

Lemma location_leads w n sc dr l0 ls l : dr <> "" -> ran_location w n sc dr l0 ls -> In l ls ->
  match l with
  | LPath o p _ => exists sc t, text_result w n sc o t /\ leads w dr t p
  | LUri _ _ => True
  | _ => False
  end.
Proof.
  intros Hd H Hl. destruct H as [o r ex t ok Ht|p t fs tr Ht Hf|o r t Ht|src key template v l1 ls Hv Hv' Hm].
  - destruct Hl as [<-|[]]. exists sc, t. split; [ exact Ht | ]. constructor. apply join_joined. exact Hd.
  - apply in_map_iff in Hl as (f & <- & Hi). exists sc, t. split; [ exact Ht | ].
    apply (leads_glob _ _ _ (join2 dr t) tr); [ apply join_joined; exact Hd | rewrite <- Hf; exact Hi ].
  - destruct Hl as [<-|[]]. exact I.
  - clear Hv Hv'. induction Hm as [|y loc l1 ls (sc' & t & ok & _ & Ht & ->) _ IH]; [ destruct Hl | ].
    destruct Hl as [<-|Hl]; [ | exact (IH Hl) ]. exists sc', t. split; [ exact Ht | ]. constructor. apply join_joined. exact Hd.
Qed.

(** Full statement: the path of every resolved location is within the data
    directory of its entry.  False when what is put in for an expression goes up, see
    [C41_escape_refuted].  What is proved: it is where the text to be joined leads
    to from the data directory, and it is inside when that text never goes up
    further than it went down, which is as far as one can get without knowing the
    directory, see [C41_inside_exactly].  For a glob that is said of the pattern;
    which files match a pattern is up to the library. *)
Theorem C41_within_partial : forall w n root d e s e' s' ls l,
  root <> "" -> resolve_entry w (run w n) root d e s = (Ok e', s') ->
  e_locations e' = Some ls -> In l ls ->
  match l with
  | LPath o p _ => exists sc t, text_result w n sc o t /\ leads w (below root (e_datadir e')) t p
  | LUri _ _ => True
  | _ => False
  end.
Proof.
  intros w n root d e s e' s' ls l Hr E El Hl. apply resolve_ran in E as [_ R].
  assert (Hd : below root (e_datadir e') <> "").
  { unfold below. destruct (is_abs (e_datadir e')) eqn:A; [ intros C; rewrite C in A; discriminate | apply join_not_empty; exact Hr ]. }
  pose proof (rn_locations _ _ _ _ _ _ _ R) as L. destruct (e_locations e) as [ls0|]; [ | congruence ].
  destruct L as (lss & F & El'). rewrite El in El'. injection El' as ->.
  apply in_concat in Hl as (x & Hx & Hl). clear El.
  induction F as [|l0 x0 ls0 lss H _ IH]; [ destruct Hx | ]. destruct Hx as [->|Hx]; [ | exact (IH Hx) ].
  exact (location_leads _ _ _ _ _ _ _ Hd H Hl).
Qed.
Print Assumptions C41_within_partial.

(** The texts that stay inside of every data directory are those that never go
    up further than they went down. *)
Theorem C41_inside_exactly : forall t, keeps_inside t <-> forall dr, dr <> "" -> within dr (join2 dr t).
Proof. exact inside_exactly. Qed.
Print Assumptions C41_inside_exactly.

(** The path of a location without expressions that does not go up further than
    down is within the data directory, in any case. *)
Theorem C41_fixed_paths_within : forall w n root d e s e' s' ts ls o p ok,
  root <> "" -> resolve_entry w (run w n) root d e s = (Ok e', s') ->
  e_locations e = Some (map new_path ts) -> Forall (fun t => ~ has "%{" t /\ keeps_inside t) ts ->
  e_locations e' = Some ls -> In (LPath o p ok) ls ->
  within (below root (e_datadir e')) p.
Proof.
  intros w n root d e s e' s' ts ls o p ok Hr E E0 Hts El Hl. apply resolve_ran in E as [_ R].
  assert (Hd : below root (e_datadir e') <> "").
  { unfold below. destruct (is_abs (e_datadir e')) eqn:A; [ intros C; rewrite C in A; discriminate | apply join_not_empty; exact Hr ]. }
  pose proof (rn_locations _ _ _ _ _ _ _ R) as L. rewrite E0 in L.
  destruct L as (lss & F & El'). rewrite El in El'. injection El' as ->.
  apply in_concat in Hl as (x & Hx & Hl). clear El E0.
  revert lss F Hx. induction ts as [|t ts IH]; intros lss F Hx; inversion F as [|l0 x0 ? lss0 H F']; subst; [ destruct Hx | ].
  inversion Hts as [|? ? [P U] Hts']; subst. destruct Hx as [->|Hx]; [ | exact (IH Hts' lss0 F' Hx) ].
  unfold new_path in H. inversion H as [? ? ? t' ok' Ht| | |]; subst. destruct Hl as [Hl|[]]. injection Hl as <- <- <-.
  rewrite (text_plain _ _ _ _ _ P Ht). apply inside_within; assumption.
Qed.
Print Assumptions C41_fixed_paths_within.

(** The root of a configuration is never the empty text. *)
Theorem C41_root : forall env path content c, config_new env path content = Ok c -> c_root c <> "".
Proof.
  intros env path content c E. destruct content as [|x|v]; cbn [config_new] in E; [ injection E as <-; apply dir_not_empty | discriminate | ].
  destruct v as [| | | | | |m|]; try discriminate. destruct (cfg_type (VMap m)); [ | discriminate ]. unfold create_config in E.
  destruct (match mgets "defaults" m with Some (VMap d) => _ | Some _ => _ | None => _ end); try discriminate.
  cbn [obind] in E. destruct (match mgets "hierarchy" m with Some (VArr d) => _ | Some _ => _ | None => _ end); try discriminate.
  cbn [obind] in E. destruct (match mgets "default_hierarchy" m with Some (VArr d) => _ | Some _ => _ | None => _ end); try discriminate.
  cbn [obind] in E. injection E as <-. apply dir_not_empty.
Qed.
Print Assumptions C41_root.

(** A value of the scope that goes up makes the lookup read a file outside of
    the data directory: with id = ../../../etc/secret, nodes/%{id}.yaml is
    /etc/secret.yaml. *)
Definition w41 : world :=
  file_world [("/h/hiera.yaml", vmap [("version", VInt 5);
               ("hierarchy", VArr [vmap [("name", VStr "node"); ("path", VStr "nodes/%{id}.yaml")]])])]
             [("/etc/secret.yaml", vmap [("key", VStr "password")])].

Theorem C41_escape_refuted : exists w n sc k v p,
  look w n sc k None = Ok (Some v) /\
  In (EvYaml p) (s_trace (snd (run_lookup w n (mk_key k [PStr k]) None (init_st (ScMap sc) None)))) /\
  w_cfgpath w = "/h/hiera.yaml" /\ ~ within "/h/data" p /\ ~ within "/h" p.
Proof.
  exists w41, 9, [(VStr "id", VStr "../../../etc/secret")], "key", (VStr "password"), "/etc/secret.yaml".
  split; [ vm_compute; reflexivity | ]. split; [ vm_compute; tauto | ]. split; [ reflexivity | ].
  split; intro H; destruct (H [] (Forall_nil _)) as (ds & es & H1 & H2);
    apply reaches_place in H1, H2; try constructor; subst ds; vm_compute in H2; discriminate.
Qed.
Print Assumptions C41_escape_refuted.

Lemma not_up t : contains ".." t = false -> ~ goes_up t.
Proof. intros C (a & b & E & _). apply contains_not in C. apply C. exists a, b. exact E. Qed.

(** The expected use: the path of the node is within the data directory. *)
Example C41_within_example :
  exists e' s', resolve_entry w41 (run w41 5) "/h" None (mk_entry "" "" "" None None "node" (Some [LPath "nodes/%{id}.yaml" "" false]))
    (init_st (ScMap [(VStr "id", VStr "n1")]) None) = (Ok e', s') /\
  e_locations e' = Some [LPath "nodes/%{id}.yaml" "/h/data/nodes/n1.yaml" false] /\
  ~ goes_up "nodes/n1.yaml" /\ within (below "/h" (e_datadir e')) "/h/data/nodes/n1.yaml".
Proof.
  eexists. eexists. split; [ vm_compute; reflexivity | ]. split; [ reflexivity | ].
  assert (U : ~ goes_up "nodes/n1.yaml") by (apply not_up; reflexivity).
  split; [ exact U | ]. apply (join_within "/h/data" "nodes/n1.yaml"); [ discriminate | exact U ].
Qed.

Lemma up_and_down : keeps_inside "a/../b//c/../../d.yaml" /\ goes_up "a/../b//c/../../d.yaml" /\ ~ keeps_inside "a/../../d.yaml".
Proof.
  split; [ | split ].
  - exists ["a"; ".."; "b"; ""; "c"; ".."; ".."; "d.yaml"]. split; [ apply parts_split; reflexivity | ].
    apply sd_down; try discriminate. apply sd_up. apply sd_down; try discriminate. apply sd_stay; [ left; reflexivity | ].
    apply sd_down; try discriminate. apply sd_up. apply sd_up. apply sd_down; try discriminate. apply sd_end.
  - exists "a/", "/b//c/../../d.yaml". split; [ reflexivity | ]. split; right; [ exists "a" | exists "b//c/../../d.yaml" ]; reflexivity.
  - intros (ps & Hp & Hs). apply parts_split in Hp. vm_compute in Hp. subst ps.
    repeat match goal with
    | H : stays_down _ _ |- _ => inversion H; subst; clear H; try (intuition discriminate); try congruence
    end.
Qed.

Example C41_inside_example : forall dr, dr <> "" -> within dr (join2 dr "a/../b//c/../../d.yaml").
Proof. apply C41_inside_exactly. apply up_and_down. Qed.

Example C41_fixed_paths_example :
  exists e' s', resolve_entry w41 (run w41 5) "/h" None (mk_entry "d/../data" "" "" None None "node" (Some (map new_path ["a/b.yaml"; "a/../b//c/../../d.yaml"])))
    (init_st (ScMap []) None) = (Ok e', s') /\
  e_locations e' = Some [LPath "a/b.yaml" "/h/data/a/b.yaml" false; LPath "a/../b//c/../../d.yaml" "/h/data/d.yaml" false] /\
  Forall (fun t => ~ has "%{" t /\ keeps_inside t) ["a/b.yaml"; "a/../b//c/../../d.yaml"].
Proof.
  eexists. eexists. split; [ vm_compute; reflexivity | ]. split; [ reflexivity | ].
  constructor; [ split; [ now apply contains_not | apply not_up_inside, not_up; reflexivity ] | ].
  constructor; [ split; [ now apply contains_not | apply up_and_down ] | constructor ].
Qed.

Example C41_root_example : exists c, config_new [] "hiera.yaml" CfMissing = Ok c /\ c_root c = ".".
Proof. eexists. split; reflexivity. Qed.

(** ** C42 *)

(** One path for every element, in order, each the template interpolated with
    the key bound to the element and everything else as in the scope, whatever
    the variables hold. *)
Theorem C42_one_path_per_element : forall w n root d e s e' s' src key template,
  resolve_entry w (run w n) root d e s = (Ok e', s') -> e_locations e = Some [LMapped src key template] ->
  exists v l ps, scope_result w n (iv_scope (s_iv s)) src v /\ elements v l /\ e_locations e' = Some ps /\
    Forall2 (fun x p => exists sc t ok, bound (iv_scope (s_iv s)) key x sc /\ text_result w n sc template t /\
                        p = LPath template (join2 (below root (e_datadir e')) t) ok) l ps.
Proof.
  intros w n root d e s e' s' src key template E El. apply resolve_ran in E as [_ R].
  pose proof (rn_locations _ _ _ _ _ _ _ R) as L. rewrite El in L. destruct L as (lss & F & El').
  inversion F as [|? x ? ? H F']; subst. inversion F'; subst. inversion H as [| | |? ? ? v l ls Hv Hl Hm]; subst.
  exists v, l, x. split; [ exact Hv | ]. split; [ exact Hl | ]. split; [ rewrite El'; cbn; rewrite app_nil_r; reflexivity | exact Hm ].
Qed.
Print Assumptions C42_one_path_per_element.

Lemma stands_ext w sc sc' allow e r : (forall k, scope_get sc k = scope_get sc' k) -> stands_for w sc allow e r -> stands_for w sc' allow e r.
Proof.
  intros H [H1|arg H1 H2|arg x ps H1 H2 H3 H4|arg x ps v y H1 H2 H3 H4 H5 H6|arg x ps v H1 H2 H3 H4 H5 H6].
  - apply sf_empty; assumption.
  - apply sf_literal; assumption.
  - rewrite H in H4. exact (sf_unset _ _ _ _ arg x ps H1 H2 H3 H4).
  - rewrite H in H4. exact (sf_value _ _ _ _ arg x ps v y H1 H2 H3 H4 H5 H6).
  - rewrite H in H4. exact (sf_no_path _ _ _ _ arg x ps v H1 H2 H3 H4 H5 H6).
Qed.

Lemma expands_ext w sc sc' t t' : (forall k, scope_get sc k = scope_get sc' k) -> expands w sc t t' -> expands w sc' t t'.
Proof.
  intros H (cut & rs & last & A & B & C & D). exists cut, rs, last. repeat (split; [ assumption | ]).
  clear A B C. induction D as [|p r ps rs' Hp _ IH]; constructor; [ exact (stands_ext _ _ _ _ _ _ H Hp) | exact IH ].
Qed.

(** With settled variables the resolution succeeds and the paths are those that
    the template stands for. *)
Theorem C42_paths_are : forall w n on_disk matching root d e e0 s src key template v l ts,
  (forall t p, w_stat w t p = on_disk p) -> (forall t p, w_glob w t p = matching p) ->
  iv_expl (s_iv s) = false ->
  e_locations e = Some [LMapped src key template] ->
  (* the entry without its locations *)
  entry_resolved w on_disk matching (iv_scope (s_iv s)) (w_env w) root d (set_locations None e) e0 ->
  variable (iv_scope (s_iv s)) src v -> elements v l ->
  Forall2 (fun x t => exists sc, bound (iv_scope (s_iv s)) key x sc /\ expands w sc template t) l ts ->
  let dr := below root (e_datadir e0) in
  exists s', resolve_entry w (run w (S (S n))) root d e s =
    (Ok (set_locations (Some (map (fun t => LPath template (join2 dr t) (on_disk (join2 dr t))) ts)) e0), s').
Proof.
  intros w n od mt root d e e0 s src key template v l ts Hst Hgl Ho El H0 Hv Hl Hts dr.
  destruct (gives_entry w n od mt Hst Hgl (iv_scope (s_iv s)) root d e
    (set_locations (Some (map (fun t => LPath template (join2 dr t) (od (join2 dr t))) ts)) e0)) with (s := s) as (s' & E & _);
    [ | reflexivity | exact Ho | exists s'; exact E ].
  destruct H0 as [A B C D P O L]. constructor; try assumption. rewrite El.
  exists [map (fun t => LPath template (join2 dr t) (od (join2 dr t))) ts].
  split; [ | cbn; rewrite app_nil_r; reflexivity ]. constructor; [ | constructor ].
  apply (loc_mapped _ _ _ _ _ _ _ _ v l ts Hv Hl).
  clear - Hts. induction Hts as [|x t l ts (sc & Hb & Hx) _ IH]; constructor; [ | exact IH ].
  apply (expands_ext w sc); [ | exact Hx ]. intro k. rewrite (Hb k). cbn. rewrite String.eqb_sym. reflexivity.
Qed.
Print Assumptions C42_paths_are.

(** A variable that is not set, or holds neither text nor an array, gives no
    locations. *)
Theorem C42_nothing : forall w n root d e s e' s' src key template,
  resolve_entry w (run w n) root d e s = (Ok e', s') -> e_locations e = Some [LMapped src key template] ->
  (forall v, scope_result w n (iv_scope (s_iv s)) src (Some v) -> (forall t, v <> VStr t) /\ (forall l, v <> VArr l)) ->
  e_locations e' = Some [].
Proof.
  intros w n root d e s e' s' src key template E El H.
  destruct (C42_one_path_per_element _ _ _ _ _ _ _ _ _ _ _ E El) as (v & l & ps & Hv & Hl & Ep & Hp).
  assert (l = []) as ->.
  { destruct Hl as [t|l'| |v' _ _]; [ destruct (proj1 (H _ Hv) t eq_refl) | destruct (proj2 (H _ Hv) l' eq_refl) | reflexivity | reflexivity ]. }
  inversion Hp; subst. exact Ep.
Qed.
Print Assumptions C42_nothing.

Definition mapped42 : entry := mk_entry "" "" "" None None "m" (Some [LMapped "roles.all" "r" "%{env}/%{r}.yaml"]).
Definition sc42 : entries :=
  [(VStr "env", VStr "prod"); (VStr "r", VStr "other"); (VStr "roles", vmap [("all", VArr [VStr "db"; VStr "web"; VInt 3])])].
Example C42_one_path_example :
  exists e' s', resolve_entry (file_world [] []) (run (file_world [] []) 6) "/h" None mapped42 (init_st (ScMap sc42) None) = (Ok e', s') /\
  e_locations e' = Some [LPath "%{env}/%{r}.yaml" "/h/data/prod/db.yaml" false; LPath "%{env}/%{r}.yaml" "/h/data/prod/web.yaml" false;
                         LPath "%{env}/%{r}.yaml" "/h/data/prod/3.yaml" false].
Proof. eexists. eexists. split; vm_compute; reflexivity. Qed.

Lemma no_parens y : contains "(" y = false -> forall name a, ~ calls y name a.
Proof.
  intros H name a (q & _ & E & _). apply contains_not in H. apply H. exists name, (String q a ++ String q ")")%string. exact E.
Qed.

Lemma simple_variable w sc y v : new_key y = Ok (mk_key y [PStr y]) -> trim_space y = y ->
  ~ In y [""; "::"; """"""; "''"; """::"""; "'::'"] -> contains "(" y = false ->
  scope_get sc y = Some v -> settled v -> stands_for w sc false y (vstring w v).
Proof.
  intros Hk Ht Hn Hc Hv Hs. apply (sf_value _ _ _ _ y y [] v v); rewrite ?Ht; try assumption.
  - right. split; [ reflexivity | exact (no_parens y Hc) ].
  - apply new_key_written in Hk as (ps & E & W). injection E as <-. exact W.
  - apply dig_parts_path. reflexivity.
Qed.

Example C42_paths_are_example :
  variable (ScMap sc42) "roles.all" (Some (VArr [VStr "db"; VStr "web"; VInt 3])) /\
  Forall2 (fun x t => exists sc, bound (ScMap sc42) "r" x sc /\ expands (file_world [] []) sc "%{env}/%{r}.yaml" t)
    [VStr "db"; VStr "web"; VInt 3] ["prod/db.yaml"; "prod/web.yaml"; "prod/3.yaml"].
Proof.
  split.
  - apply (var_value _ _ "roles" [PStr "all"] (vmap [("all", VArr [VStr "db"; VStr "web"; VInt 3])]) _).
    + assert (Hk : new_key "roles.all" = Ok (mk_key "roles.all" [PStr "roles"; PStr "all"])) by reflexivity.
      apply new_key_written in Hk as (ps & E & W). injection E as <-. exact W.
    + reflexivity.
    + apply settled_by. reflexivity.
    + apply dig_parts_path. reflexivity.
  - assert (G : forall x t, plain x = true -> vstring (file_world [] []) x = t ->
      exists sc, bound (ScMap sc42) "r" x sc /\ expands (file_world [] []) sc "%{env}/%{r}.yaml" ("prod/" ++ t ++ ".yaml")).
    { intros x t Px <-. exists (ScVar (ScMap sc42) "r" x). split; [ apply bound_var | ].
      exists [("", "env"); ("/", "r")], ["prod"; vstring (file_world [] []) x], ".yaml".
      split; [ | split; [ reflexivity | split; [ reflexivity | ] ] ].
      - split; [ | intros (a & b & c & E); assert (contains "%{" ".yaml" = false) as C by reflexivity; apply contains_not in C; apply C;
                   exists a, (b ++ "}" ++ c)%string; exact E ].
        repeat constructor; cbn [fst snd]; apply contains_not; reflexivity.
      - constructor; [ | constructor; [ | constructor ] ]; cbn [snd].
        + change "prod" with (vstring (file_world [] []) (VStr "prod")). apply simple_variable; try reflexivity; [ | apply settled_by; reflexivity ].
          cbn. intuition discriminate.
        + apply simple_variable; try reflexivity; [ | apply settled_by; exact Px ]. cbn. intuition discriminate. }
    constructor; [ exact (G (VStr "db") "db" eq_refl eq_refl) | ].
    constructor; [ exact (G (VStr "web") "web" eq_refl eq_refl) | ].
    constructor; [ exact (G (VInt 3) "3" eq_refl eq_refl) | constructor ].
Qed.

Example C42_nothing_example :
  exists e' s', resolve_entry (file_world [] []) (run (file_world [] []) 6) "/h" None mapped42 (init_st (ScMap [(VStr "roles", VInt 1)]) None) = (Ok e', s') /\
  e_locations e' = Some [].
Proof. eexists. eexists. split; vm_compute; reflexivity. Qed.

(** ** C43 *)

(** What changes the scope only if it does not return normally. *)
Definition scope_back : rel := fun A m _ => forall s a s', m s = (Ok a, s') -> iv_scope (s_iv s') = iv_scope (s_iv s).

Lemma scope_back_full : full scope_back.
Proof.
  constructor.
  - intros A o s a s' E. injection E as _ <-. reflexivity.
  - intros A B m m' f f' Hm Hf s b s' E. apply bind_ok in E as (a & s1 & E1 & E2).
    rewrite (Hf a _ _ _ E2). exact (Hm _ _ _ E1).
  - intros A o s a s' E. destruct o; unfold run_op in E; try (injection E as _ <-; reflexivity).
    destruct (iv_expl (s_iv s)); [ destruct (xaccept r (s_ex s)) | ]; try discriminate; injection E as _ <-; reflexivity.
  - intros A sc m m' Hne H s a s' E. destruct sc; unfold run_scoped in E; try congruence.
    + destruct (iv_expl (s_iv s)); [ | exact (H _ _ _ E) ]. destruct (xpush k init (s_ex s)); [ | discriminate ].
      destruct (m _) as [o s1] eqn:E1. injection E as -> <-. exact (H _ _ _ E1).
    + destruct (iv_mode (s_iv s)); try exact (H _ _ _ E); unfold with_copy in E; destruct (m _) as [o s1]; injection E as _ <-; reflexivity.
    + destruct (iv_mode (s_iv s)); try exact (H _ _ _ E); unfold with_copy in E; destruct (m _) as [o s1]; injection E as _ <-; reflexivity.
    + destruct (m _) as [[x|x| |] s1]; try discriminate. injection E as _ <-. reflexivity.
    + destruct (iv_redacted (s_iv s)); [ exact (H _ _ _ E) | ]. destruct (m _) as [o s1] eqn:E1. injection E as -> <-. exact (H _ _ _ E1).
    + destruct (ps_locked _); [ discriminate | ]. destruct (m _) as [o s1] eqn:E1. injection E as -> <-. exact (H _ _ _ E1).
  - intros A m m' _ _ H s a s' E. unfold run_scoped in E. destruct (iv_expl (s_iv s)); [ | exact (H _ _ _ E) ].
    unfold with_copy in E. destruct (m _) as [o s1]. injection E as _ <-. reflexivity.
Qed.

(** Full statement: after resolving a configuration the scope is what it was,
    whatever the outcome.  False when the resolution panics, see
    [C43_panic_refuted].  Proved: when it succeeds, the whole invocation is as
    before ... *)
Theorem C43_resolved_partial : forall w n c es s ps s',
  create_providers w (run w n) c es s = (Ok ps, s') -> s_iv s' = s_iv s.
Proof. intros w n c es s ps s' E. apply create_providers_ran in E. tauto. Qed.
Print Assumptions C43_resolved_partial.

(** ... so is the scope after any lookup that returns, with everything it
    resolved on the way ... *)
Theorem C43_lookup_partial : forall w n k opts s v s',
  run_lookup w n k opts s = (Ok v, s') -> iv_scope (s_iv s') = iv_scope (s_iv s).
Proof.
  intros w n k opts s v s' E. unfold run_lookup in E. apply bind_ok in E as (r & s1 & E1 & E2). injection E2 as _ <-.
  exact (c_run w scope_back (full_closed w _ scope_back_full) n _ _ _ _ E1).
Qed.
Print Assumptions C43_lookup_partial.

(** ... and with an explainer also when resolving it fails or does not end, since a
    copy of the invocation is used. *)
Theorem C43_explained_partial : forall w rec c m s,
  iv_expl (s_iv s) = true -> iv_mode (s_iv s) <> MdLookup ->
  s_iv (snd (resolve_config w rec c m s)) = s_iv s.
Proof.
  intros w rec c m s He Hm. unfold resolve_config, bind at 1.
  assert (Q : forall A (x : M st A), s_iv (snd (run_scoped SConfig x s)) = s_iv s).
  { intros A x. unfold run_scoped. rewrite He. unfold with_copy. destruct (x _) as [o s1]. reflexivity. }
  match goal with |- context [run_scoped SConfig ?x s] => specialize (Q _ x); destruct (run_scoped SConfig x s) as [[pd|x1| |] s1] end;
    cbn [snd] in *; try exact Q.
  unfold bind at 1, lift. destruct (new_key "lookup_options") as [k|x1| |]; cbn [snd]; try exact Q.
  unfold bind at 1.
  assert (Q2 : forall A (x : M st A), s_iv (snd (run_scoped SLookup x s1)) = s_iv s).
  { intros A x. unfold run_scoped. rewrite Q. destruct (iv_mode (s_iv s)); try congruence;
      unfold with_copy; destruct (x _) as [o s2]; exact Q. }
  match goal with |- context [run_scoped SLookup ?x s1] => specialize (Q2 _ x); destruct (run_scoped SLookup x s1) as [[v|x2| |] s2] end; exact Q2.
Qed.
Print Assumptions C43_explained_partial.

(** However it ends: the invocation is what it was, or, when resolving has not
    returned, at most the variable of one of the mapped_paths of the configuration
    stays in front of its scope. *)
Definition maps_over (c : config) (k : string) : Prop :=
  exists e ls src t, In e (c_defaults c :: c_hierarchy c ++ c_default_hierarchy c) /\ e_locations e = Some ls /\ In (LMapped src k t) ls.

Theorem C43_any_outcome_partial : forall w n c m s o s', iv_mode (s_iv s) <> MdLookup ->
  resolve_config w (run w n) c m s = (o, s') ->
  s_iv s' = s_iv s \/
  ((forall rc, o <> Ok rc) /\ exists k v, maps_over c k /\ s_iv s' = iv_with_scope (ScVar (iv_scope (s_iv s)) k v) (s_iv s)).
Proof.
  intros w n c m s o s' Hm E.
  assert (L : leaves (maps_over c) (bind (create_providers w (run w n) c (c_hierarchy c)) (fun ps =>
                bind (create_providers w (run w n) c (c_default_hierarchy c)) (fun ds => ret (ps, ds))))).
  { apply leaves_bind; [ | intro ps; apply leaves_bind; [ | intro; apply leaves_still, still_ret ] ].
    - apply leaves_providers; [ apply still_run | ]. intros e k He (ls & l & El & Hl & (src & t & ->)). exists e, ls, src, t.
      split; [ | auto ]. destruct He as [He|He]; [ now left | right; apply in_or_app; now left ].
    - apply leaves_providers; [ apply still_run | ]. intros e k He (ls & l & El & Hl & (src & t & ->)). exists e, ls, src, t.
      split; [ | auto ]. destruct He as [He|He]; [ now left | right; apply in_or_app; now right ]. }
  assert (Lc : leaves (maps_over c) (run_scoped SConfig (bind (create_providers w (run w n) c (c_hierarchy c)) (fun ps =>
                bind (create_providers w (run w n) c (c_default_hierarchy c)) (fun ds => ret (ps, ds)))))).
  { intro x. unfold run_scoped. destruct (iv_expl (s_iv x)); [ | apply L ]. unfold with_copy.
    match goal with |- context [let (_, _) := ?y in _] => destruct y as [o1 s1] end. split; [ left; reflexivity | reflexivity ]. }
  clear L. unfold resolve_config in E. unfold bind at 1 in E. specialize (Lc s).
  match type of Lc with context [run_scoped SConfig ?x s] => set (cp := x) in * end.
  destruct (run_scoped SConfig cp s) as [[pd|x1| |] s1]; cbn [fst snd] in Lc.
  2,3,4: injection E as <- <-; destruct Lc as [[Lc|Lc] _]; [ left; exact Lc | right; split; [ discriminate | exact Lc ] ].
  destruct Lc as [_ Q]. specialize (Q pd eq_refl). left.
  unfold bind at 1, lift in E. destruct (new_key "lookup_options") as [k|x1| |]; try (injection E as _ <-; exact Q).
  unfold bind at 1 in E.
  assert (Q2 : forall A (x : M st A), s_iv (snd (run_scoped SLookup x s1)) = s_iv s).
  { intros A x. unfold run_scoped. rewrite Q. destruct (iv_mode (s_iv s)); try congruence;
      unfold with_copy; destruct (x _) as [o2 s2]; exact Q. }
  match type of E with context [run_scoped SLookup ?x s1] => specialize (Q2 _ x); destruct (run_scoped SLookup x s1) as [[v|x2| |] s2] end;
    injection E as _ <-; exact Q2.
Qed.
Print Assumptions C43_any_outcome_partial.

(** Without mapped_paths the invocation is what it was, however it ends. *)
Theorem C43_unmapped_partial : forall w n c m s, iv_mode (s_iv s) <> MdLookup -> (forall k, ~ maps_over c k) ->
  s_iv (snd (resolve_config w (run w n) c m s)) = s_iv s.
Proof.
  intros w n c m s Hm Hc. destruct (resolve_config w (run w n) c m s) as [o s'] eqn:E.
  destruct (C43_any_outcome_partial w n c m s o s' Hm E) as [H|(_ & k & v & Hk & _)]; [ exact H | elim (Hc k Hk) ].
Qed.
Print Assumptions C43_unmapped_partial.

(** A path with a method: resolving panics, and no variable is left behind. *)
Example C43_unmapped_example :
  let c := mk_config "/h" "" (mk_entry "data" "" "" None (Some (mk_fdef KDataHash "yaml_data")) "" None)
       [mk_entry "" "" "" None None "m" (Some [LPath "%{lookup('x')}" "" false])] [] in
  (forall k, ~ maps_over c k) /\
  exists x, fst (resolve_config (file_world [] []) (run (file_world [] []) 6) c "" (init_st (ScMap [(VStr "roles", VStr "db")]) None)) = Panic x.
Proof.
  split.
  - intros k (e & ls & src & t & He & El & Hl). cbn in He. destruct He as [<-|[<-|[]]]; cbn in El; [ discriminate El | ]. injection El as <-.
    destruct Hl as [Hl|[]]. discriminate Hl.
  - eexists. vm_compute. reflexivity.
Qed.
(** The configuration of the next theorem binds a variable. *)
Example C43_any_outcome_example :
  maps_over (mk_config "/h" "" (mk_entry "data" "" "" None (Some (mk_fdef KDataHash "yaml_data")) "" None)
       [mk_entry "" "" "" None None "m" (Some [LMapped "roles" "r" "%{lookup('x')}"])] []) "r" /\
  iv_mode (s_iv (init_st (ScMap [(VStr "roles", VStr "db")]) None)) <> MdLookup.
Proof. split; [ | discriminate ]. do 4 eexists. split; [ right; left; reflexivity | ]. split; [ reflexivity | left; reflexivity ]. Qed.

(** When the template of mapped_paths uses a method the resolution panics, and
    the scope stays the one with the key bound. *)
Theorem C43_panic_refuted : exists w n c s x,
  fst (resolve_config w (run w n) c "" s) = Panic x /\
  exists k v, scope_get (iv_scope (s_iv s)) k = None /\
    scope_get (iv_scope (s_iv (snd (resolve_config w (run w n) c "" s)))) k = Some v.
Proof.
  exists (file_world [] []), 6,
    (mk_config "/h" "" (mk_entry "data" "" "" None (Some (mk_fdef KDataHash "yaml_data")) "" None)
       [mk_entry "" "" "" None None "m" (Some [LMapped "roles" "r" "%{lookup('x')}"])] []),
    (init_st (ScMap [(VStr "roles", VStr "db")]) None).
  eexists. split; [ vm_compute; reflexivity | ]. exists "r", (VStr "db"). split; vm_compute; reflexivity.
Qed.
Print Assumptions C43_panic_refuted.

Example C43_resolved_example :
  exists ps s', create_providers (file_world [] []) (run (file_world [] []) 6)
    (mk_config "/h" "" (mk_entry "data" "" "" None (Some (mk_fdef KDataHash "yaml_data")) "" None) [mapped42] []) [mapped42]
    (init_st (ScMap sc42) None) = (Ok ps, s') /\ List.length ps = 1.
Proof. eexists. eexists. split; vm_compute; reflexivity. Qed.

Definition w43 : world :=
  file_world [("/h/hiera.yaml", vmap [("version", VInt 5);
               ("hierarchy", VArr [vmap [("name", VStr "m"); ("mapped_paths", VArr [VStr "roles"; VStr "r"; VStr "%{r}.yaml"])]])])]
             [("/h/data/db.yaml", vmap [("key", VStr "%{r}-x")])].
Example C43_lookup_example :
  exists v s', run_lookup w43 9 (mk_key "key" [PStr "key"]) None (init_st (ScMap [(VStr "roles", VArr [VStr "db"])]) None) = (Ok (Some v), s') /\
  v = VStr "-x".
Proof. eexists. eexists. split; vm_compute; reflexivity. Qed.

Example C43_explained_example :
  exists x, fst (resolve_config (file_world [] []) (run (file_world [] []) 6)
    (mk_config "/h" "" (mk_entry "data" "" "" None (Some (mk_fdef KDataHash "yaml_data")) "" None)
       [mk_entry "" "" "" None None "m" (Some [LMapped "roles" "r" "%{lookup('x')}"])] []) ""
    (init_st (ScMap [(VStr "roles", VStr "db")]) (Some (new_explainer true false)))) = Panic x.
Proof. eexists. vm_compute. reflexivity. Qed.

(** ** C44 *)

Definition env_or_plugin (w : world) (p : string) : Prop :=
  match lookup_env (w_env w) "HIERA_PLUGINDIR" with Some x => p = x | None => p = "plugin" end.

(** Full statement: an entry without plugindir has the plugin directory of the
    defaults, which is the root joined with the configured directory unless that is
    absolute.  False with a relative root, see [C44_relative_root_refuted]. *)
Theorem C44_inherited_partial : forall w n root d e s e' s' d0 s0 d1,
  is_abs root = true ->
  resolve_entry w (run w n) root None d0 s0 = (Ok d, d1) ->
  resolve_entry w (run w n) root (Some d) e s = (Ok e', s') -> e_plugindir e = "" ->
  e_plugindir e' = e_plugindir d /\
  exists p, e_plugindir d = below root p /\
    (e_plugindir d0 <> "" -> text_result w n (iv_scope (s_iv s0)) (e_plugindir d0) p) /\
    (e_plugindir d0 = "" -> env_or_plugin w p).
Proof.
  intros w n root d e s e' s' d0 s0 d1 Ha E0 E He.
  apply resolve_ran in E0 as [_ R0]. apply resolve_ran in E as [_ R].
  destruct (rn_plugindir _ _ _ _ _ _ _ R0) as (p & Dp & Ep). destruct (rn_plugindir _ _ _ _ _ _ _ R) as (q & Dq & Eq).
  rewrite He in Dq. apply ran_dir_cases in Dq as [[C _]|[_ ->]]; [ congruence | ]. split.
  - rewrite Eq, Ep. unfold below at 2. destruct (is_abs p) eqn:A; unfold below.
    + rewrite A. reflexivity.
    + rewrite A. rewrite join_abs by exact Ha. reflexivity.
  - exists p. split; [ exact Ep | ]. apply ran_dir_cases in Dp as [[C T]|[C ->]]; (split; intro X; [ | ]); try congruence; try exact T.
    unfold env_or_plugin, default_plugindir. destruct (lookup_env (w_env w) "HIERA_PLUGINDIR"); reflexivity.
Qed.
Print Assumptions C44_inherited_partial.

(** With a relative root the directory is joined with the root twice. *)
Theorem C44_relative_root_refuted : exists w n c es s ps s' p,
  create_providers w (run w n) c es s = (Ok ps, s') /\ c_root c = "conf" /\
  map e_plugindir es = [""] /\ e_plugindir (c_defaults c) = p /\
  map (fun x => e_plugindir (p_entry x)) ps = ["conf/conf/plugin"] /\ below (c_root c) p = "conf/plugin".
Proof.
  exists (file_world [] []), 5,
    (mk_config "conf" "" (mk_entry "data" "plugin" "" None (Some (mk_fdef KDataHash "yaml_data")) "" None) [] []),
    [mk_entry "" "" "" None None "e" None], (init_st (ScMap []) None).
  eexists. eexists. exists "plugin". split; [ vm_compute; reflexivity | ]. repeat split; vm_compute; reflexivity.
Qed.
Print Assumptions C44_relative_root_refuted.

(** How far the claim holds: with a relative root that goes up [k] directories and then
    down along [es], an entry without plugindir has the directory of the defaults joined
    with the root once more.  That is the same directory exactly if the directory is
    absolute or the root goes down as many directories as it goes up (as "." does). *)
Theorem C44_exactly : forall w n k es d e s e' s' d0 s0 d1,
  let root := spelled false (repeat ".." k ++ es) in
  Forall name es ->
  resolve_entry w (run w n) root None d0 s0 = (Ok d, d1) ->
  resolve_entry w (run w n) root (Some d) e s = (Ok e', s') -> e_plugindir e = "" ->
  exists p,
    (e_plugindir d0 <> "" -> text_result w n (iv_scope (s_iv s0)) (e_plugindir d0) p) /\
    (e_plugindir d0 = "" -> env_or_plugin w p) /\
    e_plugindir d = below root p /\ e_plugindir e' = below root (below root p) /\
    (e_plugindir e' = e_plugindir d <-> absolute p \/ length es = k).
Proof.
  intros w n k es d e s e' s' d0 s0 d1 root Hes E0 E He.
  apply resolve_ran in E0 as [_ R0]. apply resolve_ran in E as [_ R].
  destruct (rn_plugindir _ _ _ _ _ _ _ R0) as (p & Dp & Ep). destruct (rn_plugindir _ _ _ _ _ _ _ R) as (q & Dq & Eq).
  rewrite He in Dq. apply ran_dir_cases in Dq as [[C _]|[_ ->]]; [ congruence | ].
  assert (Rr : root <> "") by (apply spelled_not_empty, ups_elements; exact Hes).
  assert (Ar : is_abs root = false) by (apply spelled_head, ups_elements; exact Hes).
  exists p. split; [ | split; [ | split; [ exact Ep | split ] ] ].
  - intro X. apply ran_dir_cases in Dp as [[_ T]|[C _]]; [ exact T | congruence ].
  - intro X. apply ran_dir_cases in Dp as [[C _]|[_ ->]]; [ congruence | ].
    unfold env_or_plugin, default_plugindir. destruct (lookup_env (w_env w) "HIERA_PLUGINDIR"); reflexivity.
  - rewrite Eq, Ep. reflexivity.
  - rewrite Eq, Ep. unfold below at 2 3. rewrite absolute_is. destruct (is_abs p) eqn:A; unfold below.
    + rewrite A. tauto.
    + rewrite ?A, join_is_abs, Ar by exact Rr. cbv iota. pose proof (joined_twice k es p Hes A) as J. cbv zeta in J. fold root in J. rewrite J. split; [ auto | intros [X|X]; [ discriminate | exact X ] ].
Qed.
Print Assumptions C44_exactly.

(** A root one directory up and down again keeps the directory, a root two up does not. *)
Example C44_exactly_ex :
  let go root := match resolve_entry (file_world [] []) (run (file_world [] []) 5) root None (mk_entry "data" "plugin" "" None None "" None) (init_st (ScMap []) None) with
    | (Ok d, s) => match fst (resolve_entry (file_world [] []) (run (file_world [] []) 5) root (Some d) (mk_entry "" "" "" None None "e" None) s) with
        Ok e' => Some (e_plugindir d, e_plugindir e') | _ => None end
    | _ => None end in
  go (spelled false (repeat ".." 1 ++ ["conf"])) = Some ("../conf/plugin", "../conf/plugin") /\
  go (spelled false (repeat ".." 0 ++ [])) = Some ("plugin", "plugin") /\
  go (spelled false (repeat ".." 2 ++ [])) = Some ("../../plugin", "../../../../plugin") /\ Forall name ["conf"].
Proof.
  repeat split; try (vm_compute; reflexivity). repeat constructor; try discriminate. cbn. intuition discriminate.
Qed.

Example C44_inherited_example :
  exists d d1 e' s',
    resolve_entry (file_world [] []) (run (file_world [] []) 5) "/h" None (mk_entry "data" "plug%{x}" "" None None "" None) (init_st (ScMap [(VStr "x", VStr "ins")]) None) = (Ok d, d1) /\
    resolve_entry (file_world [] []) (run (file_world [] []) 5) "/h" (Some d) (mk_entry "" "" "" None None "e" None) d1 = (Ok e', s') /\
    e_plugindir e' = "/h/plugins".
Proof. do 4 eexists. split; [ vm_compute; reflexivity | ]. split; vm_compute; reflexivity. Qed.
