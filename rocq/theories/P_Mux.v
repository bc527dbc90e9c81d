(** The function that asks several functions: C58. *)

From Coq Require Import String List ZArith Bool Arith Lia.
From Verif Require Import Str Value Outcome Key Merge Fpath Config Ipl Explain State Engine Worlds Meta Kept ValueFacts Session.
From Verif Require Import SpecMerge MergeFacts MergeLookup SpecIpl InterpFacts IplExact SpecConfig SpecLookup LookupTop P_Options HierarchyExact.
Import ListNotations.
Open Scope string_scope.
Open Scope list_scope.
Open Scope bool_scope.
Open Scope monad_scope.

(** ** The specification *)

(** The state in which the functions are asked for lookup options. *)
Definition searching (s : st) : st := with_iv (iv_with_mode MdLookup (s_iv s)) s.

(** The state in which they are asked for data: lookup options and strategy are
    set. *)
Definition gathering (lo : option entries) (g : strategy) (s s1 : st) : st :=
  with_iv (iv_with_strat (Some g) (iv_with_luopts lo (iv_with_mode MdData (s_iv s)))) s1.

(** What is made of the answers: first takes the first value and asks no one
    after it, the others ask all and merge. *)
Inductive taken {L} (f : L -> M st (option value)) : strategy -> list L -> st -> option value -> st -> Prop :=
| tk_first : forall pre x post s outs s1 v s2, consults f pre s outs s1 -> (forall o, In o outs -> o = None) ->
    f x s1 = (Ok (Some v), s2) -> taken f SFirst (pre ++ x :: post) s (Some v) s2
| tk_none : forall vs s outs s1, consults f vs s outs s1 -> (forall o, In o outs -> o = None) -> taken f SFirst vs s None s1
| tk_merge : forall g vs s outs s1, g <> SFirst -> consults f vs s outs s1 -> taken f g vs s (pure_lookup g outs) s1.

(** ** Merging with no explainer *)

Section Off.
  Context {L : Type}.
  Variable f : L -> M st (option value).
  Hypothesis Hoff : forall x s, off s -> off (snd (f x s)).

  Lemma merging_off g vs s outs s' : off s -> g <> SFirst -> consults f vs s outs s' ->
    merging g vs f s = (Ok (pure_lookup g outs), s').
  Proof.
    intros Hs Hg H.
    assert (R : forall x y r, vs = x :: y :: r ->
      with_merge g (bind (merge_loop f g None vs) (report_some report_result)) s = (Ok (pure_lookup g outs), s')).
    { intros x y r ->. unfold with_merge. rewrite node_off by exact Hs. unfold bind.
      pose proof (merge_off f Hoff g (x :: y :: r) None s Hs) as O.
      rewrite (merge_loop_eq f g (x :: y :: r) None s outs s' H) in *. cbn [snd] in O.
      rewrite report_some_off by exact O. inversion H as [|? ? ? v s1 outs' ? Hx Hr]; subst. inversion Hr; subst.
      unfold pure_lookup. destruct g; [ congruence | reflexivity .. ]. }
    unfold merging, merge_lookup. destruct g; [ congruence | | | ];
      (destruct vs as [|x [|y r]];
       [ inversion H; subst; reflexivity
       | inversion H as [|? ? ? v s1 outs' ? Hx Hr]; subst; inversion Hr; subst; unfold bind; rewrite Hx; reflexivity
       | exact (R x y r eq_refl) ]).
  Qed.

  Lemma merging_taken g vs s o s' : off s -> taken f g vs s o s' -> merging g vs f s = (Ok o, s').
  Proof.
    intros Hs H. destruct H as [pre x post s outs s1 v s2 C N E|vs s outs s1 C N|g vs s outs s1 Hg C].
    - rewrite (merging_first f Hoff _ s Hs). rewrite (first_loop_stop f pre s outs s1 x post C N). cbn [first_loop].
      unfold bind. rewrite E. reflexivity.
    - rewrite (merging_first f Hoff _ s Hs). exact (first_loop_none f vs s outs s1 C N).
    - exact (merging_off g vs s outs s1 Hs Hg C).
  Qed.
End Off.

Lemma call_off w n opts key : forall f s, off s -> off (snd (call_lk w (run w n) f opts key s)).
Proof.
  intros f s H. unfold off.
  rewrite (kp_expl _ _ (c_call_lk w (steps kept) (kept_closed w) (run w n) (run w n) (c_run w _ (kept_closed w) n)
    ltac:(intro; apply quiet_run) ltac:(intro; apply quiet_run) f opts key s)).
  exact H.
Qed.

Lemma merge_run opts lo mo g s : off s -> merge_option (Some opts) lo mo -> strategy_is mo g ->
  set_merge (mgets "merge" opts) lo s = (Ok tt, with_iv (iv_with_strat (Some g) (iv_with_luopts lo (s_iv s))) s).
Proof.
  intros Ho Hm Hs. unfold set_merge.
  assert (E : (match mgets "merge" opts, lo with
               | Some v, _ => bind (run_op (OReport (RMergeSource "CLI option"))) (fun _ => ret (Some v))
               | None, Some m =>
                   match mgets "merge" m with
                   | Some v => bind (run_op (OReport (RMergeSource """lookup_options"" hash"))) (fun _ => ret (Some v))
                   | None => ret None
                   end
               | None, None => ret None
               end) s = (Ok mo, s)).
  { destruct Hm as [o v E Hv|l v Hn -> Hv|Hn Hl].
    - injection E as <-. rewrite Hv. unfold bind. rewrite report_off by exact Ho. reflexivity.
    - rewrite (Hn _ eq_refl), Hv. unfold bind. rewrite report_off by exact Ho. reflexivity.
    - rewrite (Hn _ eq_refl). destruct lo as [l|]; [ rewrite (Hl l eq_refl) | ]; reflexivity. }
  unfold bind at 1. rewrite E. unfold bind, lift, run_op. rewrite (strategy_model _ _ Hs). reflexivity.
Qed.

(** ** C58 *)

(** How the values are merged is decided by the merge option, or else by the
    merge entry of what the functions answer when they are asked for lookup
    options; and the value is that strategy over what they answer when they are
    asked for data, in the order in which they are registered. *)
Theorem C58_decided w n fs opts key k s outs s1 lo mo g o s2 :
  iv_expl (s_iv s) = false -> iv_mode (s_iv s) = MdTop -> w_mux w = Some fs -> new_key key = Ok k ->
  consults (fun f => call_lk w (run w n) f opts key) fs (searching s) outs s1 ->
  lo = as_map (pure_lookup (SDeep []) outs) -> conversion_is lo None ->
  merge_option (Some opts) lo mo -> strategy_is mo g ->
  taken (fun f => call_lk w (run w n) f opts key) g fs (gathering lo g s s1) o s2 ->
  mux_lookup w (run w n) opts key s = (Ok o, with_iv (s_iv s) s2).
Proof.
  intros X Md W K C Elo Cv Mo Sg T. unfold mux_lookup. rewrite W.
  assert (Xe : forall b, iv_with_expl (iv_expl (s_iv s) && b) (s_iv s) = s_iv s).
  { intro b. rewrite X. cbn [andb]. destruct (s_iv s). cbn in X. subst. reflexivity. }
  pose proof (call_off w n opts key) as Hoff.
  unfold bind at 1. unfold run_scoped at 1. rewrite Md. unfold with_copy at 1. rewrite Xe. fold (searching s).
  assert (O1 : off (searching s)) by exact X.
  rewrite (merging_off (fun f => call_lk w (run w n) f opts key) Hoff (SDeep []) fs (searching s) outs s1 O1 ltac:(discriminate) C). cbv beta iota zeta.
  unfold run_scoped at 1. cbn [with_iv s_iv]. rewrite Md. unfold with_copy at 1. cbn [with_iv s_iv s_ex].
  assert (Xe2 : iv_with_expl (iv_expl (s_iv s) && negb (x_only (s_ex s1))) (s_iv s) = s_iv s) by apply Xe.
  rewrite Xe2. unfold bind at 1. unfold lift at 1. rewrite K.
  rewrite node_off by exact X. unfold bind at 1.
  rewrite <- Elo.
  rewrite (merge_run opts lo mo g (with_iv (iv_with_mode MdData (s_iv s)) (with_iv (s_iv s) s1)) X Mo Sg).
  change (with_iv _ (with_iv _ (with_iv _ s1))) with (gathering lo g s s1).
  unfold lookup_and_convert, extract_conversion. unfold bind at 1. unfold bind at 1. unfold run_op at 1.
  change (iv_luopts (s_iv (gathering lo g s s1))) with lo.
  rewrite (conversion_model lo None Cv). cbn [option_map ret lift].
  unfold bind at 1. unfold bind at 1. unfold run_op at 1. change (iv_strat (s_iv (gathering lo g s s1))) with (Some g).
  cbv beta iota zeta.
  rewrite (merging_taken (fun f => call_lk w (run w n) f opts key) Hoff g fs (gathering lo g s s1) o s2 X T). destruct o; reflexivity.
Qed.

(** With no merge option, and when no function answers the question for lookup
    options with a map, the value is the one of the first function that has the
    key; the functions after it are not asked for data. *)
Lemma deep_no_map o a b : is_map a = false -> is_map (merge2 (SDeep o) a b) = false.
Proof.
  intro H. cbn [merge2]. unfold Deep. destruct a; try discriminate H; destruct b; try reflexivity; cbn.
  all: repeat match goal with |- context [match ?x with _ => _ end] => destruct x; try reflexivity end.
Qed.

Lemma deep_fold_no_map o vs : forall a, is_map a = false -> is_map (fold_left (merge2 (SDeep o)) vs a) = false.
Proof. induction vs as [|v vs IH]; intros a H; [ exact H | ]. cbn [fold_left]. apply IH. apply deep_no_map. exact H. Qed.

Lemma found_in v outs : In v (found outs) <-> In (Some v) outs.
Proof.
  induction outs as [|[x|] outs IH]; cbn [found In]; [ reflexivity | | ].
  - rewrite IH. split; [ intros [->|]; auto | intros [E|]; [ injection E; auto | auto ] ].
  - rewrite IH. split; [ auto | intros [E|]; [ discriminate | auto ] ].
Qed.

Lemma no_options outs : (forall v, In (Some v) outs -> is_map v = false) -> as_map (pure_lookup (SDeep []) outs) = None.
Proof.
  intro H. rewrite pure_deep. unfold merge_fold. destruct (found outs) as [|v vs] eqn:E; [ reflexivity | ].
  assert (N : is_map (fold_left (merge2 (SDeep [])) vs (convert_value (SDeep []) v)) = false).
  { apply deep_fold_no_map. apply H. apply found_in. rewrite E. left. reflexivity. }
  destruct (fold_left (merge2 (SDeep [])) vs (convert_value (SDeep []) v)); try reflexivity. discriminate N.
Qed.

Theorem C58_default_first_partial w n pre f post opts key k s outs s1 nones s2 v s3 :
  iv_expl (s_iv s) = false -> iv_mode (s_iv s) = MdTop -> w_mux w = Some (pre ++ f :: post) -> new_key key = Ok k ->
  mgets "merge" opts = None ->
  consults (fun f => call_lk w (run w n) f opts key) (pre ++ f :: post) (searching s) outs s1 ->
  (forall x, In (Some x) outs -> is_map x = false) ->
  consults (fun f => call_lk w (run w n) f opts key) pre (gathering None SFirst s s1) nones s2 ->
  (forall o, In o nones -> o = None) ->
  call_lk w (run w n) f opts key s2 = (Ok (Some v), s3) ->
  mux_lookup w (run w n) opts key s = (Ok (Some v), with_iv (s_iv s) s3).
Proof.
  intros X Md W K M C Nm C2 N2 F.
  apply (C58_decided w n (pre ++ f :: post) opts key k s outs s1 None None SFirst (Some v) s3 X Md W K C).
  - symmetry. apply no_options. exact Nm.
  - apply ci_none. discriminate.
  - apply mo_none; [ intros o E; injection E as <-; exact M | discriminate ].
  - apply si_none.
  - exact (tk_first _ pre f post _ nones s2 v s3 C2 N2 F).
Qed.

(** The function that reads configurations answers the question for lookup
    options with the map that the data has under the key lookup_options for the
    key, and with nothing else: no data is read for it, and the value of the
    key does not count. *)
Theorem C58_config_answers_options w rec opts r cfg all lo s :
  aget (w_cfgpath w) (s_configs s) = Some cfg -> iv_mode (s_iv s) = MdLookup -> plain_key r ->
  rc_luopts cfg = as_map all -> rc_module cfg = "" -> options_for all r lo ->
  call_lk w rec LkConfig opts r s = (Ok (option_map VMap lo), s).
Proof.
  intros C Md P A R O. cbn [call_lk]. unfold config_lookup_at, get_config.
  replace (if String.eqb (w_cfgpath w) "" then w_cfgpath w else w_cfgpath w) with (w_cfgpath w)
    by (destruct (String.eqb (w_cfgpath w) ""); reflexivity).
  unfold bind at 1. unfold bind at 1. unfold run_op at 1. rewrite C. cbn [ret lift].
  unfold bind at 1, lift at 1. rewrite (plain_new r P). unfold bind at 1, run_op at 1. rewrite Md.
  unfold bind, lift. rewrite (options_for_model cfg all r lo (mk_key r [PStr r]) A R eq_refl O). reflexivity.
Qed.

(** ** The value of the key decides *)

(** What functions that read no configuration have for a key. *)
Inductive has_value (w : world) (sc : scope) (key : string) : lkfn -> option value -> Prop :=
| hv_environment : has_value w sc key LkEnv (environment (w_env w) key)
| hv_scope : has_value w sc key LkScope (scope_get sc key)
| hv_yaml : forall m, (forall t, file_has (w_yaml w t (vstring w (nil_to_null (w_yamlpath w)))) m) ->
    has_value w sc key LkYaml (mgets key m)
| hv_user : forall f v, (forall t opts, w_call w t (FnTop f) (ALookupKey opts key) = PRet v) -> has_value w sc key (LkUser f) v.

(** The full statement for such functions: when there is no merge option, and no
    function has anything under lookup_options, the first value is the answer. *)
Definition C58_full : Prop := forall w sc fs outs n key k opts,
  w_mux w = Some fs -> new_key key = Ok k -> mgets "merge" opts = None ->
  Forall (fun f => has_value w sc "lookup_options" f None) fs ->
  Forall2 (fun f o => has_value w sc key f o) fs outs ->
  fst (mux_lookup w (run w n) opts key (init_st sc None)) = Ok (hd_error (found outs)).

(** A YAML file with a hash that happens to have an entry called merge. *)
Definition branch_w : world :=
  mk_world (fun _ _ => false) (fun _ _ => []) (fun _ _ => CfMissing)
    (fun _ _ => DfValue (vmap [("branch", vmap [("from", VStr "main"); ("merge", VStr "deep")])])) (fun _ _ => DfMissing)
    (fun _ _ => DirMissing) (fun _ _ => LsMissing) (fun _ _ => false) (fun _ _ _ => Ok false) (fun _ _ _ => PRet None) (fun _ _ _ => Ok None)
    [] "/work" (fun _ => "?") (fun _ => Panic (EStr "?")) (fun _ v _ => Ok v)
    LkMux "/h/hiera.yaml" (Some [LkYaml; LkScope]) None (Some (VStr "/data.yaml")).
Definition branch_sc : scope := ScMap [(VStr "branch", vmap [("to", VStr "work")])].

Theorem C58_key_value_decides_refuted : exists w sc fs outs n key k opts,
  w_mux w = Some fs /\ new_key key = Ok k /\ mgets "merge" opts = None /\
  Forall (fun f => has_value w sc "lookup_options" f None) fs /\
  Forall2 (fun f o => has_value w sc key f o) fs outs /\
  fst (mux_lookup w (run w n) opts key (init_st sc None)) <> Ok (hd_error (found outs)) /\
  fst (mux_lookup w (run w n) opts key (init_st sc None)) =
    Ok (Some (vmap [("from", VStr "main"); ("merge", VStr "deep"); ("to", VStr "work")])).
Proof.
  exists branch_w, branch_sc, [LkYaml; LkScope],
    [Some (vmap [("from", VStr "main"); ("merge", VStr "deep")]); Some (vmap [("to", VStr "work")])],
    5, "branch", (mk_key "branch" [PStr "branch"]), [].
  split; [ reflexivity | ]. split; [ reflexivity | ]. split; [ reflexivity | ].
  assert (Y : forall key, has_value branch_w branch_sc key LkYaml
            (mgets key [(VStr "branch", vmap [("from", VStr "main"); ("merge", VStr "deep")])])).
  { intro key. apply hv_yaml. intro t. exact (fh_map _). }
  assert (Z : forall key, has_value branch_w branch_sc key LkScope (scope_get branch_sc key)) by (intro; apply hv_scope).
  split. { constructor; [ exact (Y "lookup_options") | constructor; [ exact (Z "lookup_options") | constructor ] ]. }
  split. { constructor; [ exact (Y "branch") | constructor; [ exact (Z "branch") | constructor ] ]. }
  split; vm_compute; [ discriminate | reflexivity ].
Qed.

Corollary C58_full_is_false : ~ C58_full.
Proof.
  intro F. destruct C58_key_value_decides_refuted as (w & sc & fs & outs & n & key & k & opts & H1 & H2 & H3 & H4 & H5 & H6 & _).
  exact (H6 (F w sc fs outs n key k opts H1 H2 H3 H4 H5)).
Qed.

(** ** Examples *)

(** The environment, a configuration and the scope. *)
Definition mux_w : world :=
  with_env [("HOME", "/root")]
    (with_top LkMux (Some [LkEnv; LkConfig; LkScope])
      (file_world [("/h/hiera.yaml", levels ["a"; "b"])]
        [("/h/data/a.yaml", vmap [("x", VInt 1); ("l", VArr [VInt 1]);
            ("lookup_options", vmap [("l", vmap [("merge", VStr "unique")])])]);
         ("/h/data/b.yaml", vmap [("y", VInt 2); ("l", VArr [VInt 2; VInt 1])])])).
Definition mux_sc : entries := [(VStr "x", VStr "sx"); (VStr "y", VStr "sy"); (VStr "z", VStr "sz"); (VStr "l", VArr [VInt 3])].

Example C58_ex_lookups :
  look mux_w 20 mux_sc "x" None = Ok (Some (VInt 1)) /\
  look mux_w 20 mux_sc "y" None = Ok (Some (VInt 2)) /\
  look mux_w 20 mux_sc "z" None = Ok (Some (VStr "sz")) /\
  look mux_w 20 mux_sc "env::HOME" None = Ok (Some (VStr "/root")) /\
  look mux_w 20 mux_sc "l" None = Ok (Some (VArr [VInt 1; VInt 2; VInt 3])) /\
  look mux_w 20 mux_sc "y" (Some [(VStr "merge", VStr "unique")]) = Ok (Some (VArr [VInt 2; VStr "sy"])).
Proof. vm_compute. repeat split. Qed.

(** The hypotheses of the theorem about the first value, for the key "z". *)
Example C58_ex_first_reached :
  let s := init_st (ScMap mux_sc) None in
  exists outs s1 nones s2 s3,
    consults (fun f => call_lk mux_w (run mux_w 20) f [] "z") ([LkEnv; LkConfig] ++ LkScope :: []) (searching s) outs s1 /\
    (forall x, In (Some x) outs -> is_map x = false) /\
    consults (fun f => call_lk mux_w (run mux_w 20) f [] "z") [LkEnv; LkConfig] (gathering None SFirst s s1) nones s2 /\
    (forall o, In o nones -> o = None) /\
    call_lk mux_w (run mux_w 20) LkScope [] "z" s2 = (Ok (Some (VStr "sz")), s3).
Proof.
  cbv zeta. set (s := init_st (ScMap mux_sc) None).
  set (c := call_lk mux_w (run mux_w 20) LkConfig [] "z" (searching s)).
  set (d := call_lk mux_w (run mux_w 20) LkConfig [] "z" (gathering None SFirst s (snd c))).
  exists [None; None; Some (VStr "sz")], (snd c), [None; None], (snd d), (snd d).
  assert (E : forall x, call_lk mux_w (run mux_w 20) LkEnv [] "z" x = (Ok None, x)) by reflexivity.
  assert (S : forall x, iv_scope (s_iv x) = ScMap mux_sc ->
            call_lk mux_w (run mux_w 20) LkScope [] "z" x = (Ok (Some (VStr "sz")), x)).
  { intros x H. cbn [call_lk]. unfold scope_lookup, bind, run_op, ret, lift. rewrite H. reflexivity. }
  assert (Ec : c = (Ok None, snd c)).
  { assert (F : fst c = Ok None) by (vm_compute; reflexivity). destruct c. cbn [fst snd] in *. rewrite F. reflexivity. }
  assert (Ed : d = (Ok None, snd d)).
  { assert (F : fst d = Ok None) by (vm_compute; reflexivity). destruct d. cbn [fst snd] in *. rewrite F. reflexivity. }
  split.
  { apply (con_cons _ LkEnv _ _ None (searching s)); [ apply E | ].
    apply (con_cons _ LkConfig _ _ None (snd c)); [ exact Ec | ].
    apply (con_cons _ LkScope _ _ (Some (VStr "sz")) (snd c)); [ apply S; vm_compute; reflexivity | constructor ]. }
  split. { intros x [H|[H|[H|[]]]]; try discriminate H. injection H as <-. reflexivity. }
  split.
  { apply (con_cons _ LkEnv _ _ None (gathering None SFirst s (snd c))); [ apply E | ].
    apply (con_cons _ LkConfig _ _ None (snd d)); [ exact Ed | constructor ]. }
  split. { intros o [<-|[<-|[]]]; reflexivity. }
  apply S. vm_compute. reflexivity.
Qed.

(** The configuration answers with options only. *)
Example C58_ex_config_answers :
  let s := searching (snd (run mux_w 20 (RMux [] "l") (init_st (ScMap mux_sc) None))) in
  fst (call_lk mux_w (run mux_w 20) LkConfig [] "l" s) = Ok (Some (vmap [("merge", VStr "unique")])) /\
  fst (call_lk mux_w (run mux_w 20) LkConfig [] "x" s) = Ok None.
Proof. vm_compute. split; reflexivity. Qed.

Print Assumptions C58_decided.
Print Assumptions C58_default_first_partial.
Print Assumptions C58_config_answers_options.
Print Assumptions C58_key_value_decides_refuted.
