(** C94: arguments that must be maps, and what counts of the options of a lookup. *)

From Coq Require Import String List ZArith Bool Arith Lia.
From Verif Require Import Str Value Outcome Key Merge Fpath Config Ipl Explain State Engine Meta Session Worlds Api New Coerce.
Import ListNotations.
Open Scope string_scope.
Open Scope list_scope.

(** ** What is given *)

(** An argument that stands for a map: nil, the null value, or a map. *)
Inductive stands_for : option value -> entries -> Prop :=
| sf_nil : stands_for None []
| sf_null : stands_for (Some VNil) []
| sf_map m : stands_for (Some (VMap m)) m.
Definition no_map (v : option value) : Prop := forall m, ~ stands_for v m.

Lemma to_map_is name v m : stands_for v m -> to_map name v = Ok m.
Proof. intros []; reflexivity. Qed.
Lemma to_map_not name v : no_map v -> to_map name v = Panic (EErr (name ++ " does not represent a map")).
Proof.
  intro H. destruct v as [[]|]; try reflexivity; [ elim (H [] sf_null) | match goal with |- context [VMap ?m] => elim (H m (sf_map m)) end | elim (H [] sf_nil) ].
Qed.

(** ** Options with the same merge *)

Definition same_run {A} (m m' : M st A) : Prop := forall s, m s = m' s.
Lemma same_bind {A B} (m m' : M st A) (f f' : A -> M st B) : same_run m m' -> (forall a, same_run (f a) (f' a)) -> same_run (bind m f) (bind m' f').
Proof. intros H K s. unfold bind. rewrite H. destruct (m' s) as [[a|e| |] s1]; try reflexivity. apply K. Qed.
Lemma same_refl {A} (m : M st A) : same_run m m.
Proof. intro s. reflexivity. Qed.
Lemma same_scoped {A} sc (m m' : M st A) : same_run m m' -> same_run (run_scoped sc m) (run_scoped sc m').
Proof.
  intros H s. assert (C : forall f, with_copy f m s = with_copy f m' s) by (intro f; unfold with_copy; rewrite H; reflexivity).
  destruct sc; cbv beta iota zeta delta [run_scoped].
  - destruct (iv_expl (s_iv s)); [ | apply H ]. destruct (xpush k init (s_ex s)) as [x|]; [ rewrite H | ]; reflexivity.
  - destruct (iv_mode (s_iv s)); [ apply C | apply C | apply H ].
  - destruct (iv_mode (s_iv s)); [ apply C | apply H | apply C ].
  - destruct (iv_expl (s_iv s)); [ apply C | apply H ].
  - rewrite H. reflexivity.
  - destruct (iv_redacted (s_iv s)); rewrite H; reflexivity.
  - destruct (ps_locked (s_provs s id)); [ reflexivity | rewrite H; reflexivity ].
Qed.

Lemma same_merging {L} s (vs : list L) (f f' : L -> M st (option value)) : (forall l, In l vs -> same_run (f l) (f' l)) -> same_run (merging s vs f) (merging s vs f').
Proof.
  intro H.
  assert (F1 : forall l, incl l vs -> same_run (first_loop f l) (first_loop f' l)).
  { induction l as [|x l IH]; intro I; cbn [first_loop]; [ apply same_refl | ]. apply same_bind; [ apply H, I; left; reflexivity | ].
    intros [v|]; [ apply same_refl | apply IH; intros y Hy; apply I; right; exact Hy ]. }
  assert (F2 : forall l memo, incl l vs -> same_run (merge_loop f s memo l) (merge_loop f' s memo l)).
  { induction l as [|x l IH]; intros memo I; cbn [merge_loop]; [ apply same_refl | ]. apply same_bind; [ apply H, I; left; reflexivity | ].
    intro v. apply IH. intros y Hy. apply I. right. exact Hy. }
  unfold merging, merge_lookup, with_merge.
  destruct s; destruct vs as [|x [|y r]]; try apply same_refl;
    try (apply H; left; reflexivity);
    try (apply same_bind; [ apply H; left; reflexivity | intro v; apply same_refl ]);
    try (apply same_bind; [ apply F1; apply incl_refl | intro v; apply same_refl ]);
    (apply same_scoped; apply same_bind; [ apply F2; apply incl_refl | intro v; apply same_refl ]).
Qed.

Section Options.
  Variable w : world.
  (** No function of the session is the user's. *)
  Definition own_functions : Prop := (forall n, w_top w <> LkUser n) /\ (forall fs n, w_mux w = Some fs -> ~ In (LkUser n) fs).
  Hypothesis Hw : own_functions.
  Variables m m' : entries.
  Hypothesis Hm : mgets "merge" m = mgets "merge" m'.

  Lemma same_call rec : (forall key, same_run (rec (RMux m key)) (rec (RMux m' key))) ->
    forall f key, (forall n, f <> LkUser n) -> same_run (call_lk w rec f m key) (call_lk w rec f m' key).
  Proof.
    intros Hr f key Hf. destruct f; cbn [call_lk]; try apply same_refl.
    - unfold config_lookup_at. rewrite Hm. apply same_refl.
    - unfold module_lookup, config_lookup_at. rewrite Hm. apply same_refl.
    - apply same_bind; [ apply Hr | intro; apply same_refl ].
    - elim (Hf name eq_refl).
  Qed.
  Lemma same_mux n : forall key, same_run (run w n (RMux m key)) (run w n (RMux m' key)).
  Proof.
    induction n as [|n IH]; intro key; cbn [run]; [ apply same_refl | ]. cbn [body]. apply same_bind; [ | intro; apply same_refl ].
    unfold mux_lookup. destruct (w_mux w) as [fs|] eqn:E; [ | apply same_refl ].
    assert (H : forall f, In f fs -> same_run (call_lk w (run w n) f m key) (call_lk w (run w n) f m' key)).
    { intros f I. apply same_call; [ exact IH | ]. intros u ->. exact (proj2 Hw fs u E I). }
    apply same_bind; [ apply same_scoped, same_merging; exact H | ]. intro lo. apply same_scoped.
    apply same_bind; [ apply same_refl | ]. intro k. apply same_scoped. rewrite Hm. apply same_bind; [ apply same_refl | ]. intro.
    unfold lookup_and_convert. apply same_bind; [ apply same_refl | ]. intro c. apply same_bind; [ | intro; apply same_refl ].
    assert (K : same_run (bind (run_op OStrat) (fun s => match s with None => panic nil_deref | Some s => merging s fs (fun f => call_lk w (run w n) f m key) end))
                         (bind (run_op OStrat) (fun s => match s with None => panic nil_deref | Some s => merging s fs (fun f => call_lk w (run w n) f m' key) end))).
    { apply same_bind; [ apply same_refl | ]. intros [st0|]; [ apply same_merging; exact H | apply same_refl ]. }
    destruct c as [[[] ?]|]; try exact K. apply same_scoped. exact K.
  Qed.
  Lemma same_ask n name : same_run (engine_ask w n (Some m) name) (engine_ask w n (Some m') name).
  Proof.
    unfold engine_ask. apply same_bind; [ apply same_refl | ]. intro k. unfold run_lookup. apply same_bind; [ | intro; apply same_refl ].
    destruct n as [|n]; cbn [run]; [ apply same_refl | ]. cbn [body]. apply same_bind; [ | intro; apply same_refl ]. unfold lookup.
    apply same_bind; [ apply same_refl | ]. intro r. destruct (String.eqb r "lookup_options"); [ apply same_refl | ].
    apply same_bind; [ apply same_call; [ apply same_mux | exact (proj1 Hw) ] | intro; apply same_refl ].
  Qed.
End Options.

(** ** Arguments that must be maps *)

(** What Lookup makes of the answer to its name: the default for none. *)
Definition or_default (dv : option value) (r : outcome (option value) * st) : outcome (option value) * st :=
  match r with
  | (Ok None, s) => (Ok dv, s)
  | _ => r
  end.

(** Lookup is the lookup of its one name with options that have the same merge as
    those given, none at all if they have no merge; nil and null are options
    without one.  In other words, nothing else in the options counts. *)
Theorem C94_lookup : forall {T} (inst : T -> option value -> bool) conv any w n name dv options m m' s,
  (forall v, inst any v = true) -> own_functions w ->
  stands_for options m -> mgets "merge" m = mgets "merge" m' ->
  hiera_lookup inst conv any (engine_ask w n) name dv options s = or_default dv (engine_ask w n (Some m') name s).
Proof.
  intros T inst conv any w n name dv options m m' s Hi Hw Hs Hm. unfold hiera_lookup. rewrite (to_map_is _ _ _ Hs).
  unfold bind at 1, lift at 1. unfold lookup2. cbn [lookup_in_map ask_each].
  rewrite <- (same_ask w Hw m m' Hm n name s). unfold bind.
  destruct (engine_ask w n (Some m) name s) as [[[v|]|e| |] s1]; cbn; rewrite ?Hi; try reflexivity.
  destruct dv as [v|]; cbn; rewrite ?Hi; reflexivity.
Qed.

(** And without a merge it is the lookup without options. *)
Theorem C94_no_merge : forall {T} (inst : T -> option value -> bool) conv any w n name dv options m s,
  (forall v, inst any v = true) -> own_functions w -> stands_for options m -> mgets "merge" m = None ->
  hiera_lookup inst conv any (engine_ask w n) name dv options s = or_default dv (engine_ask w n None name s).
Proof.
  intros T inst conv any w n name dv options m s Hi Hw Hs Hm.
  rewrite (C94_lookup inst conv any w n name dv options m [] s Hi Hw Hs Hm). f_equal.
  unfold engine_ask, bind, lift. destruct (new_key name) as [k|e| |]; try reflexivity. unfold run_lookup, bind. destruct n as [|n]; reflexivity.
Qed.

(** Options that are no map are refused before anything is looked up; whatever the
    session, its state stays what it is. *)
Theorem C94_refused : forall {T} (inst : T -> option value -> bool) conv any w n name dv options s,
  no_map options ->
  hiera_lookup inst conv any (engine_ask w n) name dv options s = (Panic (EErr "lookup options does not represent a map"), s).
Proof. intros T inst conv any w n name dv options s H. unfold hiera_lookup, bind, lift. rewrite (to_map_not _ _ H). reflexivity. Qed.

(** A session: no options, nil or null make the session that no options make, and
    what is no map makes none. *)
Theorem C94_session : forall show env cwd oif,
  (forall m, stands_for oif m -> new_session_with show env cwd oif = new_session show env cwd (Some m)) /\
  (no_map oif -> new_session_with show env cwd oif = Panic (EErr "session options does not represent a map")) /\
  new_session_with show env cwd (Some VNil) = new_session_with show env cwd None.
Proof.
  intros show env cwd oif. split; [ | split ].
  - intros m []; reflexivity.
  - intro H. destruct oif as [v|]; [ | elim (H [] sf_nil) ]. unfold new_session_with. rewrite (to_map_not _ _ H). reflexivity.
  - reflexivity.
Qed.

(** An invocation: its scope is that of the session if none is given.  What is given
    takes precedence over it, if that is a map; null is an empty one. *)
Theorem C94_invocation : forall ss si,
  (forall m, stands_for si m -> exists sc, invocation_with ss si = Ok sc /\
     forall x, scope_get sc x = match mgets x m with Some v => Some v | None => scope_get (ss_scope ss) x end) /\
  (no_map si -> invocation_with ss si = Panic (EErr "invocation scope does not represent a map")).
Proof.
  intros ss si. split.
  - intros m []; eexists; (split; [ reflexivity | intro x; cbn ]); reflexivity.
  - intro H. destruct si as [v|]; [ | elim (H [] sf_nil) ]. unfold invocation_with. rewrite (to_map_not _ _ H). reflexivity.
Qed.
Print Assumptions C94_lookup.
Print Assumptions C94_no_merge.
Print Assumptions C94_refused.
Print Assumptions C94_session.
Print Assumptions C94_invocation.

(** ** Examples *)

(** Two files with the key a; the lookup options say that it is merged with unique. *)
Definition co_w (top : lkfn) (mux : option (list lkfn)) : world :=
  with_funs [("fn", fun a => match a with ALookupKey o _ => PRet (mgets "other" o) | _ => PRet None end)]
    (with_top top mux
      (file_world
        [("/h/hiera.yaml", vmap [("version", VInt 5); ("hierarchy", VArr [vmap [("name", VStr "n"); ("paths", VArr [VStr "node.yaml"; VStr "common.yaml"])]])])]
        [("/h/data/node.yaml", vmap [("lookup_options", vmap [("a", vmap [("merge", VStr "unique")])]); ("a", VArr [VInt 1; VInt 2])]);
         ("/h/data/common.yaml", vmap [("a", VArr [VInt 2; VInt 3])])])).
Definition co_plain : world := co_w LkMux (Some [LkConfig; LkEnv]).
Definition co_look (w : world) (options : option value) (name : string) : outcome (option value) :=
  fst (hiera_lookup (T := unit) (fun _ _ => true) (fun _ v => Ok v) tt (engine_ask w 10) name (Some (VInt 9)) options (init_st (ScMap []) None)).
Definition co_merge : option value := Some (vmap [("other", VInt 8); ("merge", VStr "first")]).

Lemma co_own : own_functions co_plain.
Proof. split; [ discriminate | ]. intros fs n E. injection E as <-. intros [H|[H|[]]]; discriminate H. Qed.

(** With the merge of the options and without any. *)
Example C94_lookup_ex : co_look co_plain co_merge "a" = Ok (Some (VArr [VInt 1; VInt 2])) /\
  fst (engine_ask co_plain 10 (Some [(VStr "merge", VStr "first")]) "a" (init_st (ScMap []) None)) = Ok (Some (VArr [VInt 1; VInt 2])) /\
  co_look co_plain (Some (VMap [])) "a" = Ok (Some (VArr [VInt 1; VInt 2; VInt 3])) /\ co_look co_plain (Some VNil) "b" = Ok (Some (VInt 9)).
Proof.
  unfold co_look, co_merge.
  rewrite (C94_lookup (T := unit) (fun _ _ => true) (fun _ v => Ok v) tt co_plain 10 "a" (Some (VInt 9)) (Some (vmap [("other", VInt 8); ("merge", VStr "first")])) _
             [(VStr "merge", VStr "first")] (init_st (ScMap []) None) (fun _ => eq_refl) co_own (sf_map _) eq_refl).
  repeat split; vm_compute; reflexivity.
Qed.
Example C94_no_merge_ex : co_look co_plain None "a" = Ok (Some (VArr [VInt 1; VInt 2; VInt 3])).
Proof.
  unfold co_look. rewrite (C94_no_merge (T := unit) (fun _ _ => true) (fun _ v => Ok v) tt co_plain 10 "a" (Some (VInt 9)) None [] (init_st (ScMap []) None)
                             (fun _ => eq_refl) co_own sf_nil eq_refl). vm_compute. reflexivity.
Qed.
Lemma co_text t : no_map (Some (VStr t)).
Proof. intros m H. inversion H. Qed.
Example C94_refused_ex : co_look co_plain (Some (VStr "merge")) "a" = Panic (EErr "lookup options does not represent a map").
Proof. unfold co_look. rewrite (C94_refused (fun _ _ => true) (fun _ v => Ok v) tt co_plain 10 "a" (Some (VInt 9)) (Some (VStr "merge")) (init_st (ScMap []) None) (co_text _)). reflexivity. Qed.
(** A function of the user's is given all of the options. *)
Example C94_user_ex : ~ own_functions (co_w (LkUser "fn") None) /\ mgets "merge" [(VStr "other", VInt 8)] = mgets "merge" [] /\
  co_look (co_w (LkUser "fn") None) (Some (vmap [("other", VInt 8)])) "a" = Ok (Some (VInt 8)) /\
  co_look (co_w (LkUser "fn") None) (Some (vmap [])) "a" = Ok (Some (VInt 9)).
Proof. split; [ intros [H _]; exact (H "fn" eq_refl) | ]. repeat split; vm_compute; reflexivity. Qed.
Example C94_session_ex : forall env,
  new_session_with (fun _ => "") env (Ok "/h") (Some (VArr [])) = Panic (EErr "session options does not represent a map") /\
  exists ss, new_session_with (fun _ => "") env (Ok "/h") (Some (vmap [("Hiera::Scope", vmap [("x", VInt 1)]); ("Hiera::Config", VStr "c")])) = Ok ss /\
    scope_get (ss_scope ss) "x" = Some (VInt 1).
Proof.
  intro env. split.
  - apply C94_session. intros m H. inversion H.
  - unfold vmap. rewrite (proj1 (C94_session (fun _ => "") env (Ok "/h") _) _ (sf_map _)). eexists. split; reflexivity.
Qed.
Example C94_invocation_ex : let ss := mk_session [] DDgo (ScMap [(VStr "x", VInt 1); (VStr "y", VInt 2)]) in
  invocation_with ss (Some (VInt 1)) = Panic (EErr "invocation scope does not represent a map") /\
  exists sc, invocation_with ss (Some (vmap [("x", VInt 3)])) = Ok sc /\ scope_get sc "x" = Some (VInt 3) /\ scope_get sc "y" = Some (VInt 2).
Proof.
  intro ss. split.
  - apply C94_invocation. intros m H. inversion H.
  - destruct (proj1 (C94_invocation ss _) _ (sf_map [(VStr "x", VInt 3)])) as (sc & E & G). exists sc. split; [ exact E | ]. split; rewrite G; reflexivity.
Qed.
