(** Properties C28 and C29: the explainer. *)

From Coq Require Import String List ZArith Bool Arith.
From Verif Require Import Str Value Outcome Key Merge Config Ipl Explain State Engine Session Worlds SpecExplain Transparent.
Import ListNotations.
Open Scope string_scope.

(** ** C28 *)

(** Serving any requests with any explainer gives the same outcomes, in the same
    order the same questions to the world, and the same caches, as without. *)
Theorem C28_explaining_changes_nothing : forall w n rs sc sc' options only,
  let with_ := serve w n true rs (init_st sc (Some (new_explainer options only))) in
  let without := serve w n false rs (init_st sc' None) in
  fst with_ = fst without /\
  s_trace (snd with_) = s_trace (snd without) /\
  s_shared (snd with_) = s_shared (snd without) /\
  s_tpc (snd with_) = s_tpc (snd without) /\
  s_mods (snd with_) = s_mods (snd without) /\
  s_configs (snd with_) = s_configs (snd without) /\
  s_provs (snd with_) = s_provs (snd without).
Proof.
  intros w n rs sc sc' options only with_ without.
  destruct (sim_serve w n rs (init_st sc (Some (new_explainer options only))) (init_st sc' None) eq_refl eq_refl)
    as (H1 & H2 & _).
  apply strip_fields in H2 as (F1 & F2 & F3 & F4 & F5 & F6 & F7).
  repeat split; assumption.
Qed.
Print Assumptions C28_explaining_changes_nothing.

(** Three lookups: a merged value, a panic (bad alias) and an unknown key. *)
Definition ex_world : world :=
  file_world [("/h/hiera.yaml", levels ["node"; "common"])]
    [("/h/data/node.yaml", vmap [("a", VArr [VStr "x"]); ("bad", VStr "x%{alias('a')}");
                                 ("lookup_options", vmap [("a", vmap [("merge", VStr "unique")])])]);
     ("/h/data/common.yaml", vmap [("a", VArr [VStr "y"; VStr "x"])])].
Definition ask_for (k : string) : request :=
  mk_request (ScMap []) (match new_key k with Ok k => k | _ => mk_key "" [] end) None.

Example C28_ex :
  fst (serve ex_world 10 true [ask_for "a"; ask_for "bad"; ask_for "zz"]
             (init_st (ScMap []) (Some (new_explainer true false))))
  = [Ok (Some (VArr [VStr "x"; VStr "y"])); Panic alias_misplaced; Ok None].
Proof. vm_compute. reflexivity. Qed.

(** ** C29 *)

(** However a call ends, the explainer is where it was: the same nodes are open
    and everything recorded before is still there. *)
Theorem C29_every_call_stays_in_place : forall w n r s,
  x_nil (s_ex s) = false ->
  same_place (s_ex s) (s_ex (snd (run w n r s))).
Proof. exact run_place. Qed.
Print Assumptions C29_every_call_stays_in_place.

(** In a session: after any lookups, with whatever outcomes, the explainer is at
    its root with the explanations of the earlier ones in front. *)
Theorem C29_session_back_at_root : forall w n rs rs' sc options only,
  let before := snd (serve w n true rs (init_st sc (Some (new_explainer options only)))) in
  let after := snd (serve w n true rs' before) in
  x_open (s_ex before) = [] /\ x_nil (s_ex before) = false /\
  x_open (s_ex after) = [] /\ x_nil (s_ex after) = false /\
  exists l, fr_bs (x_root (s_ex after)) = (fr_bs (x_root (s_ex before)) ++ l)%list.
Proof.
  intros w n rs rs' sc options only before after.
  pose proof (serve_place w n rs (init_st sc (Some (new_explainer options only))) eq_refl) as (_ & _ & H1 & H2 & _).
  fold before in H1, H2. cbn in H1.
  pose proof (serve_place w n rs' before H1) as (_ & _ & H3 & H4). fold after in H3, H4.
  rewrite H2 in H4. destruct H4 as (H4 & [H5 _]).
  repeat split; try assumption; congruence.
Qed.
Print Assumptions C29_session_back_at_root.

(** A panic four nodes deep, followed by a lookup that adds its explanation to
    the root. *)
Example C29_ex :
  let s0 := init_st (ScMap []) (Some (new_explainer true false)) in
  let s1 := snd (serve ex_world 10 true [ask_for "bad"] s0) in
  let s2 := snd (serve ex_world 10 true [ask_for "a"] s1) in
  length (fr_bs (x_root (s_ex s0))) = 0 /\ length (fr_bs (x_root (s_ex s1))) = 2 /\
  length (fr_bs (x_root (s_ex s2))) = 4 /\ x_open (s_ex s2) = [].
Proof. vm_compute. auto. Qed.
