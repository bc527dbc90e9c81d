(** Property C60: the environment as data. *)

From Coq Require Import String Ascii List ZArith Bool Arith Lia.
From Verif Require Import Str Value Outcome Key Merge Fpath Config Ipl Explain State Engine Worlds
  SpecKey SpecIpl StrFacts ValueFacts MergeFacts InterpFacts.
Import ListNotations.
Open Scope nat_scope.
Open Scope string_scope.
Open Scope list_scope.

(** A variable is set to a value. *)
Definition is_set (env : environ) (n x : string) : Prop := In (n, x) env.

(** An environment as an operating system keeps it: one value per name. *)
Definition one_each (env : environ) : Prop := NoDup (map fst env).

(** What a key stands for. *)
Inductive env_value (env : environ) : string -> value -> Prop :=
| env_all : forall m, wfm m ->
    (forall n x, n <> "" -> is_set env n x -> mgets n m = Some (VStr x)) ->
    (forall k v, In (k, v) m -> exists n x, k = VStr n /\ v = VStr x /\ n <> "" /\ is_set env n x) ->
    env_value env "env" (VMap m)
| env_one : forall n x, n <> "" -> is_set env n x -> env_value env ("env::" ++ n) (VStr x).

Lemma same_string a b : veq (VStr a) (VStr b) = true -> a = b.
Proof. cbn. apply String.eqb_eq. Qed.

Lemma lookup_env_in env n x : one_each env -> lookup_env env n = Some x <-> In (n, x) env.
Proof.
  unfold one_each. induction env as [|[k v] env IH]; intro D; cbn [lookup_env In].
  - split; [ discriminate | contradiction ].
  - cbn [map fst] in D. inversion D as [|? ? N D']; subst. destruct (String.eqb_spec k n) as [->|E].
    + split; [ intro H; injection H as ->; now left | ].
      intros [H|H]; [ now injection H as -> | ]. destruct N. apply (in_map fst) in H. exact H.
    + rewrite (IH D'). split; [ now right | ]. intros [H|H]; [ injection H; congruence | exact H ].
Qed.

Lemma env_map_from env : forall m0, wfm m0 ->
  wfm (fold_left (fun m e => if String.eqb (fst e) "" then m else mput (VStr (fst e)) (VStr (snd e)) m) env m0).
Proof.
  induction env as [|[k v] env IH]; intros m0 W; [ exact W | ]. cbn [fold_left fst snd]. apply IH.
  destruct (String.eqb k ""); [ exact W | ]. now apply mput_wf.
Qed.

Lemma env_map_get env : forall m0 n, one_each env -> wfm m0 -> n <> "" ->
  mgets n (fold_left (fun m e => if String.eqb (fst e) "" then m else mput (VStr (fst e)) (VStr (snd e)) m) env m0) =
  match lookup_env env n with Some x => Some (VStr x) | None => mgets n m0 end.
Proof.
  unfold one_each. induction env as [|[k v] env IH]; intros m0 n D W Hn; [ reflexivity | ].
  cbn [map fst] in D. inversion D as [|? ? N D']; subst. cbn [fold_left fst snd lookup_env].
  assert (W' : wfm (if String.eqb k "" then m0 else mput (VStr k) (VStr v) m0)).
  { destruct (String.eqb k ""); [ exact W | now apply mput_wf ]. }
  rewrite (IH _ n D' W' Hn).
  destruct (String.eqb_spec k n) as [->|E].
  - destruct (lookup_env env n) as [x|] eqn:Ex.
    + apply lookup_env_in in Ex; [ | exact D' ]. destruct N. apply (in_map fst) in Ex. exact Ex.
    + destruct (String.eqb_spec n "") as [C|_]; [ contradiction | ].
      unfold mgets. rewrite mget_mput; auto. cbn. now rewrite String.eqb_refl.
  - destruct (lookup_env env n); [ reflexivity | ].
    destruct (String.eqb k ""); [ reflexivity | ]. unfold mgets. rewrite mget_mput; auto. cbn.
    destruct (String.eqb_spec n k) as [C|_]; [ congruence | reflexivity ].
Qed.

Lemma env_map_entries env : forall m0 k v,
  In (k, v) (fold_left (fun m e => if String.eqb (fst e) "" then m else mput (VStr (fst e)) (VStr (snd e)) m) env m0) ->
  In (k, v) m0 \/ exists n x, (k = VStr n \/ exists v0, In (k, v0) m0) /\ v = VStr x /\ n <> "" /\ In (n, x) env /\
                              veq (VStr n) k = true.
Proof.
  induction env as [|[a b] env IH]; intros m0 k v H; [ now left | ].
  cbn [fold_left fst snd] in H. apply IH in H.
  assert (P : forall k v, In (k, v) (mput (VStr a) (VStr b) m0) ->
    In (k, v) m0 \/ ((k = VStr a \/ exists v0, In (k, v0) m0) /\ v = VStr b /\ veq (VStr a) k = true)).
  { clear. induction m0 as [|[x y] m0 IH]; intros k v H; cbn [mput] in H.
    - destruct H as [H|[]]. injection H as <- <-. right. split; [ now left | ]. split; [ reflexivity | ]. cbn. apply String.eqb_refl.
    - destruct (veq (VStr a) x) eqn:E.
      + destruct H as [H|H]; [ injection H as <- <- | left; now right ].
        right. split; [ right; exists y; now left | ]. split; [ reflexivity | exact E ].
      + destruct H as [H|H]; [ left; now left | ]. apply IH in H as [H|(H1 & H2 & H3)]; [ left; now right | ].
        right. split; [ | split; assumption ]. destruct H1 as [H1|(v0 & H1)]; [ now left | right; exists v0; now right ]. }
  destruct (String.eqb_spec a "") as [->|Ha].
  - destruct H as [H|(n & x & H1 & H2 & H3 & H4 & H5)]; [ now left | ]. right. exists n, x. repeat split; try assumption. now right.
  - destruct H as [H|(n & x & H1 & H2 & H3 & H4 & H5)].
    + apply P in H as [H|(H1 & H2 & H3)]; [ now left | ]. right. exists a, b. repeat split; try assumption. now left.
    + right. exists n, x. repeat split; try assumption; [ | now right ].
      destruct H1 as [H1|(v0 & H1)]; [ now left | ]. apply P in H1 as [H1|([H1|H1] & _ & _)].
      * right. now exists v0.
      * left. subst k. cbn in H5. apply String.eqb_eq in H5. now subst.
      * now right.
Qed.

(** A key has a value exactly when it is env, with all variables, or the name
    of a variable that is set, after the prefix. *)
Theorem C60_environment : forall env k v, one_each env ->
  (environment env k = Some v -> env_value env k v) /\
  (forall v', env_value env k v' -> exists v'', environment env k = Some v'' /\
     (k <> "env" -> v'' = v') /\
     (k = "env" -> forall m' m'', v' = VMap m' -> v'' = VMap m'' -> forall n, mgets n m'' = mgets n m')).
Proof.
  intros env k v D.
  assert (A : env_value env "env" (VMap (env_map env))).
  { constructor.
    - apply env_map_from. now constructor.
    - intros n x Hn Hs. unfold env_map. rewrite env_map_get; auto; [ | now constructor ].
      apply (lookup_env_in env n x D) in Hs. now rewrite Hs.
    - intros k0 v0 H. apply env_map_entries in H as [[]|(n & x & [H1|(y & [])] & H2 & H3 & H4 & _)]. eauto 6. }
  split.
  - unfold environment. destruct (String.eqb_spec k "env") as [->|Hk].
    + intro H. injection H as <-. exact A.
    + destruct (strip_prefix "env::" k) as [n|] eqn:E; [ | discriminate ].
      apply strip_prefix_some in E. subst k.
      destruct (String.eqb_spec n "") as [->|Hn]; [ discriminate | ].
      destruct (lookup_env env n) as [x|] eqn:Ex; [ | discriminate ].
      intro H. injection H as <-. constructor; [ exact Hn | ]. now apply lookup_env_in in Ex.
  - intros v' H. destruct H as [m W H1 H2|n x Hn Hs].
    + exists (VMap (env_map env)). split; [ reflexivity | ]. split; [ intro C; now contradiction C | ].
      intros _ m' m'' E1 E2 n. injection E1 as <-. injection E2 as <-.
      inversion A as [m0 W0 A1 A2 E|]; subst.
      destruct (String.eqb_spec n "") as [->|Hn].
      * transitivity (@None value); [ | symmetry ].
        -- destruct (mgets "" (env_map env)) as [y|] eqn:Ey; [ | reflexivity ].
           apply mget_in in Ey as (k' & Hi & Hv). apply A2 in Hi as (n & x & -> & _ & Hn & _).
           apply same_string in Hv. congruence.
        -- destruct (mgets "" m) as [y|] eqn:Ey; [ | reflexivity ].
           apply mget_in in Ey as (k' & Hi & Hv). apply H2 in Hi as (n & x & -> & _ & Hn & _).
           apply same_string in Hv. congruence.
      * destruct (lookup_env env n) as [x|] eqn:Ex.
        -- apply (lookup_env_in env n x D) in Ex. rewrite (A1 n x Hn Ex), (H1 n x Hn Ex). reflexivity.
        -- assert (U : forall m0, (forall k v, In (k, v) m0 -> exists n x, k = VStr n /\ v = VStr x /\ n <> "" /\ is_set env n x) -> mgets n m0 = None).
           { intros m0 Hm. destruct (mgets n m0) as [y|] eqn:Ey; [ | reflexivity ].
             apply mget_in in Ey as (k' & Hi & Hv). apply Hm in Hi as (n' & x & -> & _ & Hn' & Hs).
             apply same_string in Hv. subst n'. apply (lookup_env_in env n x D) in Hs. congruence. }
           rewrite (U _ A2), (U _ H2). reflexivity.
    + exists (VStr x). split; [ | split; [ reflexivity | discriminate ] ].
      unfold environment. destruct (String.eqb_spec ("env::" ++ n) "env") as [C|_]; [ discriminate | ].
      rewrite strip_prefix_app. destruct (String.eqb_spec n "") as [C|_]; [ contradiction | ].
      apply (lookup_env_in env n x D) in Hs. now rewrite Hs.
Qed.
Print Assumptions C60_environment.

(** With the environment as top provider, a lookup of the name of a variable
    gives its value, unless that asks for interpolation. *)
Theorem C60_lookup : forall w n key name x opts s,
  w_top w = LkEnv -> one_each (w_env w) -> name <> "" -> is_set (w_env w) name x ->
  ~ has "%{" x -> k_parts key = [PStr ("env::" ++ name)] ->
  run_lookup w (S (S n)) key opts s = (Ok (Some (VStr x)), s).
Proof.
  intros w n key name x opts s Ht D Hn Hs Hx Hk.
  assert (E : environment (w_env w) ("env::" ++ name) = Some (VStr x)).
  { destruct (proj2 (C60_environment (w_env w) ("env::" ++ name) VNil D) (VStr x)) as (v & E & H & _).
    - now constructor.
    - rewrite E, H; [ reflexivity | discriminate ]. }
  unfold run_lookup. cbn [run body].
  unfold bind at 1. unfold bind at 1. unfold lookup. unfold bind at 1, lift, root. rewrite Hk.
  destruct (String.eqb_spec ("env::" ++ name) "lookup_options") as [C|_]; [ discriminate C | ].
  rewrite Ht. cbn [call_lk]. rewrite E. unfold bind at 1, ret at 1.
  assert (I : forall t, bind (interpolate (fun r => body w (run w n) r) true (VStr x)) (dig_in key) t = (Ok (Some (VStr x)), t)).
  { intro t. unfold interpolate, bind at 1, bind at 1. cbn [do_interp body]. unfold istr.
    destruct (contains "%{" x) eqn:C; [ exfalso; apply Hx; now apply contains_has | ].
    cbn [negb]. unfold ret at 1 2. cbn [fst snd]. unfold dig_in. rewrite Hk. reflexivity. }
  unfold run_scoped. destruct (iv_mode (s_iv s)); unfold with_copy; rewrite I; unfold ret; cbn [fst]; destruct s; reflexivity.
Qed.
Print Assumptions C60_lookup.

Example C60_ex_one : environment [("HOME", "/root"); ("EMPTY", ""); ("X", "a=b")] "env::EMPTY" = Some (VStr "") /\
  environment [("HOME", "/root"); ("EMPTY", ""); ("X", "a=b")] "env::X" = Some (VStr "a=b") /\
  environment [("HOME", "/root"); ("EMPTY", ""); ("X", "a=b")] "env::home" = None /\
  environment [("HOME", "/root"); ("EMPTY", ""); ("X", "a=b")] "HOME" = None /\
  environment [("HOME", "/root"); ("EMPTY", "")] "env" = Some (vmap [("HOME", VStr "/root"); ("EMPTY", VStr "")]).
Proof. repeat split. Qed.

Example C60_ex_each : one_each [("HOME", "/root"); ("EMPTY", ""); ("X", "a=b")].
Proof. unfold one_each. cbn. repeat constructor; cbn; intuition discriminate. Qed.

Example C60_ex_lookup :
  let w := with_env [("HOME", "/root")] (with_top LkEnv None (file_world [] [])) in
  w_top w = LkEnv /\ one_each (w_env w) /\ is_set (w_env w) "HOME" "/root" /\
  look w 2 [] "env::HOME" None = Ok (Some (VStr "/root")) /\ look w 2 [] "env::HOM" None = Ok None.
Proof. repeat split; try reflexivity; [ unfold one_each; cbn; repeat constructor; cbn; tauto | now left ]. Qed.
