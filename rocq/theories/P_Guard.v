(** Property C98: WithKey stops every recursion. *)

From Coq Require Import String List Bool Arith Lia.
From Verif Require Import Str Value Outcome Key Merge Fpath Config Ipl Explain State Guard.
Import ListNotations.
Open Scope string_scope.
Open Scope list_scope.

(** ** The specification *)

Section Spec.
  (** The keys that looking up a key looks up, in order. *)
  Context (refs : string -> list string).

  (** [leads k l x]: from [k] one gets to [x] by looking up the keys of [l] inside of each other. *)
  Inductive leads : string -> list string -> string -> Prop :=
  | leads_here : forall k, leads k [] k
  | leads_on : forall k r l x, In r (refs k) -> leads r l x -> leads k (k :: l) x.

  (** Looking up [k] comes back to a key that is being looked up. *)
  Definition comes_back (k : string) : Prop := exists l x, leads k l x /\ In x l.

  (** A lookup of [k] in which every key is guarded by WithKey, [n] deep at most. *)
  Fixpoint in_turn (f : string -> M st unit) (rs : list string) : M st unit :=
    match rs with [] => ret tt | r :: rs => bind (f r) (fun _ => in_turn f rs) end.
  Fixpoint guarded (n : nat) (k : string) : M st unit :=
    match n with O => nofuel | S n => with_key k (in_turn (guarded n) (refs k)) end.
End Spec.

(** ** The guard *)

Lemma contains_in ns s : contains_string ns s = true <-> In s ns.
Proof.
  unfold contains_string. rewrite existsb_exists. split.
  - intros (x & H & E). apply String.eqb_eq in E. subst x. exact H.
  - intro H. exists s. split; [ exact H | apply String.eqb_refl ].
Qed.

(** A key that is being looked up is refused, with the keys that are, and the actor is
    not called.  Any other key is looked up with the key added, and afterwards the names are
    what they were, whether the actor returned or panicked. *)
Theorem C98_with_key : forall A src (actor : M st A) s,
  (In src (iv_names (s_iv s)) ->
     with_key src actor s = (Panic (EErr ("recursive lookup detected in [" ++ join ", " (iv_names (s_iv s)) ++ "]")), s)) /\
  (forall o s', ~ In src (iv_names (s_iv s)) ->
     actor (with_iv (iv_with_names (iv_names (s_iv s) ++ [src]) (s_iv s)) s) = (o, s') ->
     iv_names (s_iv s') = iv_names (s_iv s) ++ [src] ->
     (exists a, o = Ok a) \/ (exists e, o = Panic e) ->
     with_key src actor s = (o, with_iv (iv_with_names (iv_names (s_iv s)) (s_iv s')) s')).
Proof.
  intros A src actor s. split.
  - intro H. unfold with_key. apply contains_in in H. rewrite H. reflexivity.
  - intros o s' H E N O. unfold with_key. destruct (contains_string _ src) eqn:C; [ apply contains_in in C; contradiction | ].
    rewrite E. assert (P : forall x : outcome A, pop_name x s' = (x, with_iv (iv_with_names (iv_names (s_iv s)) (s_iv s')) s')).
    { intro x. unfold pop_name. pose proof (removelast_last (iv_names (s_iv s)) src) as Rl. rewrite N.
      destruct (iv_names (s_iv s) ++ [src]) as [|y l] eqn:E2; [ now apply app_eq_nil in E2 as [_ E2] | ]. rewrite Rl. reflexivity. }
    destruct O as [[a ->]|[e ->]]; apply P.
Qed.
Print Assumptions C98_with_key.

Lemma with_names_same s : with_iv (iv_with_names (iv_names (s_iv s)) (s_iv s)) s = s.
Proof. destruct s as [[] ? ? ? ? ? ? ? ?]. reflexivity. Qed.

Definition outcome_of refs (ns : list string) (k : string) (o : outcome unit) : Prop :=
  (o = Ok tt /\ forall l x, leads refs k l x -> ~ In x (ns ++ l)) \/
  (exists l x, leads refs k l x /\ In x (ns ++ l) /\ o = Panic (recursive_lookup (ns ++ l))).

Lemma guarded_ends refs ks : (forall k, In k ks -> incl (refs k) ks) ->
  forall n k s, In k ks -> NoDup (iv_names (s_iv s)) -> incl (iv_names (s_iv s)) ks ->
  List.length ks < n + List.length (iv_names (s_iv s)) ->
  exists o, guarded refs n k s = (o, s) /\ outcome_of refs (iv_names (s_iv s)) k o.
Proof.
  intro Hks. induction n as [|n IH]; intros k s Hk Nd Inc Len.
  - exfalso. pose proof (NoDup_incl_length Nd Inc). lia.
  - cbn [guarded]. set (ns := iv_names (s_iv s)) in *. destruct (C98_with_key unit k (in_turn (guarded refs n) (refs k)) s) as [In1 Out1].
    destruct (in_dec string_dec k ns) as [Y|N].
    + exists (Panic (recursive_lookup ns)). split; [ apply In1; exact Y | ]. right. exists [], k. rewrite app_nil_r.
      split; [ constructor | ]. split; [ exact Y | reflexivity ].
    + set (t := with_iv (iv_with_names (ns ++ [k]) (s_iv s)) s) in *.
      assert (Et : iv_names (s_iv t) = ns ++ [k]) by reflexivity.
      assert (Nd' : NoDup (iv_names (s_iv t))).
      { rewrite Et. apply NoDup_rev in Nd. rewrite <- (rev_involutive (ns ++ [k])). apply NoDup_rev. rewrite rev_app_distr. cbn.
        constructor; [ rewrite <- in_rev; exact N | exact Nd ]. }
      assert (Inc' : incl (iv_names (s_iv t)) ks) by (rewrite Et; apply incl_app; [ exact Inc | intros x [<-|[]]; exact Hk ]).
      assert (Len' : List.length ks < n + List.length (iv_names (s_iv t))) by (rewrite Et, app_length; cbn; lia).
      assert (Turn : forall rs, incl rs ks -> exists o, in_turn (guarded refs n) rs t = (o, t) /\
        ((o = Ok tt /\ forall r l x, In r rs -> leads refs r l x -> ~ In x ((ns ++ [k]) ++ l)) \/
         (exists r l x, In r rs /\ leads refs r l x /\ In x ((ns ++ [k]) ++ l) /\ o = Panic (recursive_lookup ((ns ++ [k]) ++ l))))).
      { induction rs as [|r rs IHr]; intro Ir; cbn [in_turn].
        - exists (Ok tt). split; [ reflexivity | ]. left. split; [ reflexivity | intros ? ? ? []  ].
        - destruct (IH r t (Ir r (or_introl eq_refl)) Nd' Inc' Len') as (o & E & [[-> Fine]|(l & x & L1 & L2 & ->)]).
          + destruct (IHr (fun y Hy => Ir y (or_intror Hy))) as (o' & E' & D). exists o'. split; [ unfold bind; rewrite E; exact E' | ].
            destruct D as [[-> F]|(r' & l & x & D1 & D2 & D3 & D4)].
            * left. split; [ reflexivity | ]. intros r' l x [<-|Hr]; [ apply Fine | apply F; exact Hr ].
            * right. exists r', l, x. split; [ right; exact D1 | auto ].
          + exists (Panic (recursive_lookup ((ns ++ [k]) ++ l))). split; [ unfold bind; rewrite E; reflexivity | ].
            right. exists r, l, x. split; [ left; reflexivity | auto ]. }
      destruct (Turn (refs k) (Hks k Hk)) as (o & E & D). exists o. split.
      * erewrite (Out1 o t N E Et).
        -- f_equal. exact (with_names_same s).
        -- destruct D as [[-> _]|(? & ? & ? & _ & _ & _ & ->)]; eauto.
      * destruct D as [[-> F]|(r & l & x & D1 & D2 & D3 & ->)].
        -- left. split; [ reflexivity | ]. intros l x L. destruct L as [|k r l x Hr L]; [ rewrite app_nil_r; exact N | ].
           specialize (F r l x Hr L). rewrite <- app_assoc in F. exact F.
        -- right. exists (k :: l), x. rewrite <- app_assoc in *. split; [ econstructor; eauto | ]. split; [ exact D3 | reflexivity ].
Qed.

(** Lookups in which every key is guarded always end when there are finitely many keys:
    with a value exactly if no key comes back to itself, and otherwise with the error, which
    names the keys on the way to one that is among them.  Nothing of the state changes. *)
Theorem C98_ends : forall refs ks n k s,
  (forall k, In k ks -> incl (refs k) ks) -> In k ks -> List.length ks < n -> iv_names (s_iv s) = [] ->
  (~ comes_back refs k -> guarded refs n k s = (Ok tt, s)) /\
  (comes_back refs k -> exists l x, leads refs k l x /\ In x l /\
     guarded refs n k s = (Panic (EErr ("recursive lookup detected in [" ++ join ", " l ++ "]")), s)).
Proof.
  intros refs ks n k s Hks Hk Hn Hs.
  destruct (guarded_ends refs ks Hks n k s Hk) as (o & E & D); [ rewrite Hs; constructor | rewrite Hs; intros ? [] | rewrite Hs; cbn; lia | ].
  rewrite Hs in D. destruct D as [[-> F]|(l & x & L1 & L2 & ->)].
  - split; [ intros _; exact E | ]. intros (l & x & L1 & L2). elim (F l x L1 L2).
  - split; [ intro C; elim C; exists l, x; auto | ]. intros _. exists l, x. split; [ exact L1 | ]. split; [ exact L2 | exact E ].
Qed.
Print Assumptions C98_ends.

(** Three keys, of which one refers to itself through another. *)
Example C98_ex :
  let refs := fun k => if String.eqb k "a" then ["c"; "b"] else if String.eqb k "b" then ["a"] else [] in
  let ks := ["a"; "b"; "c"] in
  let s := init_st (ScMap []) None in
  (forall k, In k ks -> incl (refs k) ks) /\ comes_back refs "a" /\ ~ comes_back refs "c" /\
  fst (guarded refs 4 "a" s) = Panic (EErr "recursive lookup detected in [a, b]") /\ fst (guarded refs 4 "c" s) = Ok tt.
Proof.
  cbv zeta. split; [ intros k [<-|[<-|[<-|[]]]] x; cbn; intuition | ]. split; [ | split; [ | split; reflexivity ] ].
  - exists ["a"; "b"], "a". split; [ | now left ]. apply leads_on with "b"; [ cbn; auto | ]. apply leads_on with "a"; [ cbn; auto | constructor ].
  - intros (l & x & L & I). inversion L; subst; [ destruct I | ]. cbn in *. contradiction.
Qed.
