(** Two sessions in the same world, one of which has served requests before: a
    walk over the engine that shows that they answer alike. *)

From Coq Require Import String List ZArith Bool Arith Lia.
From Verif Require Import Str Value Outcome Key Merge Fpath Config Ipl Explain State Engine Session SpecAlone.
Import ListNotations.
Open Scope string_scope.
Open Scope bool_scope.

Lemma aget_set {A} k x (l : list (string * A)) q : aget q (aput k x l) = if String.eqb q k then Some x else aget q l.
Proof. reflexivity. Qed.

Ltac three := split; [ | split ].

Section Alone.
  Variable w : world.
  Hypothesis Lasting : lasting w.
  Hypothesis Memory : without_memory w.

  (** *** Code that only asks *)

  Definition only_asks {A} (m : M st A) : Prop :=
    exists o d, forall s, m s = (o, with_trace (s_trace s ++ d)%list s).

  Lemma with_trace_same : forall s, with_trace (s_trace s ++ [])%list s = s.
  Proof. intros []. unfold with_trace. cbn. rewrite app_nil_r. reflexivity. Qed.

  Lemma oa_lift : forall A (o : outcome A), only_asks (lift o).
  Proof. intros A o. exists o, []. intro s. rewrite with_trace_same. reflexivity. Qed.
  Lemma oa_ret : forall A (a : A), only_asks (ret a).
  Proof. intros A a. exact (oa_lift A (Ok a)). Qed.
  Lemma oa_panic : forall A e, only_asks (@panic st A e).
  Proof. intros A e. exact (oa_lift A (Panic e)). Qed.

  Lemma oa_ask : forall A e (f : list event -> A), (forall t, f t = f []) -> only_asks (ask e f).
  Proof. intros A e f H. exists (Ok (f [])), [e]. intro s. unfold ask, bind, ret, lift. cbv beta iota zeta delta [run_op]. rewrite (H (s_trace s)). reflexivity. Qed.

  Lemma oa_bind : forall A B (m : M st A) (f : A -> M st B), only_asks m -> (forall a, only_asks (f a)) -> only_asks (bind m f).
  Proof.
    intros A B m f (o & d & Hm) Hf. destruct o as [a|e| |].
    - destruct (Hf a) as (o2 & d2 & H2). exists o2, (d ++ d2)%list. intro s. unfold bind. rewrite Hm, H2.
      f_equal. unfold with_trace. cbn. rewrite app_assoc. reflexivity.
    - exists (Panic e), d. intro s. unfold bind. rewrite Hm. reflexivity.
    - exists Hang, d. intro s. unfold bind. rewrite Hm. reflexivity.
    - exists NoFuel, d. intro s. unfold bind. rewrite Hm. reflexivity.
  Qed.

  (** The search for a module. *)
  Definition search (name : string) : M st (option string) :=
    match w_modpath w with Some mp => load_from w (split_list mp) name | None => ret None end.

  Lemma oa_load_module : forall p n, only_asks (load_module w p n).
  Proof.
    intros p n. unfold load_module. apply oa_bind; [ apply oa_ask; intro; apply (la_readdir w Lasting) | intro d ].
    destruct d as [| e | l]; [ apply oa_ret | apply oa_panic | ].
    destruct (find_module l n) as [[fn [|]]|]; try apply oa_ret.
    apply oa_bind; [ apply oa_ask; intro; apply (la_lstat w Lasting) | intro f ].
    destruct f as [| e | [|]]; first [ apply oa_ret | apply oa_panic ].
  Qed.

  Lemma oa_search : forall n, only_asks (search n).
  Proof.
    intro n. unfold search. destruct (w_modpath w) as [mp|]; [ | apply oa_ret ].
    induction (split_list mp) as [|p r IH]; cbn [load_from]; [ apply oa_ret | ].
    apply oa_bind; [ apply oa_load_module | intros [x|]; [ apply oa_ret | exact IH ] ].
  Qed.

  Lemma oa_file_data : forall j o, only_asks (file_data w j o).
  Proof.
    intros j o. unfold file_data. destruct (mgets "path" o) as [pv|]; [ | apply oa_panic ].
    apply oa_bind.
    - destruct j; apply oa_ask; intro; [ apply (la_json w Lasting) | apply (la_yaml w Lasting) ].
    - intros [| e | v]; [ apply oa_ret | apply oa_panic | ]. destruct v; first [ apply oa_ret | apply oa_panic ].
  Qed.

  (** *** What each of the sessions knows is right *)

  Definition comes_out {A} (m : M st A) (a : A) : Prop := forall s, fst (m s) = Ok a.

  Definition yaml_file : M st entries := file_data w false [(VStr "path", nil_to_null (w_yamlpath w))].

  Record own (s : st) : Prop := mk_own {
    ow_loaded : forall p c, aget p (s_shared s) = Some (ShLoaded c) -> can_be_read w p c;
    ow_locked : forall p, aget p (s_shared s) = Some ShLocked ->
        In (EvConfig p) (s_trace s) /\ forall c, ~ can_be_read w p c;
    ow_mods : forall n c, aget n (s_mods s) = Some c -> comes_out (search n) c;
    ow_yaml : forall v, aget "yaml::data" (s_tpc s) = Some v -> exists m, v = VMap m /\ comes_out yaml_file m
  }.

  (** The numbers of the providers of the two sessions: those from [b] on in one
      are those from [b'] on in the other. *)
  Variables b b' : nat.

  Definition id_rel (n : nat) (i i' : nat) : Prop := exists j, i = b + j /\ i' = b' + j /\ b + j < n.
  Definition p_rel (n : nat) (p p' : provider) : Prop := p_entry p' = p_entry p /\ id_rel n (p_id p) (p_id p').
  Record rc_rel (n : nat) (c c' : rconfig) : Prop := mk_rc_rel {
    rr_config : rc_config c' = rc_config c;
    rr_providers : Forall2 (p_rel n) (rc_providers c) (rc_providers c');
    rr_defaults : Forall2 (p_rel n) (rc_defaults c) (rc_defaults c');
    rr_luopts : rc_luopts c' = rc_luopts c;
    rr_module : rc_module c' = rc_module c
  }.
  Definition orel {A} (Q : A -> A -> Prop) (x y : option A) : Prop :=
    match x, y with None, None => True | Some a, Some c => Q a c | _, _ => False end.

  Record sim (s s' : st) : Prop := mk_sim {
    sm_iv : s_iv s' = s_iv s;
    sm_ex : s_ex s' = s_ex s;
    sm_configs : forall p, orel (rc_rel (s_next s)) (aget p (s_configs s)) (aget p (s_configs s'));
    sm_own : own s;
    sm_own' : own s';
    sm_locked : forall p, aget p (s_shared s) = Some ShLocked <-> aget p (s_shared s') = Some ShLocked;
    sm_provs : exists j, s_next s = b + j /\ s_next s' = b' + j /\
                 forall i, i < j -> s_provs s' (b' + i) = s_provs s (b + i)
  }.

  Lemma id_mono : forall n m i i', n <= m -> id_rel n i i' -> id_rel m i i'.
  Proof. intros n m i i' L (j & E & E' & K). exists j. repeat split; auto; lia. Qed.
  Lemma p_mono : forall n m p p', n <= m -> p_rel n p p' -> p_rel m p p'.
  Proof. intros n m p p' L [E K]. split; [ exact E | exact (id_mono n m _ _ L K) ]. Qed.
  Lemma ps_mono : forall n m ps ps', n <= m -> Forall2 (p_rel n) ps ps' -> Forall2 (p_rel m) ps ps'.
  Proof. intros n m ps ps' L H. induction H; constructor; [ exact (p_mono n m _ _ L H) | assumption ]. Qed.
  Lemma rc_mono : forall n m c c', n <= m -> rc_rel n c c' -> rc_rel m c c'.
  Proof. intros n m c c' L []. split; auto; apply (ps_mono n m); auto. Qed.
  Lemma orel_mono : forall n m x y, n <= m -> orel (rc_rel n) x y -> orel (rc_rel m) x y.
  Proof. intros n m [x|] [y|] L H; simpl in *; auto. exact (rc_mono n m x y L H). Qed.

  (** Small changes of both states. *)
  Lemma own_iv : forall i s, own s -> own (with_iv i s).
  Proof. intros i s []. split; auto. Qed.
  Lemma own_ex : forall i s, own s -> own (with_ex i s).
  Proof. intros i s []. split; auto. Qed.
  Lemma own_configs : forall i s, own s -> own (with_configs i s).
  Proof. intros i s []. split; auto. Qed.
  Lemma own_prov : forall i p s, own s -> own (with_prov i p s).
  Proof. intros i p s []. split; auto. Qed.
  Lemma own_next : forall i s, own s -> own (with_next i s).
  Proof. intros i s []. split; auto. Qed.
  Lemma own_trace : forall d s, own s -> own (with_trace (s_trace s ++ d)%list s).
  Proof.
    intros d s []. split; auto. intros p H. destruct (ow_locked0 p H) as [I N]. split; [ | exact N ].
    cbn. apply in_or_app. left. exact I.
  Qed.

  Lemma sim_iv : forall i s s', sim s s' -> sim (with_iv i s) (with_iv i s').
  Proof. intros i s s' []. split; try apply own_iv; auto. Qed.
  Lemma sim_ex : forall i s s', sim s s' -> sim (with_ex i s) (with_ex i s').
  Proof. intros i s s' []. split; try apply own_ex; auto. Qed.
  Lemma sim_trace : forall d d' s s', sim s s' ->
      sim (with_trace (s_trace s ++ d)%list s) (with_trace (s_trace s' ++ d')%list s').
  Proof. intros d d' s s' []. split; try apply own_trace; auto. Qed.

  Lemma sim_prov : forall i i' p s s', id_rel (s_next s) i i' -> sim s s' -> sim (with_prov i p s) (with_prov i' p s').
  Proof.
    intros i i' p s s' (j & -> & -> & L) []. split; try apply own_prov; auto.
    destruct sm_provs0 as (k & E & E' & K). exists k. repeat split; auto. intros n Hn. cbn.
    destruct (Nat.eqb_spec n j) as [->|N].
    - rewrite !Nat.eqb_refl. reflexivity.
    - replace (Nat.eqb (b' + n) (b' + j)) with false by (symmetry; apply Nat.eqb_neq; lia).
      replace (Nat.eqb (b + n) (b + j)) with false by (symmetry; apply Nat.eqb_neq; lia).
      apply K. exact Hn.
  Qed.

  Lemma sim_read : forall i i' s s', id_rel (s_next s) i i' -> sim s s' -> s_provs s' i' = s_provs s i.
  Proof.
    intros i i' s s' (j & -> & -> & L) []. destruct sm_provs0 as (k & E & E' & K). apply K. lia.
  Qed.

  (** *** Code that does the same in both sessions *)

  Definition out_rel {A} (Q : A -> A -> Prop) (o o' : outcome A) : Prop :=
    match o, o' with
    | Ok a, Ok a' => Q a a'
    | Panic e, Panic e' => e' = e
    | Hang, Hang => True
    | NoFuel, NoFuel => True
    | _, _ => False
    end.

  Definition alike {A} (n : nat) (Q : nat -> A -> A -> Prop) (m m' : M st A) : Prop :=
    forall s s', sim s s' -> n <= s_next s ->
      sim (snd (m s)) (snd (m' s')) /\ s_next s <= s_next (snd (m s)) /\
      out_rel (Q (s_next (snd (m s)))) (fst (m s)) (fst (m' s')).
  Definition eqq {A} (n : nat) (a a' : A) : Prop := a' = a.

  Lemma out_refl : forall A (o : outcome A) n, out_rel (eqq n) o o.
  Proof. intros A [a|e| |] n; simpl; reflexivity || exact I. Qed.
  Lemma out_eq : forall A (o o' : outcome A) n, out_rel (eqq n) o o' -> o' = o.
  Proof. intros A [a|e| |] [a'|e'| |] n H; simpl in H; try contradiction; try reflexivity; rewrite H; reflexivity. Qed.

  Lemma a_le : forall A n m Q (x y : M st A), n <= m -> alike n Q x y -> alike m Q x y.
  Proof. intros A n m Q x y L H s s' HS K. apply H; [ exact HS | lia ]. Qed.

  Lemma a_lift : forall A n (o : outcome A), alike n eqq (lift o) (lift o).
  Proof. intros A n o s s' H _. cbn. three; auto. apply out_refl. Qed.
  Lemma a_ret : forall A n (a : A), alike n eqq (ret a) (ret a).
  Proof. intros A n a. exact (a_lift A n (Ok a)). Qed.
  Lemma a_panic : forall A n Q e, alike n Q (@panic st A e) (panic e).
  Proof. intros A n Q e s s' H _. cbn. three; auto. Qed.
  Lemma a_hang : forall A n Q, alike n Q (@hang st A) hang.
  Proof. intros A n Q s s' H _. cbn. three; auto. Qed.
  Lemma a_nofuel : forall A n Q, alike n Q (@nofuel st A) nofuel.
  Proof. intros A n Q s s' H _. cbn. three; auto. Qed.

  Lemma a_give : forall A n (Q : nat -> A -> A -> Prop) (a a' : A),
      (forall m, n <= m -> Q m a a') -> alike n Q (ret a) (ret a').
  Proof. intros A n Q a a' HQ s s' H L. cbn. three; auto. Qed.

  Lemma a_bind : forall A B n (Q : nat -> A -> A -> Prop) (Q' : nat -> B -> B -> Prop)
                   (m m' : M st A) (f f' : A -> M st B),
      alike n Q m m' -> (forall k a a', n <= k -> Q k a a' -> alike k Q' (f a) (f' a')) ->
      alike n Q' (bind m f) (bind m' f').
  Proof.
    intros A B n Q Q' m m' f f' Hm Hf s s' H L. destruct (Hm s s' H L) as (H1 & L1 & O).
    unfold bind. destruct (m s) as [o s1]. destruct (m' s') as [o' s1']. cbn [fst snd] in *.
    destruct o as [a|e| |], o' as [a'|e'| |]; simpl in O; try contradiction.
    - destruct (Hf (s_next s1) a a' (Nat.le_trans _ _ _ L L1) O s1 s1' H1 (le_n _)) as (H2 & L2 & O2).
      three; auto. lia.
    - cbn. three; auto.
    - cbn. three; auto.
    - cbn. three; auto.
  Qed.

  Lemma a_bind_eq : forall A B n (Q' : nat -> B -> B -> Prop) (m m' : M st A) (f f' : A -> M st B),
      alike n eqq m m' -> (forall k a, n <= k -> alike k Q' (f a) (f' a)) -> alike n Q' (bind m f) (bind m' f').
  Proof.
    intros A B n Q' m m' f f' Hm Hf. apply (a_bind A B n eqq Q'); [ exact Hm | ].
    intros k a a' L E. unfold eqq in E. subst a'. exact (Hf k a L).
  Qed.

  (** The operations on the ivContext and the explainer. *)
  Definition plain {A} (o : op A) : bool :=
    match o with
    | OScope | OMode | OStrat | OLuOpts | OSetLuOpts _ | OSetStrat _ | OReport _ => true
    | _ => false
    end.

  Lemma a_op : forall A n (o : op A), plain o = true -> alike n eqq (run_op o) (run_op o).
  Proof.
    intros A n o P s s' H _. pose proof (sm_iv s s' H) as Ei. pose proof (sm_ex s s' H) as Ex.
    destruct o; try discriminate P; cbv beta iota zeta delta [run_op]; cbn [fst snd];
      try rewrite !Ei; try rewrite Ex;
      try (three; [ auto using sim_iv | auto | simpl; reflexivity ]).
    destruct (iv_expl (s_iv s)); [ destruct (xaccept r (s_ex s)) as [x|] | ]; cbn [fst snd].
    - three; [ exact (sim_ex x s s' H) | auto | reflexivity ].
    - three; [ exact H | auto | reflexivity ].
    - three; [ exact H | auto | reflexivity ].
  Qed.

  Lemma a_only : forall A n (m : M st A), only_asks m -> alike n eqq m m.
  Proof.
    intros A n m (o & d & E) s s' H _. rewrite !E. cbn [fst snd].
    three; [ apply (sim_trace d d s s' H) | cbn; auto | apply out_refl ].
  Qed.

  (** A question with a lasting answer. *)
  Lemma a_ask : forall A n e (f : list event -> A), (forall t, f t = f []) -> alike n eqq (ask e f) (ask e f).
  Proof. intros A n e f H. apply a_only, oa_ask, H. Qed.

  (** The operations on providers. *)
  Lemma a_fn : forall n i i', id_rel n i i' -> alike n eqq (run_op (OFn i)) (run_op (OFn i')).
  Proof.
    intros n i i' Hi s s' H L. cbv beta iota zeta delta [run_op]. cbn [fst snd].
    rewrite (sim_read i i' s s' (id_mono _ _ _ _ L Hi) H). three; [ exact H | auto | reflexivity ].
  Qed.
  Lemma a_set_fn : forall n i i' l, id_rel n i i' -> alike n eqq (run_op (OSetFn i l)) (run_op (OSetFn i' l)).
  Proof.
    intros n i i' l Hi s s' H L. pose proof (id_mono _ _ _ _ L Hi) as K. cbv beta iota zeta delta [run_op]. cbn [fst snd].
    rewrite (sim_read i i' s s' K H). three; [ apply sim_prov; assumption | cbn; auto | reflexivity ].
  Qed.
  Lemma a_hash : forall n i i' k, id_rel n i i' -> alike n eqq (run_op (OHash i k)) (run_op (OHash i' k)).
  Proof.
    intros n i i' k Hi s s' H L. cbv beta iota zeta delta [run_op]. cbn [fst snd].
    rewrite (sim_read i i' s s' (id_mono _ _ _ _ L Hi) H). three; [ exact H | auto | reflexivity ].
  Qed.
  Lemma a_put_hash : forall n i i' k h, id_rel n i i' -> alike n eqq (run_op (OPutHash i k h)) (run_op (OPutHash i' k h)).
  Proof.
    intros n i i' k h Hi s s' H L. pose proof (id_mono _ _ _ _ L Hi) as K. cbv beta iota zeta delta [run_op]. cbn [fst snd].
    rewrite (sim_read i i' s s' K H). three; [ apply sim_prov; assumption | cbn; auto | reflexivity ].
  Qed.

  Lemma a_alloc : forall n, alike n id_rel (run_op OAlloc) (run_op OAlloc).
  Proof.
    intros n s s' H L. cbv beta iota zeta delta [run_op]. cbn [fst snd].
    destruct H as [Ei Ex Ec O O' Lk (j & E & E' & K)].
    three.
    - split; try apply own_next, own_prov; auto.
      + intro p. cbn. apply (orel_mono (s_next s)); [ lia | apply Ec ].
      + exists (S j). cbn. rewrite E, E'. split; [ lia | split; [ lia | ] ]. intros i Hi.
        destruct (Nat.eqb_spec i j) as [->|N].
        * rewrite !Nat.eqb_refl. reflexivity.
        * replace (Nat.eqb (b' + i) (b' + j)) with false by (symmetry; apply Nat.eqb_neq; lia).
          replace (Nat.eqb (b + i) (b + j)) with false by (symmetry; apply Nat.eqb_neq; lia).
          apply K. lia.
    - cbn. lia.
    - cbn. exists j. rewrite E, E'. repeat split; lia.
  Qed.

  Lemma a_config : forall n p, alike n (fun m => orel (rc_rel m)) (run_op (OConfig p)) (run_op (OConfig p)).
  Proof.
    intros n p s s' H L. cbv beta iota zeta delta [run_op]. cbn [fst snd].
    three; [ exact H | auto | exact (sm_configs s s' H p) ].
  Qed.
  Lemma a_set_config : forall n p c c', rc_rel n c c' ->
      alike n eqq (run_op (OSetConfig p c)) (run_op (OSetConfig p c')).
  Proof.
    intros n p c c' Hc s s' H L. cbv beta iota zeta delta [run_op]. cbn [fst snd].
    three; [ | cbn; auto | reflexivity ]. destruct H as [Ei Ex Ec O O' Lk K].
    split; try apply own_configs; auto. intro q. cbn [s_configs s_next with_configs]. rewrite !aget_set.
    destruct (String.eqb q p); [ | exact (Ec q) ]. simpl. exact (rc_mono n _ _ _ L Hc).
  Qed.

  (** *** Scopes *)

  Lemma a_around : forall A n (Q : nat -> A -> A -> Prop) (m m' : M st A) (s s' : st) (f f' g g' : st -> st),
      alike n Q m m' -> n <= s_next s ->
      s_next (f s) = s_next s -> sim (f s) (f' s') ->
      (forall t, s_next (g t) = s_next t) ->
      (forall t t', s_next s <= s_next t -> sim t t' -> sim (g t) (g' t')) ->
      let r := (let (o, t) := m (f s) in (o, g t)) in
      let r' := (let (o, t) := m' (f' s') in (o, g' t)) in
      sim (snd r) (snd r') /\ s_next s <= s_next (snd r) /\ out_rel (Q (s_next (snd r))) (fst r) (fst r').
  Proof.
    intros A n Q m m' s s' f f' g g' Hm L Nf Hf Ng Hg.
    destruct (Hm (f s) (f' s') Hf) as (H1 & L1 & O1); [ lia | ].
    destruct (m (f s)) as [o t]. destruct (m' (f' s')) as [o' t']. cbn [fst snd] in *.
    rewrite Nf in L1. cbn zeta. cbn [fst snd]. rewrite Ng. three; auto.
  Qed.

  Lemma a_scoped : forall A n (Q : nat -> A -> A -> Prop) sc (m m' : M st A),
      (forall i, sc <> SLocked i) -> alike n Q m m' -> alike n Q (run_scoped sc m) (run_scoped sc m').
  Proof.
    intros A n Q sc m m' NL Hm s s' H L. pose proof (sm_iv s s' H) as Ei. pose proof (sm_ex s s' H) as Ex.
    destruct sc; cbv beta iota zeta delta [run_scoped with_copy]; try rewrite !Ei; try rewrite !Ex.
    - destruct (iv_expl (s_iv s)); [ | apply Hm; assumption ].
      destruct (xpush k init (s_ex s)) as [x|].
      + apply (a_around A n Q m m' s s' (with_ex x) (with_ex x)
                 (fun t => with_ex (xpop (s_ex t)) t) (fun t => with_ex (xpop (s_ex t)) t)); auto.
        * apply sim_ex, H.
        * intros t t' _ K. rewrite (sm_ex t t' K). apply sim_ex, K.
      + cbn [fst snd]. three; [ apply sim_ex, H | cbn; auto | reflexivity ].
    - destruct (iv_mode (s_iv s)); try (apply Hm; assumption);
        match goal with |- context [m (with_iv ?i s)] =>
          apply (a_around A n Q m m' s s' (with_iv i) (with_iv i)
                   (fun t => with_iv (s_iv s) t) (fun t => with_iv (s_iv s) t)) end;
        auto; solve [ apply sim_iv, H | intros t t' _ K; apply sim_iv, K ].
    - destruct (iv_mode (s_iv s)); try (apply Hm; assumption);
        match goal with |- context [m (with_iv ?i s)] =>
          apply (a_around A n Q m m' s s' (with_iv i) (with_iv i)
                   (fun t => with_iv (s_iv s) t) (fun t => with_iv (s_iv s) t)) end;
        auto; solve [ apply sim_iv, H | intros t t' _ K; apply sim_iv, K ].
    - destruct (iv_expl (s_iv s)); [ | apply Hm; assumption ].
        match goal with |- context [m (with_iv ?i s)] =>
          apply (a_around A n Q m m' s s' (with_iv i) (with_iv i)
                   (fun t => with_iv (s_iv s) t) (fun t => with_iv (s_iv s) t)) end;
        auto; solve [ apply sim_iv, H | intros t t' _ K; apply sim_iv, K ].
    - destruct (Hm (with_iv (iv_with_scope sc (s_iv s)) s) (with_iv (iv_with_scope sc (s_iv s)) s')
                  (sim_iv _ _ _ H) L) as (H1 & L1 & O1).
      destruct (m (with_iv (iv_with_scope sc (s_iv s)) s)) as [o t].
      destruct (m' (with_iv (iv_with_scope sc (s_iv s)) s')) as [o' t']. cbn [fst snd] in *.
      change (s_next (with_iv (iv_with_scope sc (s_iv s)) s)) with (s_next s) in L1.
      destruct o as [a|e| |], o' as [a'|e'| |]; simpl in O1; try contradiction; cbn [fst snd];
        try (three; auto; fail).
      three; [ | exact L1 | exact O1 ]. rewrite (sm_iv t t' H1). apply sim_iv, H1.
    - destruct (iv_redacted (s_iv s)); [ apply Hm; assumption | ].
      match goal with |- context [m (with_iv ?i s)] =>
          apply (a_around A n Q m m' s s' (with_iv i) (with_iv i)
                   (fun t => with_iv (iv_with_redacted false (s_iv t)) t)
                   (fun t => with_iv (iv_with_redacted false (s_iv t)) t)) end; auto.
      + apply sim_iv, H.
      + intros t t' _ K. rewrite (sm_iv t t' K). apply sim_iv, K.
    - destruct (NL id eq_refl).
  Qed.

  Lemma a_locked : forall A n (Q : nat -> A -> A -> Prop) i i' (m m' : M st A),
      id_rel n i i' -> alike n Q m m' -> alike n Q (run_scoped (SLocked i) m) (run_scoped (SLocked i') m').
  Proof.
    intros A n Q i i' m m' Hi Hm s s' H L. pose proof (id_mono _ _ _ _ L Hi) as K.
    cbv beta iota zeta delta [run_scoped]. rewrite (sim_read i i' s s' K H).
    destruct (ps_locked (s_provs s i)); [ three; [ exact H | auto | exact I ] | ].
    apply (a_around A n Q m m' s s'
             (with_prov i (mk_pstate (ps_fn (s_provs s i)) (ps_hashes (s_provs s i)) true))
             (with_prov i' (mk_pstate (ps_fn (s_provs s i)) (ps_hashes (s_provs s i)) true))
             (fun t => with_prov i (mk_pstate (ps_fn (s_provs t i)) (ps_hashes (s_provs t i)) false) t)
             (fun t => with_prov i' (mk_pstate (ps_fn (s_provs t i')) (ps_hashes (s_provs t i')) false) t)); auto.
    - apply sim_prov; assumption.
    - intros t t' Lt Ht. pose proof (id_mono _ _ _ _ Lt K) as K'. rewrite (sim_read i i' t t' K' Ht).
      apply sim_prov; assumption.
  Qed.

  (** *** The caches of the session *)

  Lemma own_shared_loaded : forall p c s, can_be_read w p c -> own s ->
      own (with_shared (aput p (ShLoaded c) (s_shared s)) s).
  Proof.
    intros p c s Hc []. split; auto; cbn [s_shared s_trace with_shared]; intros q; [ intros d | ]; rewrite aget_set;
      destruct (String.eqb_spec q p) as [->|N]; auto; try discriminate.
    intro E. injection E as <-. exact Hc.
  Qed.
  Lemma own_shared_locked : forall p s, (forall c, ~ can_be_read w p c) -> In (EvConfig p) (s_trace s) -> own s ->
      own (with_shared (aput p ShLocked (s_shared s)) s).
  Proof.
    intros p s Hc Hi []. split; auto; cbn [s_shared s_trace with_shared]; intros q; [ intros d | ]; rewrite aget_set;
      destruct (String.eqb_spec q p) as [->|N]; auto; try discriminate.
  Qed.

  Lemma read_det : forall p c d, can_be_read w p c -> can_be_read w p d -> d = c.
  Proof. intros p c d H K. unfold can_be_read in *. congruence. Qed.

  (** What loading a configuration does. *)
  Definition loading (p : string) (s : st) : st := with_trace (s_trace s ++ [EvConfig p])%list s.
  Lemma load_ok : forall p s c, can_be_read w p c ->
      load_config w p s = (Ok c, with_shared (aput p (ShLoaded c) (aput p ShLocked (s_shared s))) (loading p s)).
  Proof.
    intros p s c H. unfold load_config, ask, bind, ret, lift. cbv beta iota zeta delta [run_op].
    rewrite (la_config w Lasting). unfold can_be_read in H. cbn. rewrite H. reflexivity.
  Qed.
  Lemma load_fails : forall p, (forall c, ~ can_be_read w p c) ->
      exists o, (forall c, o <> Ok c) /\ forall s,
        load_config w p s = (o, with_shared (aput p ShLocked (s_shared s)) (loading p s)).
  Proof.
    intros p H. unfold load_config, ask, bind, ret, lift. cbv beta iota zeta delta [run_op].
    unfold can_be_read in H. destruct (config_new (w_env w) p (w_config w [] p)) as [c|e| |] eqn:E.
    - destruct (H c eq_refl).
    - exists (Panic e). split; [ discriminate | ]. intro s. rewrite (la_config w Lasting), E. reflexivity.
    - exists Hang. split; [ discriminate | ]. intro s. rewrite (la_config w Lasting), E. reflexivity.
    - exists NoFuel. split; [ discriminate | ]. intro s. rewrite (la_config w Lasting), E. reflexivity.
  Qed.

  Lemma own_load : forall p c s, can_be_read w p c -> own s ->
      own (with_shared (aput p (ShLoaded c) (aput p ShLocked (s_shared s))) (loading p s)).
  Proof.
    intros p c s Hc H. apply (own_trace [EvConfig p]) in H. fold (loading p s) in H.
    pose proof H as [Hl Hk Hm Hy].
    split; auto; cbn [s_shared s_trace with_shared]; intros q; [ intros d | ]; rewrite !aget_set;
      destruct (String.eqb_spec q p) as [->|N]; auto; try discriminate.
    intro E. injection E as <-. exact Hc.
  Qed.

  Lemma a_shared : forall n p, alike n eqq (shared_config w p) (shared_config w p).
  Proof.
    intros n p s s' H L. pose proof H as [Ei Ex Ec O O' Lk K]. unfold shared_config.
    unfold bind. cbv beta iota zeta delta [run_op].
    assert (Dec : (exists c, can_be_read w p c) \/ forall c, ~ can_be_read w p c).
    { unfold can_be_read. destruct (config_new (w_env w) p (w_config w [] p)) as [c|e| |];
        [ left; eauto | right; discriminate .. ]. }
    destruct (aget p (s_shared s)) as [[c|]|] eqn:E; destruct (aget p (s_shared s')) as [[c'|]|] eqn:E'.
    - rewrite (read_det p c c' (ow_loaded s O p c E) (ow_loaded s' O' p c' E')).
      cbn [fst snd ret lift]. three; [ exact H | auto | reflexivity ].
    - apply Lk in E'. congruence.
    - pose proof (ow_loaded s O p c E) as Hc. rewrite (load_ok p s' c Hc). cbn [fst snd ret lift].
      three; [ | auto | reflexivity ]. split; auto; [ exact (own_load p c s' Hc O') | ].
      intro q. cbn [s_shared with_shared]. rewrite !aget_set. destruct (String.eqb_spec q p) as [->|N]; [ | apply Lk ].
      rewrite E. split; discriminate.
    - apply Lk in E. congruence.
    - cbn. three; [ exact H | auto | exact I ].
    - apply Lk in E. congruence.
    - pose proof (ow_loaded s' O' p c' E') as Hc. rewrite (load_ok p s c' Hc). cbn [fst snd ret lift].
      three; [ | auto | reflexivity ]. split; auto; [ exact (own_load p c' s Hc O) | ].
      intro q. cbn [s_shared with_shared]. rewrite !aget_set. destruct (String.eqb_spec q p) as [->|N]; [ | apply Lk ].
      rewrite E'. split; discriminate.
    - apply Lk in E'. congruence.
    - destruct Dec as [[c Hc]|Hn].
      + rewrite !(load_ok p _ c Hc). cbn [fst snd]. three; [ | auto | reflexivity ].
        split; auto; [ exact (own_load p c s Hc O) | exact (own_load p c s' Hc O') | ].
        intro q. cbn [s_shared with_shared]. rewrite !aget_set.
        destruct (String.eqb_spec q p) as [->|N]; [ split; discriminate | apply Lk ].
      + destruct (load_fails p Hn) as (o & No & F). rewrite !F. cbn [fst snd].
        three; [ | auto | apply out_refl ].
        split; auto.
        * apply (own_shared_locked p (loading p s)); [ exact Hn | cbn; apply in_or_app; right; left; reflexivity | apply own_trace, O ].
        * apply (own_shared_locked p (loading p s')); [ exact Hn | cbn; apply in_or_app; right; left; reflexivity | apply own_trace, O' ].
        * intro q. cbn [s_shared with_shared loading with_trace]. rewrite !aget_set.
          destruct (String.eqb_spec q p) as [->|N]; [ split; reflexivity | apply Lk ].
  Qed.

  (** A part of the state that is filled with what comes out of asking. *)
  Lemma own_mod : forall k c s, comes_out (search k) c -> own s -> own (with_mods (aput k c (s_mods s)) s).
  Proof.
    intros k c s Hc []. split; auto. cbn [s_mods with_mods]. intros q d. rewrite aget_set.
    destruct (String.eqb_spec q k) as [->|N]; auto. intro E. injection E as <-. exact Hc.
  Qed.
  Lemma own_tpc : forall m s, comes_out yaml_file m -> own s -> own (with_tpc (aput "yaml::data" (VMap m) (s_tpc s)) s).
  Proof.
    intros m s Hc []. split; auto. cbn [s_tpc with_tpc]. intros v. rewrite aget_set, String.eqb_refl.
    intro E. injection E as <-. eauto.
  Qed.

  Lemma a_module : forall n k, alike n eqq (module_config w k) (module_config w k).
  Proof.
    intros n k s s' H L. pose proof H as [Ei Ex Ec O O' Lk K]. unfold module_config.
    fold (search k). destruct (oa_search k) as (o & d & F).
    unfold bind. cbv beta iota zeta delta [run_op].
    destruct (aget k (s_mods s)) as [c|] eqn:E; destruct (aget k (s_mods s')) as [c'|] eqn:E'.
    - pose proof (ow_mods s O k c E s) as Hc. pose proof (ow_mods s' O' k c' E' s) as Hc'.
      rewrite Hc in Hc'. injection Hc' as <-. cbn [fst snd ret lift]. three; [ exact H | auto | reflexivity ].
    - pose proof (ow_mods s O k c E) as Hc. pose proof (Hc s) as Hs. rewrite F in Hs. cbn [fst] in Hs. subst o.
      rewrite F. cbn [fst snd ret lift]. three; [ | auto | reflexivity ].
      split; auto. apply (own_mod k c (with_trace (s_trace s' ++ d)%list s') Hc). apply own_trace, O'.
    - pose proof (ow_mods s' O' k c' E') as Hc. pose proof (Hc s) as Hs. rewrite F in Hs. cbn [fst] in Hs. subst o.
      rewrite F. cbn [fst snd ret lift]. three; [ | auto | reflexivity ].
      split; auto. apply (own_mod k c' (with_trace (s_trace s ++ d)%list s) Hc). apply own_trace, O.
    - rewrite !F. destruct o as [c|e| |]; cbn [fst snd ret lift].
      + assert (Hc : comes_out (search k) c) by (intro t; rewrite F; reflexivity).
        three; [ | auto | reflexivity ]. split; auto.
        * apply (own_mod k c (with_trace (s_trace s ++ d)%list s) Hc). apply own_trace, O.
        * apply (own_mod k c (with_trace (s_trace s' ++ d)%list s') Hc). apply own_trace, O'.
      + three; [ apply (sim_trace d d s s' H) | auto | reflexivity ].
      + three; [ apply (sim_trace d d s s' H) | auto | exact I ].
      + three; [ apply (sim_trace d d s s' H) | auto | exact I ].
  Qed.

  Lemma a_ext : forall A n (Q : nat -> A -> A -> Prop) (m x : M st A),
      (forall s, m s = x s) -> alike n Q x x -> alike n Q m m.
  Proof. intros A n Q m x E H s s' HS L. rewrite !E. exact (H s s' HS L). Qed.

  Definition yaml_data : M st value :=
    bind (run_op (OCached "yaml::data")) (fun c => match c with
      | Some d => ret d
      | None => bind yaml_file (fun m => bind (run_op (OCache "yaml::data" (VMap m))) (fun _ => ret (VMap m)))
      end).

  Lemma a_yaml_data : forall n, alike n eqq yaml_data yaml_data.
  Proof.
    unfold yaml_data.
    intros n s s' H L. pose proof H as [Ei Ex Ec O O' Lk K].
      destruct (oa_file_data false [(VStr "path", nil_to_null (w_yamlpath w))]) as (o & d & F). fold yaml_file in F.
      unfold bind. cbv beta iota zeta delta [run_op].
      destruct (aget "yaml::data" (s_tpc s)) as [v|] eqn:E; destruct (aget "yaml::data" (s_tpc s')) as [v'|] eqn:E'.
      - destruct (ow_yaml s O v E) as (m & -> & Hm). destruct (ow_yaml s' O' v' E') as (m' & -> & Hm').
        specialize (Hm s). specialize (Hm' s). rewrite Hm in Hm'. injection Hm' as <-.
        cbn [fst snd ret lift]. three; [ exact H | auto | reflexivity ].
      - destruct (ow_yaml s O v E) as (m & -> & Hm). pose proof (Hm s) as Hs. rewrite F in Hs. cbn [fst] in Hs. subst o.
        rewrite F. cbn [fst snd ret lift]. three; [ | auto | reflexivity ].
        split; auto. apply (own_tpc m (with_trace (s_trace s' ++ d)%list s') Hm). apply own_trace, O'.
      - destruct (ow_yaml s' O' v' E') as (m & -> & Hm). pose proof (Hm s) as Hs. rewrite F in Hs. cbn [fst] in Hs. subst o.
        rewrite F. cbn [fst snd ret lift]. three; [ | auto | reflexivity ].
        split; auto. apply (own_tpc m (with_trace (s_trace s ++ d)%list s) Hm). apply own_trace, O.
      - rewrite !F. destruct o as [m|e| |]; cbn [fst snd ret lift].
        + assert (Hm : comes_out yaml_file m) by (intro t; rewrite F; reflexivity).
          three; [ | auto | reflexivity ]. split; auto.
          * apply (own_tpc m (with_trace (s_trace s ++ d)%list s) Hm). apply own_trace, O.
          * apply (own_tpc m (with_trace (s_trace s' ++ d)%list s') Hm). apply own_trace, O'.
        + three; [ apply (sim_trace d d s s' H) | auto | reflexivity ].
        + three; [ apply (sim_trace d d s s' H) | auto | exact I ].
        + three; [ apply (sim_trace d d s s' H) | auto | exact I ].
  Qed.

  Lemma a_yaml_lookup : forall n k, alike n eqq (yaml_lookup w k) (yaml_lookup w k).
  Proof.
    intros n k.
    apply (a_ext _ n eqq _ (bind yaml_data (fun d => match d with VMap m => ret (mgets k m) | _ => panic nil_deref end))).
    - intro s. unfold yaml_lookup, yaml_data. fold yaml_file. unfold bind.
      destruct (run_op (OCached "yaml::data") s) as [[[c|]|e| |] t]; reflexivity.
    - apply a_bind_eq; [ apply a_yaml_data | ]. intros m d _. destruct d; first [ apply a_ret | apply a_panic ].
  Qed.

  (** *** The engine *)

  Ltac lasts :=
    first [ apply (la_stat w Lasting) | apply (la_glob w Lasting) | apply (la_config w Lasting)
          | apply (la_yaml w Lasting) | apply (la_json w Lasting) | apply (la_fun w Lasting)
          | apply (la_plugin w Lasting) | apply (la_call w Lasting) | apply (la_dig w Lasting) ].

  Ltac step :=
    match goal with
    | |- alike _ _ (ret _) _ => apply a_ret
    | |- alike _ _ (panic _) _ => apply a_panic
    | |- alike _ _ hang _ => apply a_hang
    | |- alike _ _ nofuel _ => apply a_nofuel
    | |- alike _ _ (lift _) _ => apply a_lift
    | |- alike _ _ (ask _ _) _ => apply a_ask; intro; lasts
    | |- alike _ _ (run_op _) _ => apply a_op; reflexivity
    | |- alike _ _ (run_scoped _ _) _ => apply a_scoped; [ intro; discriminate | ]
    | |- alike _ _ (bind _ _) _ => apply a_bind_eq; [ | let L := fresh "L" in intros ? ? L ]
    | |- alike _ _ (if ?b then _ else _) _ => destruct b
    | |- alike _ _ (match ?x with _ => _ end) _ => destruct x
    end.
  Ltac walk := repeat (first [ solve [eauto] | step ]).

  Section Merging.
    Variable L : Type.
    Variable QL : nat -> L -> L -> Prop.
    Hypothesis Hmono : forall n m l l', n <= m -> QL n l l' -> QL m l l'.
    Variable n0 : nat.
    Variables f f' : L -> M st (option value).
    Hypothesis Hf : forall n l l', n0 <= n -> QL n l l' -> alike n eqq (f l) (f' l').

    Lemma all_mono : forall n m vs vs', n <= m -> Forall2 (QL n) vs vs' -> Forall2 (QL m) vs vs'.
    Proof. intros n m vs vs' Hn H. induction H; constructor; eauto. Qed.

    Lemma a_first_loop : forall vs vs' n, n0 <= n -> Forall2 (QL n) vs vs' ->
        alike n eqq (first_loop f vs) (first_loop f' vs').
    Proof.
      induction vs as [|x r IH]; intros vs' n Hn H; inversion H as [|? x' ? r' Hx Hr]; subst; simpl; [ walk | ].
      apply a_bind_eq; [ apply Hf; assumption | intros k v Hk ].
      destruct v; [ walk | ]. apply IH; [ lia | exact (all_mono n k r r' Hk Hr) ].
    Qed.

    Lemma a_merge_loop : forall s vs vs' n memo, n0 <= n -> Forall2 (QL n) vs vs' ->
        alike n eqq (merge_loop f s memo vs) (merge_loop f' s memo vs').
    Proof.
      intros s. induction vs as [|x r IH]; intros vs' n memo Hn H; inversion H as [|? x' ? r' Hx Hr]; subst; simpl;
        [ walk | ].
      apply a_bind_eq; [ apply Hf; assumption | intros k v Hk ].
      apply IH; [ lia | exact (all_mono n k r r' Hk Hr) ].
    Qed.

    Lemma a_report_some : forall n v, alike n eqq (report_some report_result v) (report_some report_result v).
    Proof. intros n v. unfold report_some, report_result. walk. Qed.

    Lemma a_merging : forall s vs vs', Forall2 (QL n0) vs vs' -> alike n0 eqq (merging s vs f) (merging s vs' f').
    Proof.
      intros s vs vs' H. unfold merging, merge_lookup, with_merge. pose proof a_report_some.
      destruct s; destruct H as [|x x' r r' Hx [|y y' q q' Hy Hq]]; repeat step; eauto;
        try (apply Hf; [ lia | assumption ]);
        try (apply a_first_loop; [ lia | repeat constructor; assumption ]);
        try (apply a_merge_loop; [ lia | repeat constructor; assumption ]).
    Qed.
  End Merging.

  Lemma a_merging_same : forall L n (f f' : L -> M st (option value)) s vs,
      (forall m l, n <= m -> alike m eqq (f l) (f' l)) -> alike n eqq (merging s vs f) (merging s vs f').
  Proof.
    intros L n f f' s vs Hf. apply (a_merging L (fun _ l l' => l' = l)).
    - intros; assumption.
    - intros m l l' Hm ->. apply Hf, Hm.
    - induction vs; constructor; auto.
  Qed.

  Lemma a_fill : forall n i i' k m m', id_rel n i i' -> alike n eqq m m' -> alike n eqq (fill i k m) (fill i' k m').
  Proof.
    intros n i i' k m m' Hi Hm. unfold fill. apply a_locked; [ exact Hi | ].
    apply a_bind_eq; [ apply a_hash; exact Hi | intros p h Hp ]. destruct h; [ apply a_ret | ].
    apply a_bind_eq; [ apply (a_le _ n p); assumption | intros q x Hq ].
    apply a_bind_eq; [ apply a_put_hash, (id_mono n); [ lia | exact Hi ] | intros; apply a_ret ].
  Qed.

  Lemma a_set_merge : forall n c l, alike n eqq (set_merge c l) (set_merge c l).
  Proof. intros n c l. unfold set_merge. walk. Qed.

  Section Rec.
  Variable rec : req -> M st res.
  Hypothesis Hrec : forall n r, alike n eqq (rec r) (rec r).

  Lemma a_do_interp : forall allow v n, alike n eqq (do_interp rec allow v) (do_interp rec allow v).
  Proof.
    intros allow. fix IH 1. intros v n.
    destruct v as [|b0|z|z|s|l|m|v]; simpl; try (apply a_ret); try (apply Hrec).
    - apply a_bind_eq; [ | intros; apply a_ret ]. revert n.
      induction l as [|x t IHl]; intro n; [ apply a_ret | ].
      apply a_bind_eq; [ apply IH | intros p q Hp ].
      apply a_bind_eq; [ apply IHl | intros; apply a_ret ].
    - apply a_bind_eq; [ | intros; apply a_ret ].
      generalize (@nil (value * value)). revert n.
      induction m as [|[k v] t IHm]; intros n cp; [ apply a_ret | ].
      apply a_bind_eq; [ apply IH | intros ]. apply a_bind_eq; [ apply IH | intros ].
      apply a_bind_eq; [ apply IHm | intros; apply a_ret ].
  Qed.

  Lemma a_interpolate : forall n allow v, alike n eqq (interpolate rec allow v) (interpolate rec allow v).
  Proof. intros. pose proof a_do_interp. unfold interpolate. walk. Qed.

  Lemma a_dig_step : forall n p v, alike n eqq (dig_step p v) (dig_step p v).
  Proof. intros. unfold dig_step. walk. Qed.

  Lemma a_dig_loop : forall ps n v, alike n eqq (dig_loop ps v) (dig_loop ps v).
  Proof. pose proof a_dig_step. induction ps as [|p r IH]; intros n v; simpl; walk. Qed.

  Lemma a_dig_in : forall n k v, alike n eqq (dig_in k v) (dig_in k v).
  Proof. intros. pose proof a_dig_loop. unfold dig_in. destruct (tl (k_parts k)); walk. Qed.

  Lemma a_in_scope : forall n allow e, alike n eqq (in_scope rec allow e) (in_scope rec allow e).
  Proof. intros. pose proof a_do_interp. pose proof a_dig_in. unfold in_scope. walk. Qed.

  Lemma a_istr_loop : forall str allow ts n acc m result,
      alike n eqq (istr_loop w rec str allow ts acc m result) (istr_loop w rec str allow ts acc m result).
  Proof.
    pose proof a_in_scope.
    intros str allow. induction ts as [|t r IH]; intros n acc m result; simpl; [ apply a_ret | ].
    destruct t as [l|e]; [ apply IH | ].
    destruct (empty_interpolation (trim_space e)); [ apply IH | ].
    apply a_bind_eq; [ walk | intros k md Hk ].
    destruct (is_alias (fst md) && negb (String.eqb ("%{" ++ e ++ "}") str)); [ walk | ].
    destruct (fst md); walk.
  Qed.

  Lemma a_istr : forall n s allow, alike n eqq (istr w rec s allow) (istr w rec s allow).
  Proof. intros. pose proof a_istr_loop. unfold istr. walk. Qed.

  Lemma a_run_prog : forall p, remembers_nothing p -> forall n, alike n eqq (run_prog rec p) (run_prog rec p).
  Proof.
    pose proof a_interpolate.
    intros p Hp. induction Hp; intro n; simpl; walk.
  Qed.

  Lemma a_call_fn : forall n f a, alike n eqq (call_fn w rec f a) (call_fn w rec f a).
  Proof.
    intros n f a. unfold call_fn.
    apply (a_bind _ _ n (fun _ p p' => p = w_call w [] f a /\ p' = w_call w [] f a) eqq).
    - intros s s' H L. unfold ask, bind, ret, lift. cbv beta iota zeta delta [run_op]. cbn [fst snd].
      rewrite (la_call w Lasting (s_trace s)), (la_call w Lasting (s_trace s')). three; [ apply (sim_trace _ _ s s' H) | auto | split; reflexivity ].
    - intros k p p' _ [-> ->]. apply a_run_prog, Memory.
  Qed.

  Lemma a_load_function : forall n e f, alike n eqq (load_function w e f) (load_function w e f).
  Proof. intros. unfold load_function. walk. Qed.

  Lemma a_provider_options : forall n e l, alike n eqq (provider_options e l) (provider_options e l).
  Proof. intros. unfold provider_options. walk. Qed.

  Lemma a_load_provider : forall n e f, alike n eqq (load_provider w e f) (load_provider w e f).
  Proof. intros. pose proof a_load_function. unfold load_provider. walk. Qed.

  Lemma a_provider_function : forall n i i' e f, id_rel n i i' ->
      alike n eqq (provider_function w i e f) (provider_function w i' e f).
  Proof.
    intros n i i' e f Hi. unfold provider_function.
    apply a_bind_eq; [ apply a_fn, Hi | intros k x Hk ]. destruct x; [ apply a_ret | ].
    apply a_bind_eq; [ apply a_load_provider | intros q l Hq ].
    apply a_bind_eq; [ apply a_set_fn, (id_mono n); [ lia | exact Hi ] | intros; apply a_ret ].
  Qed.

  Lemma a_file_data : forall n j o, alike n eqq (file_data w j o) (file_data w j o).
  Proof. intros. apply a_only, oa_file_data. Qed.

  Lemma a_call_hash : forall n l o, alike n eqq (call_hash w rec l o) (call_hash w rec l o).
  Proof. intros. pose proof a_file_data. pose proof a_call_fn. unfold call_hash. walk. Qed.

  Lemma a_data_hash : forall n i i' e f l, id_rel n i i' ->
      alike n eqq (data_hash w rec i e f l) (data_hash w rec i' e f l).
  Proof.
    intros n i i' e f l Hi. unfold data_hash.
    apply a_bind_eq; [ walk | intros k1 k Hk ].
    apply a_bind_eq; [ apply a_provider_options | intros k2 opts Hk2 ].
    assert (I2 : id_rel k2 i i') by (apply (id_mono n); [ lia | exact Hi ]).
    apply a_bind_eq; [ apply a_locked; [ exact I2 | apply a_hash, I2 ] | intros k3 h Hk3 ].
    destruct h; [ apply a_ret | ].
    assert (I3 : id_rel k3 i i') by (apply (id_mono n); [ lia | exact Hi ]).
    apply a_fill; [ exact I3 | ]. apply a_bind_eq; [ apply a_provider_function, I3 | intros; apply a_call_hash ].
  Qed.

  Lemma a_scope_lookup : forall n k, alike n eqq (scope_lookup k) (scope_lookup k).
  Proof. intros. unfold scope_lookup. walk. Qed.

  Lemma a_call_key : forall n l o k, alike n eqq (call_key w rec l o k) (call_key w rec l o k).
  Proof. intros. pose proof a_scope_lookup. pose proof a_call_fn. unfold call_key. walk. Qed.

  Lemma a_call_dig : forall n l p, alike n eqq (call_dig w l p) (call_dig w l p).
  Proof. intros. unfold call_dig. walk. Qed.

  Lemma a_report_found : forall n k v, alike n eqq (report_found k v) (report_found k v).
  Proof. intros. unfold report_found. walk. Qed.

  Lemma a_provider_lookup : forall n k p p' l, p_rel n p p' ->
      alike n eqq (provider_lookup w rec k p l) (provider_lookup w rec k p' l).
  Proof.
    intros n k p p' l [E Hi]. unfold provider_lookup. cbn zeta. rewrite E.
    pose proof a_interpolate. pose proof a_report_found. pose proof a_provider_options.
    pose proof a_call_key. pose proof a_call_dig.
    destruct (e_function (p_entry p)) as [f|]; [ | apply a_panic ]. destruct (f_kind f).
    - apply a_bind_eq; [ walk | intros k2 o Hk2 ].
      apply a_bind_eq; [ apply a_provider_function, (id_mono n); [ lia | exact Hi ] | intros k3 h Hk3 ]. walk.
    - apply a_bind_eq; [ apply a_lift | intros k1 r Hk1 ].
      apply a_bind_eq; [ apply a_data_hash, (id_mono n); [ lia | exact Hi ] | intros k2 h Hk2 ]. walk.
    - apply a_bind_eq; [ apply a_lift | intros k1 r Hk1 ]. apply a_bind_eq; [ walk | intros k2 o Hk2 ].
      apply a_bind_eq; [ apply a_provider_function, (id_mono n); [ lia | exact Hi ] | intros k3 h Hk3 ]. walk.
  Qed.

  Lemma a_invoke : forall n k p p' l, p_rel n p p' -> alike n eqq (invoke w rec k p l) (invoke w rec k p' l).
  Proof. intros n k p p' l H. pose proof (a_provider_lookup n k p p' (Some l) H). unfold invoke. walk. Qed.

  Lemma a_merge_locations : forall n k s p p', p_rel n p p' ->
      alike n eqq (merge_locations w rec k s p) (merge_locations w rec k s p').
  Proof.
    intros n k s p p' H. unfold merge_locations. rewrite (proj1 H).
    destruct (e_function (p_entry p)) as [f|]; [ | apply a_panic ].
    apply a_scoped; [ intro; discriminate | ].
    destruct (e_locations (p_entry p)) as [[|x [|y r]]|].
    - apply a_ret.
    - apply a_invoke, H.
    - apply a_merging_same. intros m l Hm. apply a_invoke, (p_mono n); assumption.
    - apply a_provider_lookup, H.
  Qed.

  Lemma a_merge_hierarchy : forall n k ps ps' s, Forall2 (p_rel n) ps ps' ->
      alike n eqq (merge_hierarchy w rec k ps s) (merge_hierarchy w rec k ps' s).
  Proof.
    intros n k ps ps' s H. unfold merge_hierarchy. destruct s as [s|]; [ | apply a_panic ].
    apply (a_merging provider p_rel p_mono); [ | exact H ].
    intros m p p' _ Hp. apply a_merge_locations, Hp.
  Qed.

  Lemma a_create_provider : forall n e, alike n p_rel (create_provider e) (create_provider e).
  Proof.
    intros n e. unfold create_provider. destruct (e_function e); [ | apply a_panic ].
    apply (a_bind _ _ n id_rel p_rel); [ apply a_alloc | ]. intros k i i' Hk Hi.
    apply a_give. intros m Hm. split; [ reflexivity | exact (id_mono k m _ _ Hm Hi) ].
  Qed.

  Section ResolveEntry.
    Variables (is : string -> M st (option value * bool)) (ivl : value -> M st (option value))
              (isc : string -> M st (option value))
              (wv : string -> value -> M st location -> M st location)
              (sta : string -> M st bool) (gl : string -> M st (list string)).
    Hypothesis H1 : forall n s, alike n eqq (is s) (is s).
    Hypothesis H2 : forall n s, alike n eqq (ivl s) (ivl s).
    Hypothesis H3 : forall n s, alike n eqq (isc s) (isc s).
    Hypothesis H4 : forall n k v m, alike n eqq m m -> alike n eqq (wv k v m) (wv k v m).
    Hypothesis H5 : forall n s, alike n eqq (sta s) (sta s).
    Hypothesis H6 : forall n s, alike n eqq (gl s) (gl s).
    Variables (show : value -> string) (env : environ) (rt : string).

    Lemma a_show_opt : forall n o, alike n eqq (show_opt (S:=st) show o) (show_opt show o).
    Proof. intros. unfold show_opt. walk. Qed.

    Lemma a_resolve_function : forall n d e, alike n eqq (resolve_function is show d e) (resolve_function is show d e).
    Proof. intros. pose proof a_show_opt. unfold resolve_function, function_resolve. walk. Qed.

    Lemma a_resolve_datadir : forall n d e, alike n eqq (resolve_datadir is show env d e) (resolve_datadir is show env d e).
    Proof. intros. pose proof a_show_opt. pose proof a_resolve_function. unfold resolve_datadir, interp_dir. walk. Qed.

    Lemma a_resolve_plugindir : forall n d e, alike n eqq (resolve_plugindir is show env rt d e) (resolve_plugindir is show env rt d e).
    Proof. intros. pose proof a_show_opt. unfold resolve_plugindir, interp_dir. walk. Qed.

    Lemma a_resolve_options : forall n d e, alike n eqq (resolve_options ivl d e) (resolve_options ivl d e).
    Proof. intros. unfold resolve_options. walk. Qed.

    Lemma a_resolve_mapped : forall dr k t l n, alike n eqq (resolve_mapped is wv sta show dr k t l) (resolve_mapped is wv sta show dr k t l).
    Proof.
      intros dr k t. pose proof a_show_opt. induction l as [|x r IH]; intro n; simpl; [ apply a_ret | ].
      apply a_bind_eq; [ apply H4 | intros ]; walk.
    Qed.

    Lemma a_resolve_location : forall n dr l,
        alike n eqq (resolve_location is isc wv sta gl show dr l) (resolve_location is isc wv sta gl show dr l).
    Proof.
      intros. pose proof a_show_opt. pose proof a_resolve_mapped. unfold resolve_location. destruct l; walk.
    Qed.

    Lemma a_resolve_all : forall dr l n,
        alike n eqq (resolve_all is isc wv sta gl show dr l) (resolve_all is isc wv sta gl show dr l).
    Proof.
      intros dr l. pose proof a_resolve_location. induction l as [|x r IH]; intro n; simpl; walk.
    Qed.

    Lemma a_entry_resolve : forall n d e,
        alike n eqq (entry_resolve is ivl isc wv sta gl show env rt d e) (entry_resolve is ivl isc wv sta gl show env rt d e).
    Proof.
      intros. pose proof a_resolve_function. pose proof a_resolve_datadir. pose proof a_resolve_plugindir.
      pose proof a_resolve_options. pose proof a_resolve_all.
      unfold entry_resolve, resolve_locations. walk.
    Qed.
  End ResolveEntry.

  Lemma a_resolve_entry : forall n rt d e, alike n eqq (resolve_entry w rec rt d e) (resolve_entry w rec rt d e).
  Proof.
    intros. unfold resolve_entry.
    pose proof a_interpolate. pose proof a_in_scope. apply a_entry_resolve; intros; walk. eapply a_le; [ | eassumption ]; assumption.
  Qed.

  Lemma a_create_each : forall rt d es n,
      alike n (fun m => Forall2 (p_rel m)) (create_each w rec rt d es) (create_each w rec rt d es).
  Proof.
    intros rt d. induction es as [|e r IH]; intro n; cbn [create_each].
    - apply a_give. intros; constructor.
    - apply a_bind_eq; [ apply a_resolve_entry | intros k1 e' Hk1 ].
      apply (a_bind _ _ k1 p_rel _); [ apply a_create_provider | intros k2 p p' Hk2 Hp ].
      apply (a_bind _ _ k2 (fun m => Forall2 (p_rel m)) _); [ apply IH | intros k3 ps ps' Hk3 Hps ].
      apply a_give. intros m Hm. constructor; [ apply (p_mono k2); [ lia | exact Hp ] | apply (ps_mono k3); assumption ].
  Qed.

  Lemma a_create_providers : forall n c es,
      alike n (fun m => Forall2 (p_rel m)) (create_providers w rec c es) (create_providers w rec c es).
  Proof.
    intros. unfold create_providers. apply a_bind_eq; [ apply a_resolve_entry | intros; apply a_create_each ].
  Qed.

  Lemma a_resolve_config : forall n c m, alike n rc_rel (resolve_config w rec c m) (resolve_config w rec c m).
  Proof.
    intros n c m. unfold resolve_config.
    apply (a_bind _ _ n (fun k x y => Forall2 (p_rel k) (fst x) (fst y) /\ Forall2 (p_rel k) (snd x) (snd y)) _).
    - apply a_scoped; [ intro; discriminate | ].
      apply (a_bind _ _ n (fun k => Forall2 (p_rel k)) _); [ apply a_create_providers | intros k1 ps ps' Hk1 Hps ].
      apply (a_bind _ _ k1 (fun k => Forall2 (p_rel k)) _); [ apply a_create_providers | intros k2 ds ds' Hk2 Hds ].
      apply a_give. intros k Hk. split; [ apply (ps_mono k1); [ lia | exact Hps ] | apply (ps_mono k2); assumption ].
    - intros k1 [ps ds] [ps' ds'] Hk1 [Hps Hds]. cbn [fst snd] in *.
      apply a_bind_eq; [ apply a_lift | intros k2 k Hk2 ].
      apply a_bind_eq.
      + apply a_scoped; [ intro; discriminate | ]. apply a_scoped; [ intro; discriminate | ].
        apply (a_merging provider p_rel p_mono); [ | apply (ps_mono k1); [ lia | exact Hps ] ].
        intros q p p' _ Hp. apply a_merge_locations, Hp.
      + intros k3 v Hk3. apply a_give. intros q Hq. split; cbn; auto; apply (ps_mono k1); auto; lia.
  Qed.

  Lemma a_get_config : forall n p m, alike n rc_rel (get_config w rec p m) (get_config w rec p m).
  Proof.
    intros n p m. unfold get_config. cbn zeta.
    apply (a_bind _ _ n (fun k => orel (rc_rel k)) _); [ apply a_config | intros k1 x x' Hk1 Hx ].
    destruct x as [rc|], x' as [rc'|]; simpl in Hx; try contradiction.
    - apply a_give. intros q Hq. exact (rc_mono k1 q _ _ Hq Hx).
    - apply a_bind_eq; [ apply a_shared | intros k2 c Hk2 ].
      apply (a_bind _ _ k2 rc_rel _); [ apply a_resolve_config | intros k3 rc rc' Hk3 Hr ].
      apply a_bind_eq; [ apply a_set_config, Hr | intros k4 u Hk4 ].
      apply a_give. intros q Hq. apply (rc_mono k3); [ lia | exact Hr ].
  Qed.

  Lemma a_extract_conversion : forall n, alike n eqq (extract_conversion w) (extract_conversion w).
  Proof. intros. unfold extract_conversion. walk. Qed.

  Lemma a_lookup_and_convert : forall n m m', alike n eqq m m' -> alike n eqq (lookup_and_convert w m) (lookup_and_convert w m').
  Proof.
    intros n m m' H. unfold lookup_and_convert.
    assert (G : forall k, n <= k -> alike k eqq m m') by (intros; apply (a_le _ n); assumption).
    pose proof a_extract_conversion. apply a_bind_eq; [ eauto | intros k1 x Hk1 ].
    walk.
  Qed.

  Lemma a_config_lookup_at : forall n o p k m, alike n eqq (config_lookup_at w rec o p k m) (config_lookup_at w rec o p k m).
  Proof.
    intros n o p k m. pose proof a_set_merge. unfold config_lookup_at.
    apply (a_bind _ _ n rc_rel _); [ apply a_get_config | intros k1 c c' Hk1 Hc ].
    assert (Elo : forall x, lookup_options c' x = lookup_options c x).
    { intro x. unfold lookup_options. rewrite (rr_luopts _ _ _ Hc), (rr_module _ _ _ Hc). reflexivity. }
    apply a_bind_eq; [ apply a_lift | intros k2 kk Hk2 ]. rewrite Elo.
    assert (G : forall q s, k1 <= q -> alike q eqq (merge_hierarchy w rec kk (rc_providers c) s)
                                               (merge_hierarchy w rec kk (rc_providers c') s)).
    { intros q s Hq. apply a_merge_hierarchy, (ps_mono k1); [ exact Hq | apply (rr_providers _ _ _ Hc) ]. }
    apply a_bind_eq; [ walk | intros k3 mode Hk3 ]. destruct mode.
    - apply a_scoped; [ intro; discriminate | ]. apply a_scoped; [ intro; discriminate | ].
      apply a_bind_eq; [ apply a_lift | intros k4 lo Hk4 ]. apply a_bind_eq; [ eauto | intros k5 u Hk5 ].
      apply a_lookup_and_convert. apply a_bind_eq; [ walk | intros k6 s Hk6 ]. apply G. lia.
    - walk.
    - apply a_bind_eq; [ walk | intros k4 s Hk4 ]. apply G. lia.
  Qed.

  Lemma a_module_lookup : forall n o k, alike n eqq (module_lookup w rec o k) (module_lookup w rec o k).
  Proof. intros. pose proof a_module. pose proof a_config_lookup_at. unfold module_lookup. walk. Qed.

  Lemma a_call_lk : forall n f o k, alike n eqq (call_lk w rec f o k) (call_lk w rec f o k).
  Proof.
    intros. pose proof a_config_lookup_at. pose proof a_module_lookup. pose proof a_yaml_lookup.
    pose proof a_scope_lookup. pose proof a_call_fn. unfold call_lk. walk.
  Qed.

  Lemma a_mux_lookup : forall n o k, alike n eqq (mux_lookup w rec o k) (mux_lookup w rec o k).
  Proof.
    intros. pose proof a_call_lk. pose proof a_set_merge. unfold mux_lookup. walk.
    - apply a_merging_same. eauto.
    - apply a_lookup_and_convert. walk. apply a_merging_same. eauto.
  Qed.

  Lemma a_lookup : forall n k o, alike n eqq (lookup w rec k o) (lookup w rec k o).
  Proof.
    intros. pose proof a_call_lk. pose proof a_interpolate. pose proof a_dig_in. unfold lookup. walk.
  Qed.

  Lemma a_body : forall n r, alike n eqq (body w rec r) (body w rec r).
  Proof.
    intros. pose proof a_istr. pose proof a_lookup. pose proof a_mux_lookup. unfold body. walk.
  Qed.
  End Rec.

  Lemma a_run : forall N n r, alike n eqq (run w N r) (run w N r).
  Proof. induction N as [|N IH]; intros n r; simpl; [ apply a_nofuel | apply a_body; exact IH ]. Qed.

  Lemma a_run_lookup : forall N n k o, alike n eqq (run_lookup w N k o) (run_lookup w N k o).
  Proof. intros. unfold run_lookup. apply a_bind_eq; [ apply a_run | intros; apply a_ret ]. Qed.

  Lemma sim_invocation : forall sc ex s s', sim s s' -> sim (invocation sc ex s) (invocation sc ex s').
  Proof.
    intros sc ex s s' [Ei Ex Ec O O' Lk K]. unfold invocation.
    split; auto; try (apply own_configs, own_iv; assumption). intro p. exact I.
  Qed.

  Lemma a_serve : forall N ex rs s s', sim s s' ->
      fst (serve w N ex rs s') = fst (serve w N ex rs s) /\ sim (snd (serve w N ex rs s)) (snd (serve w N ex rs s')).
  Proof.
    intros N ex. induction rs as [|r t IH]; intros s s' H; cbn [serve]; [ split; [ reflexivity | exact H ] | ].
    destruct (a_run_lookup N 0 (q_key r) (q_opts r) _ _ (sim_invocation (q_scope r) ex s s' H) (Nat.le_0_l _)) as (H1 & _ & O1).
    apply out_eq in O1.
    destruct (run_lookup w N (q_key r) (q_opts r) (invocation (q_scope r) ex s)) as [o s1].
    destruct (run_lookup w N (q_key r) (q_opts r) (invocation (q_scope r) ex s')) as [o' s1'].
    cbn [fst snd] in *. subst o'. specialize (IH s1 s1' H1) as [E K].
    destruct (serve w N ex t s1) as [os s2]. destruct (serve w N ex t s1') as [os' s2']. cbn [fst snd] in *.
    subst os'. split; [ reflexivity | exact K ].
  Qed.
End Alone.
