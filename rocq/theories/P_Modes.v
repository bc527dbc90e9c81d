(** What explainers of the different modes record: C30, C31. *)

From Coq Require Import String List ZArith Bool Arith Lia.
From Verif Require Import Str Value Outcome Key Merge Fpath Config Ipl Explain State Engine Worlds Meta Kept Session.
From Verif Require Import SpecExplain Transparent Redacted.
Import ListNotations.
Open Scope string_scope.
Open Scope list_scope.
Open Scope bool_scope.
Open Scope monad_scope.

(** ** The place of the explainer, for all parts of the engine *)

Definition placed (s s' : st) : Prop := x_nil (s_ex s) = false -> same_place (s_ex s) (s_ex s').

Lemma placed_full : full (steps placed).
Proof.
  apply steps_full.
  - intros s _. apply same_place_refl.
  - intros s1 s2 s3 A B H. specialize (A H). apply (same_place_trans _ _ _ A). apply B.
    destruct A as (_ & _ & A & _). congruence.
  - intros A o s H. destruct o; unfold run_op; try apply same_place_refl.
    destruct (iv_expl (s_iv s)); [ | apply same_place_refl ].
    destruct (xaccept r (s_ex s)) as [y|] eqn:E; [ exact (accept_place _ _ _ E) | apply same_place_refl ].
  - intros A sc m Hm s H. destruct sc; unfold run_scoped, with_copy.
    + destruct (iv_expl (s_iv s)); [ | exact (Hm s H) ].
      destruct (xpush k init (s_ex s)) as [x|] eqn:E; [ | unfold xpush in E; rewrite H in E; discriminate ].
      assert (Hx : x_nil (s_ex (with_ex x s)) = false).
      { unfold xpush in E. rewrite H in E. inversion E. reflexivity. }
      specialize (Hm (with_ex x s) Hx). destruct (m (with_ex x s)) as [o s']. exact (push_pop_place _ _ _ _ _ E Hm).
    + destruct (iv_mode (s_iv s)); try exact (Hm s H);
        match goal with |- context [m ?x] => specialize (Hm x H); destruct (m x) as [o s'] end; exact Hm.
    + destruct (iv_mode (s_iv s)); try exact (Hm s H);
        match goal with |- context [m ?x] => specialize (Hm x H); destruct (m x) as [o s'] end; exact Hm.
    + destruct (iv_expl (s_iv s)); [ | exact (Hm s H) ].
      match goal with |- context [m ?x] => specialize (Hm x H); destruct (m x) as [o s'] end; exact Hm.
    + match goal with |- context [m ?x] => specialize (Hm x H); destruct (m x) as [[a|e| |] s'] end; exact Hm.
    + destruct (iv_redacted (s_iv s)); [ exact (Hm s H) | ].
      match goal with |- context [m ?x] => specialize (Hm x H); destruct (m x) as [o s'] end; exact Hm.
    + destruct (ps_locked (s_provs s id)); [ apply same_place_refl | ].
      match goal with |- context [m ?x] => specialize (Hm x H); destruct (m x) as [o s'] end; exact Hm.
Qed.

Lemma placed_closed w : closed w (steps placed).
Proof. apply full_closed. exact placed_full. Qed.

(** ** Nothing is recorded *)

(** An explainer that only explains options is not in use in data mode. *)
Definition data_off (s : st) : Prop := iv_mode (s_iv s) = MdData -> iv_expl (s_iv s) = false.
(** One that does not explain options is not in use in lookup-options mode. *)
Definition search_off (s : st) : Prop := iv_mode (s_iv s) = MdLookup -> iv_expl (s_iv s) = false.

(** Code that leaves an explainer alone that is not in use: all of the engine. *)
Definition silent_off {A} (m : M st A) : Prop :=
  forall s, iv_expl (s_iv s) = false -> s_ex (snd (m s)) = s_ex s.

Lemma kept_silent {A} (m : M st A) : steps kept A m m -> silent_off m.
Proof. intros H s E. exact (kp_ex _ _ (H s) E). Qed.

Lemma data_silent {A} (m : M st A) s : silent_off m -> x_only (s_ex s) = true -> data_off s ->
  s_ex (snd (run_scoped SData m s)) = s_ex s.
Proof.
  intros Hm Ho Hd. unfold run_scoped, with_copy.
  assert (C : forall i, iv_expl i = false -> s_ex (snd (let (o, s') := m (with_iv i s) in (o, with_iv (s_iv s) s'))) = s_ex s).
  { intros i Hi. specialize (Hm (with_iv i s) Hi). destruct (m (with_iv i s)) as [o s']. exact Hm. }
  destruct (iv_mode (s_iv s)) eqn:E; [ apply C | apply C | exact (Hm s (Hd E)) ];
    cbn [iv_expl iv_with_mode iv_with_expl]; rewrite Ho; apply andb_false_r.
Qed.

Lemma search_silent {A} (m : M st A) s : silent_off m -> x_only (s_ex s) = false -> x_options (s_ex s) = false -> search_off s ->
  s_ex (snd (run_scoped SLookup m s)) = s_ex s.
Proof.
  intros Hm Ho Hp Hd. unfold run_scoped, with_copy.
  assert (C : forall i, iv_expl i = false -> s_ex (snd (let (o, s') := m (with_iv i s) in (o, with_iv (s_iv s) s'))) = s_ex s).
  { intros i Hi. specialize (Hm (with_iv i s) Hi). destruct (m (with_iv i s)) as [o s']. exact Hm. }
  destruct (iv_mode (s_iv s)) eqn:E; [ apply C | exact (Hm s (Hd E)) | apply C ];
    cbn [iv_expl iv_with_mode iv_with_expl]; rewrite Ho, Hp; apply andb_false_r.
Qed.

Lemma config_silent {A} (m : M st A) s : silent_off m -> s_ex (snd (run_scoped SConfig m s)) = s_ex s.
Proof.
  intro Hm. unfold run_scoped, with_copy. destruct (iv_expl (s_iv s)) eqn:E; [ | exact (Hm s E) ].
  specialize (Hm (with_iv (iv_with_expl false (s_iv s)) s) eq_refl).
  destruct (m (with_iv (iv_with_expl false (s_iv s)) s)) as [o s']. exact Hm.
Qed.

Lemma shared_same w p s : s_ex (snd (shared_config w p s)) = s_ex s /\ s_iv (snd (shared_config w p s)) = s_iv s.
Proof.
  unfold shared_config, load_config, ask, bind, run_op, ret, lift, hang.
  destruct (aget p (s_shared s)) as [[c|]|]; [ split; reflexivity .. | ].
  match goal with |- context [config_new ?a ?b ?c] => destruct (config_new a b c) end; split; reflexivity.
Qed.

Lemma config_kept {A} (m : M st A) s : steps kept A m m ->
  iv_mode (s_iv (snd (run_scoped SConfig m s))) = iv_mode (s_iv s) /\
  iv_expl (s_iv (snd (run_scoped SConfig m s))) = iv_expl (s_iv s).
Proof.
  intro K. unfold run_scoped, with_copy. destruct (iv_expl (s_iv s)) eqn:E.
  - destruct (m (with_iv (iv_with_expl false (s_iv s)) s)) as [o s']. cbn [snd with_iv s_iv]. auto.
  - destruct (K s) as [_ K2 K3 _ _]. rewrite K2, K3. auto.
Qed.

(** The search for the lookup options when a configuration is resolved. *)
Definition options_search (w : world) (n : nat) (ps : list provider) : M st (option value) :=
  run_scoped SLookup
    (run_scoped (SNode NLookup "lookup_options")
       (merging (SDeep []) ps (merge_locations w (run w n) (mk_key "lookup_options" [PStr "lookup_options"]) (SDeep [])))).

(** Getting a configuration changes the explanation by this search at most. *)
Lemma get_config_ex w n p md s :
  s_ex (snd (get_config w (run w n) p md s)) = s_ex s \/
  exists ps s1, s_ex s1 = s_ex s /\ iv_mode (s_iv s1) = iv_mode (s_iv s) /\ iv_expl (s_iv s1) = iv_expl (s_iv s) /\
    s_ex (snd (get_config w (run w n) p md s)) = s_ex (snd (options_search w n ps s1)).
Proof.
  pose proof (kept_closed w) as C. pose proof (c_run w _ C n) as Hrec.
  destruct (get_config w (run w n) p md s) as [o s'] eqn:G. cbn [snd].
  unfold get_config in G. set (path := if String.eqb p "" then w_cfgpath w else p) in *. cbv zeta in G.
  unfold bind at 1 in G. change (run_op (OConfig path) s) with (Ok (aget path (s_configs s)), s) in G.
  cbv beta iota in G. destruct (aget path (s_configs s)) as [rc|]; [ left; inversion G; reflexivity | ].
  unfold bind at 1 in G. destruct (shared_same w path s) as [X1 X2].
  destruct (shared_config w path s) as [[c|e| |] s0]; cbn [snd] in X1, X2; try (left; inversion G; subst; exact X1).
  unfold bind at 1, resolve_config in G. unfold bind at 1 in G.
  set (m := (ps <- create_providers w (run w n) c (c_hierarchy c);;
             ds <- create_providers w (run w n) c (c_default_hierarchy c);; ret (ps, ds))) in *.
  assert (K : steps kept _ m m).
  { apply (c_bind w _ C); [ apply (c_create_providers w _ C); exact Hrec | intro ].
    apply (c_bind w _ C); [ apply (c_create_providers w _ C); exact Hrec | intro; apply (c_lift w _ C) ]. }
  pose proof (config_silent m s0 (kept_silent _ K)) as Sx. pose proof (config_kept m s0 K) as [Sm Se].
  destruct (run_scoped SConfig m s0) as [[[ps ds]|e| |] s1]; cbn [snd] in Sx, Sm, Se;
    try (left; inversion G; congruence).
  right. exists ps, s1. split; [ congruence | split; [ congruence | split; [ congruence | ] ] ].
  unfold bind at 1 in G.
  change (lift (new_key "lookup_options") s1 : outcome key * st) with (Ok (mk_key "lookup_options" [PStr "lookup_options"]) : outcome key, s1) in G.
  cbv beta iota in G. unfold bind at 1 in G. unfold options_search. cbn [k_source fst] in G.
  match goal with |- context [run_scoped SLookup ?x s1] => destruct (run_scoped SLookup x s1) as [[v|e| |] s2] end;
    inversion G; reflexivity.
Qed.

Lemma kept_search w n ps k s : steps kept _ (merging s ps (merge_locations w (run w n) k s)) (merging s ps (merge_locations w (run w n) k s)).
Proof.
  pose proof (kept_closed w) as C. pose proof (c_run w _ C n) as Hrec.
  apply (c_merging w _ C). intro. apply (c_merge_locations w _ C). exact Hrec.
Qed.

Lemma silent_node {A} k i (m : M st A) : silent_off m -> silent_off (run_scoped (SNode k i) m).
Proof. intros H s E. unfold run_scoped. rewrite E. exact (H s E). Qed.

(** ** C30 *)

(** An explainer that explains no options: getting a configuration, in which the
    lookup options are searched, records nothing at all, whatever the mode of
    the invocation, and neither does any other search for lookup options. *)
Theorem C30_search_not_recorded : forall w n p md s,
  x_options (s_ex s) = false -> x_only (s_ex s) = false -> search_off s ->
  s_ex (snd (get_config w (run w n) p md s)) = s_ex s.
Proof.
  intros w n p md s Hp Ho Hs. destruct (get_config_ex w n p md s) as [E|(ps & s1 & E1 & E2 & E3 & E)]; [ exact E | ].
  rewrite E. unfold options_search. rewrite search_silent; [ exact E1 | | congruence | congruence | ].
  - apply silent_node. apply kept_silent. apply kept_search.
  - intro H. rewrite E3. apply Hs. congruence.
Qed.
Print Assumptions C30_search_not_recorded.

(** An explainer that only explains options: whatever runs in data mode records
    nothing at all. *)
Theorem C30_data_not_recorded : forall w n q s,
  x_only (s_ex s) = true -> data_off s ->
  s_ex (snd (run_scoped SData (run w n q) s)) = s_ex s.
Proof.
  intros w n q s Ho Hd. apply data_silent; [ | exact Ho | exact Hd ]. apply kept_silent.
  exact (c_run w _ (kept_closed w) n q).
Qed.
Print Assumptions C30_data_not_recorded.

(** *** What a lookup adds below the root *)

(** [m] adds nothing to the current node but branches. *)
Definition keyed {A} (m : M st A) : Prop := forall s k f r,
  x_nil (s_ex s) = false -> x_open (s_ex s) = (k, f) :: r ->
  exists f', x_open (s_ex (snd (m s))) = (k, f') :: r /\ fr_k f' = fr_k f /\
             x_nil (s_ex (snd (m s))) = false.

Lemma keyed_lift {A} (o : outcome A) : keyed (lift o).
Proof. intros s k f r Hn Hx. exists f. split; [ exact Hx | split; [ reflexivity | exact Hn ] ]. Qed.

Lemma keyed_bind {A B} (m : M st A) (g : A -> M st B) : keyed m -> (forall a, keyed (g a)) -> keyed (bind m g).
Proof.
  intros Hm Hg s k f r Hn Hx. specialize (Hm s k f r Hn Hx). unfold bind. destruct (m s) as [[a|e| |] s1]; try exact Hm.
  destruct Hm as (f1 & X1 & K1 & N1). destruct (Hg a s1 k f1 r N1 X1) as (f2 & X2 & K2 & N2).
  exists f2. split; [ exact X2 | split; [ congruence | exact N2 ] ].
Qed.

Lemma keyed_node {A} k i (m : M st A) : steps kept A m m -> steps placed A m m -> keyed (run_scoped (SNode k i) m).
Proof.
  intros K P s k0 f0 r Hn Hx. unfold run_scoped. destruct (iv_expl (s_iv s)) eqn:E.
  - unfold xpush. rewrite Hn.
    match goal with |- context [m ?x] => specialize (P x eq_refl); destruct (m x) as [o s'] end.
    cbn [snd with_ex s_ex] in *. destruct P as (_ & _ & Pn & P). cbn [x_open] in P.
    destruct P as (_ & f' & P & _). unfold xpop. rewrite P, Hx. cbn [x_open x_nil].
    exists (add_branch (close k f') f0). split; [ reflexivity | split; [ reflexivity | exact Pn ] ].
  - rewrite (kept_silent m K s E). exists f0. split; [ exact Hx | split; [ reflexivity | exact Hn ] ].
Qed.

Lemma keyed_search w n ps k : keyed (merging (SDeep []) ps (merge_locations w (run w n) k (SDeep []))).
Proof.
  pose proof (kept_closed w) as C. pose proof (c_run w _ C n) as Hrec.
  pose proof (placed_closed w) as C2. pose proof (c_run w _ C2 n) as Hrec2.
  assert (L : forall p, keyed (merge_locations w (run w n) k (SDeep []) p)).
  { intro p. unfold merge_locations. destruct (e_function (p_entry p)) as [f|]; [ | exact (keyed_lift (Panic nil_deref)) ].
    apply keyed_node.
    - destruct (e_locations (p_entry p)) as [[|l [|l' ls]]|].
      + apply (c_lift w _ C).
      + apply (c_invoke w _ C); exact Hrec.
      + apply (c_merging w _ C); intro; apply (c_invoke w _ C); exact Hrec.
      + apply (c_provider_lookup w _ C); exact Hrec.
    - destruct (e_locations (p_entry p)) as [[|l [|l' ls]]|].
      + apply (c_lift w _ C2).
      + apply (c_invoke w _ C2); exact Hrec2.
      + apply (c_merging w _ C2); intro; apply (c_invoke w _ C2); exact Hrec2.
      + apply (c_provider_lookup w _ C2); exact Hrec2. }
  unfold merging, merge_lookup. destruct ps as [|p [|p' ps]].
  - exact (keyed_lift (Ok None)).
  - apply keyed_bind; [ apply L | intro; exact (keyed_lift (Ok _)) ].
  - unfold with_merge. apply keyed_node.
    + apply (c_bind w _ C); [ apply (c_merge_loop w _ C); intro; apply (c_merge_locations w _ C); exact Hrec | intro; apply (c_report_some w _ C) ].
    + apply (c_bind w _ C2); [ apply (c_merge_loop w _ C2); intro; apply (c_merge_locations w _ C2); exact Hrec2 | intro; apply (c_report_some w _ C2) ].
Qed.

(** A node about a search for lookup options, or the one that says that
    lookup_options is no key. *)
Definition about_options (b : node) : Prop :=
  match b with
  | Node NLookup _ _ _ _ k => k = "lookup_options"
  | Node NInvalid _ _ _ _ _ => True
  | _ => False
  end.

(** An explainer at its root with such branches only. *)
Definition options_below (x : explainer) : Prop :=
  x_open x = [] /\ x_nil x = false /\ x_only x = true /\ Forall about_options (fr_bs (x_root x)).

Lemma node_at_root {A} k i (m : M st A) s : iv_expl (s_iv s) = true -> options_below (s_ex s) ->
  (exists o f s', m (with_ex (mk_explainer (x_options (s_ex s)) true (x_root (s_ex s)) [(k, new_frame i)] false) s) = (o, s') /\
     x_open (s_ex s') = [(k, f)] /\ x_root (s_ex s') = x_root (s_ex s) /\ x_nil (s_ex s') = false /\ x_only (s_ex s') = true /\
     about_options (close k f)) ->
  options_below (s_ex (snd (run_scoped (SNode k i) m s))).
Proof.
  intros E (B1 & B2 & B3 & B4) (o & f & s' & Em & X1 & X2 & X3 & X4 & X5).
  unfold run_scoped. rewrite E. unfold xpush. rewrite B2, B1, B3, Em. cbn [snd with_ex s_ex].
  unfold xpop. rewrite X1. split; [ reflexivity | split; [ exact X3 | split; [ exact X4 | ] ] ].
  cbn [x_root add_branch fr_bs]. rewrite X2. apply Forall_app. split; [ exact B4 | constructor; [ exact X5 | constructor ] ].
Qed.

Lemma search_below w n ps s : options_below (s_ex s) -> iv_mode (s_iv s) = MdTop ->
  options_below (s_ex (snd (options_search w n ps s))).
Proof.
  intros B Hm. pose proof B as (B1 & B2 & B3 & B4). unfold options_search.
  set (m := run_scoped (SNode NLookup "lookup_options") (merging (SDeep []) ps
     (merge_locations w (run w n) (mk_key "lookup_options" [PStr "lookup_options"]) (SDeep [])))).
  unfold run_scoped at 1, with_copy. rewrite Hm.
  match goal with |- context [m ?x] => set (s1 := x) end.
  enough (G : options_below (s_ex (snd (m s1)))) by (destruct (m s1); exact G).
  destruct (iv_expl (s_iv s1)) eqn:E.
  - apply node_at_root; [ exact E | exact B | ].
    match goal with |- context [merging (SDeep []) ps ?g ?x] => set (s2 := x); set (mm := merging (SDeep []) ps g) end.
    pose proof (keyed_search w n ps (mk_key "lookup_options" [PStr "lookup_options"]) s2 NLookup (new_frame "lookup_options") [] eq_refl eq_refl) as (f & X & K & N).
    assert (P : same_place (s_ex s2) (s_ex (snd (mm s2)))).
    { pose proof (placed_closed w) as C2. pose proof (c_run w _ C2 n) as Hrec2.
      assert (M : steps placed _ mm mm); [ | exact (M s2 eq_refl) ].
      apply (c_merging w _ C2). intro. apply (c_merge_locations w _ C2). exact Hrec2. }
    fold mm in X, N. destruct (mm s2) as [o s'] eqn:Em. cbn [snd] in *.
    exists o, f, s'. split; [ reflexivity | split; [ exact X | ] ].
    destruct P as (P1 & P2 & P3 & P4). cbn in P4. destruct P4 as (P4 & _).
    split; [ exact P4 | split; [ exact N | split; [ exact P2 | exact K ] ] ].
  - unfold m. rewrite (silent_node NLookup "lookup_options" _ (kept_silent _ (kept_search w n ps _ _)) s1 E). exact B.
Qed.

Lemma config_lookup_ex w n opts path key md s :
  x_only (s_ex s) = true -> x_nil (s_ex s) = false -> iv_mode (s_iv s) = MdTop ->
  s_ex (snd (config_lookup_at w (run w n) opts path key md s)) = s_ex (snd (get_config w (run w n) path md s)).
Proof.
  intros Ho Hn Hm. pose proof (kept_closed w) as C. pose proof (c_run w _ C n) as Hrec.
  assert (K : kept s (snd (get_config w (run w n) path md s))).
  { apply (c_get_config w _ C (run w n) (run w n)); try (intro; apply quiet_run); exact Hrec. }
  pose proof (placed_closed w) as C2.
  assert (P : same_place (s_ex s) (s_ex (snd (get_config w (run w n) path md s)))).
  { apply (c_get_config w _ C2 (run w n) (run w n)); try (intro; apply quiet_run); [ exact (c_run w _ C2 n) | exact Hn ]. }
  unfold config_lookup_at, bind at 1.
  destruct (get_config w (run w n) path md s) as [[cfg|e| |] s1]; cbn [snd] in *; try reflexivity.
  unfold bind at 1, lift. destruct (new_key key) as [k|e| |]; try reflexivity.
  unfold bind at 1. change (run_op OMode s1) with (Ok (iv_mode (s_iv s1)), s1). cbv beta iota.
  rewrite (kp_mode _ _ K), Hm. apply data_silent.
  - apply silent_node. apply kept_silent.
    apply (c_bind w _ C); [ apply (c_lift w _ C) | intro lo ].
    apply (c_bind w _ C); [ apply (c_set_merge w _ C) | intro ].
    apply (c_lookup_and_convert w _ C). apply (c_bind w _ C); [ apply (c_op w _ C); reflexivity | intro ].
    apply (c_merge_hierarchy w _ C). exact Hrec.
  - destruct P as (_ & P & _). congruence.
  - intro X. rewrite (kp_mode _ _ K), Hm in X. discriminate X.
Qed.

Lemma lookup_below w n k opts s : w_top w = LkConfig -> options_below (s_ex s) ->
  iv_mode (s_iv s) = MdTop -> iv_expl (s_iv s) = true ->
  options_below (s_ex (snd (run_lookup w n k opts s))).
Proof.
  intros Ht B Hm He. pose proof B as (B1 & B2 & B3 & B4). unfold run_lookup.
  enough (G : options_below (s_ex (snd (run w n (RLookup k opts) s)))).
  { unfold bind. destruct (run w n (RLookup k opts) s) as [[r|e| |] s']; exact G. }
  destruct n as [|n]; [ exact B | ]. cbn [run body].
  enough (G : options_below (s_ex (snd (lookup w (run w n) k opts s)))).
  { unfold bind. destruct (lookup w (run w n) k opts s) as [[r|e| |] s']; exact G. }
  unfold lookup, bind at 1, lift. destruct (root k) as [r|e| |]; try exact B.
  destruct (String.eqb r "lookup_options").
  { apply node_at_root; [ exact He | exact B | ].
    unfold bind, run_op. cbn [with_ex s_iv s_ex]. rewrite He. unfold xaccept. cbn [x_nil x_open].
    eexists _, _, _. split; [ reflexivity | ]. cbn [s_ex with_ex x_open x_root x_nil x_only].
    repeat split; reflexivity. }
  rewrite Ht. cbn [call_lk].
  set (opts' := match opts with Some o => o | None => [] end).
  assert (G : options_below (s_ex (snd (config_lookup_at w (run w n) opts' (w_cfgpath w) r "" s)))).
  { rewrite (config_lookup_ex w n opts' (w_cfgpath w) r "" s B3 B2 Hm).
    destruct (get_config_ex w n (w_cfgpath w) "" s) as [E|(ps & s1 & E1 & E2 & E3 & E)]; rewrite E; [ exact B | ].
    apply search_below; congruence. }
  pose proof (kept_closed w) as C. pose proof (c_run w _ C n) as Hrec.
  assert (K : kept s (snd (config_lookup_at w (run w n) opts' (w_cfgpath w) r "" s))).
  { apply (c_config_lookup_at w _ C (run w n) (run w n)); try (intro; apply quiet_run); exact Hrec. }
  unfold bind at 1. destruct (config_lookup_at w (run w n) opts' (w_cfgpath w) r "" s) as [[[x|]|e| |] s1]; try exact G.
  cbn [snd] in G, K. rewrite data_silent; [ exact G | | exact (proj1 (proj2 (proj2 G))) | ].
  - apply kept_silent. apply (c_bind w _ C); [ apply (c_interpolate w _ C); exact Hrec | intro; apply (c_dig_in w _ C) ].
  - intro X. rewrite (kp_mode _ _ K), Hm in X. discriminate X.
Qed.

(** Sessions that look keys up in the configuration with an explainer that only
    explains options: all that is below the root of the explanation, after any
    lookups with whatever outcomes, are nodes about the search for lookup
    options, and nodes that say that lookup_options is no key. *)
Theorem C30_only_options : forall w n rs sc options,
  w_top w = LkConfig ->
  let x := s_ex (snd (serve w n true rs (init_st sc (Some (new_explainer options true))))) in
  x_open x = [] /\ Forall about_options (fr_bs (x_root x)).
Proof.
  intros w n rs sc options Ht x.
  assert (G : options_below x); [ | destruct G as (G1 & _ & _ & G2); auto ].
  assert (S : forall rs s, options_below (s_ex s) -> options_below (s_ex (snd (serve w n true rs s)))).
  { clear - Ht. induction rs as [|r rs IH]; intros s B; [ exact B | ]. cbn [serve].
    pose proof (lookup_below w n (q_key r) (q_opts r) (invocation (q_scope r) true s) Ht B eq_refl eq_refl) as L.
    destruct (run_lookup w n (q_key r) (q_opts r) (invocation (q_scope r) true s)) as [o s1]. cbn [snd] in L.
    specialize (IH s1 L). destruct (serve w n true rs s1) as [os s2]. exact IH. }
  apply S. split; [ reflexivity | split; [ reflexivity | split; [ reflexivity | constructor ] ] ].
Qed.
Print Assumptions C30_only_options.

(** A key with lookup options that say to convert it to Sensitive. *)
Definition secret_w : world :=
  file_world [("/h/hiera.yaml", levels ["common"])]
    [("/h/data/common.yaml", vmap [("lookup_options", vmap [("pw", vmap [("convert_to", VStr "sensitive")])]); ("pw", VStr "s3cret")])].
Definition pw : key := mk_key "pw" [PStr "pw"].
Definition explained (w : world) (options only : bool) : explainer :=
  s_ex (snd (serve w 9 true [mk_request (ScMap []) pw None; mk_request (ScMap []) (mk_key "lookup_options" [PStr "lookup_options"]) None]
               (init_st (ScMap []) (Some (new_explainer options only))))).
Definition roots (x : explainer) : list (nkind * string) :=
  map (fun b => match b with Node k _ _ _ _ s => (k, s) end) (fr_bs (x_root x)).

Example C30_only_options_ex :
  Forall about_options (fr_bs (x_root (explained secret_w false true))) /\
  roots (explained secret_w false true) = [(NLookup, "lookup_options"); (NInvalid, "lookup_options")] /\
  roots (explained secret_w true false) = [(NLookup, "lookup_options"); (NLookup, "pw"); (NInvalid, "lookup_options")] /\
  roots (explained secret_w false false) = [(NLookup, "pw"); (NInvalid, "lookup_options")].
Proof.
  split; [ | vm_compute; repeat split; reflexivity ].
  exact (proj2 (C30_only_options secret_w 9 [mk_request (ScMap []) pw None; mk_request (ScMap []) (mk_key "lookup_options" [PStr "lookup_options"]) None]
                  (ScMap []) false eq_refl)).
Qed.

Example C30_search_ex :
  let s := init_st (ScMap []) (Some (new_explainer false false)) in
  s_ex (snd (get_config secret_w (run secret_w 9) "" "" s)) = s_ex s /\
  s_ex (snd (get_config secret_w (run secret_w 9) "" "" (init_st (ScMap []) (Some (new_explainer true false))))) <> new_explainer true false.
Proof.
  intro s. split; [ | vm_compute; discriminate ].
  apply C30_search_not_recorded; [ reflexivity | reflexivity | intro H; discriminate H ].
Qed.

Example C30_data_ex :
  let s := init_st (ScMap []) (Some (new_explainer true true)) in
  s_ex (snd (run_scoped SData (run secret_w 9 (RStr "%{lookup('pw')}" true)) s)) = s_ex s /\
  s_ex (snd (run_scoped SData (run secret_w 9 (RStr "%{lookup('pw')}" true)) (init_st (ScMap []) (Some (new_explainer true false)))))
    <> new_explainer true false.
Proof.
  intro s. split; [ | vm_compute; discriminate ].
  apply C30_data_not_recorded; [ reflexivity | intro H; discriminate H ].
Qed.

(** ** C31 *)

(** The full statement, "when the lookup options of a key say convert_to
    Sensitive then no explanation of a lookup of that key contains the plain
    value", is false: DoRedacted sets a flag that no code reads. *)

(** [v] is in an explanation. *)
Inductive shows (v : value) : node -> Prop :=
| sh_here : forall k bs ts e n, shows v (Node k bs ts e (Some v) n)
| sh_below : forall k bs ts e o n b, In b bs -> shows v b -> shows v (Node k bs ts e o n).
Definition revealed (v : value) (x : explainer) : Prop := exists b, In b (fr_bs (x_root x)) /\ shows v b.

Theorem C31_redacted_refuted : exists w k v options only,
  let r := run_lookup w 9 k None (init_st (ScMap []) (Some (new_explainer options only))) in
  fst r = Ok (Some (VSens v)) /\ revealed v (s_ex (snd r)).
Proof.
  exists secret_w, pw, (VStr "s3cret"), false, false. cbv zeta. split; [ vm_compute; reflexivity | ].
  unfold revealed. match goal with |- context [fr_bs ?x] => set (bs := fr_bs x) end.
  vm_compute in bs. subst bs. eexists. split; [ left; reflexivity | ].
  eapply sh_below; [ left; reflexivity | ]. eapply sh_below; [ left; reflexivity | ]. apply sh_here.
Qed.
Print Assumptions C31_redacted_refuted.

(** How far that goes: whether DoRedacted is in force makes no difference to any request,
    neither to its outcome nor to what the explainer is told.  What an explanation reveals
    without redaction it reveals with it. *)
Theorem C31_nothing_hidden : forall w n q s,
  let t := with_iv (iv_with_redacted true (s_iv s)) s in
  fst (run w n q t) = fst (run w n q s) /\ s_ex (snd (run w n q t)) = s_ex (snd (run w n q s)) /\
  forall v, revealed v (s_ex (snd (run w n q t))) <-> revealed v (s_ex (snd (run w n q s))).
Proof.
  intros w n q s t. destruct (c_run w _ (full_closed w _ but_redacted_full) n q t s eq_refl) as [H1 H2].
  assert (E : s_ex (snd (run w n q t)) = s_ex (snd (run w n q s))) by (apply unredacted_is in H2 as [b ->]; reflexivity).
  split; [ exact H1 | ]. split; [ exact E | ]. intro v. rewrite E. reflexivity.
Qed.
Print Assumptions C31_nothing_hidden.

(** A lookup under redaction that still shows its value. *)
Example C31_nothing_hidden_ex :
  let s := init_st (ScMap []) (Some (new_explainer false false)) in
  let t := with_iv (iv_with_redacted true (s_iv s)) s in
  iv_redacted (s_iv t) = true /\ fst (run_lookup secret_w 9 pw None t) = Ok (Some (VSens (VStr "s3cret"))) /\
  revealed (VStr "s3cret") (s_ex (snd (run secret_w 9 (RLookup pw None) t))).
Proof.
  cbv zeta. split; [ reflexivity | ]. split; [ vm_compute; reflexivity | ].
  unfold revealed. match goal with |- context [fr_bs ?x] => set (bs := fr_bs x) end.
  vm_compute in bs. subst bs. eexists. split; [ left; reflexivity | ].
  eapply sh_below; [ left; reflexivity | ]. eapply sh_below; [ left; reflexivity | ]. apply sh_here.
Qed.

(** What holds: with an explainer that only explains options, looking the key up
    adds nothing to what getting the configuration recorded, for which the key
    does not matter.  Missing: explainers that explain data. *)
Theorem C31_options_only_partial : forall w n k r opts s,
  w_top w = LkConfig -> root k = Ok r -> r <> "lookup_options" ->
  x_only (s_ex s) = true -> x_nil (s_ex s) = false -> iv_mode (s_iv s) = MdTop ->
  s_ex (snd (run_lookup w (S n) k opts s)) = s_ex (snd (get_config w (run w n) (w_cfgpath w) "" s)).
Proof.
  intros w n k r opts s Ht Hr Nr Ho Hn Hm. unfold run_lookup.
  enough (G : s_ex (snd (lookup w (run w n) k opts s)) = s_ex (snd (get_config w (run w n) (w_cfgpath w) "" s))).
  { cbn [run body]. unfold bind. destruct (lookup w (run w n) k opts s) as [[x|e| |] s']; exact G. }
  unfold lookup, bind at 1, lift. rewrite Hr. destruct (String.eqb_spec r "lookup_options") as [X|_]; [ contradiction | ].
  rewrite Ht. cbn [call_lk]. set (opts' := match opts with Some o => o | None => [] end).
  pose proof (config_lookup_ex w n opts' (w_cfgpath w) r "" s Ho Hn Hm) as G.
  pose proof (kept_closed w) as C. pose proof (c_run w _ C n) as Hrec.
  assert (K : kept s (snd (config_lookup_at w (run w n) opts' (w_cfgpath w) r "" s))).
  { apply (c_config_lookup_at w _ C (run w n) (run w n)); try (intro; apply quiet_run); exact Hrec. }
  pose proof (placed_closed w) as C2.
  assert (P : same_place (s_ex s) (s_ex (snd (config_lookup_at w (run w n) opts' (w_cfgpath w) r "" s)))).
  { apply (c_config_lookup_at w _ C2 (run w n) (run w n)); try (intro; apply quiet_run); [ exact (c_run w _ C2 n) | exact Hn ]. }
  unfold bind at 1. destruct (config_lookup_at w (run w n) opts' (w_cfgpath w) r "" s) as [[[x|]|e| |] s1]; try exact G.
  cbn [snd] in G, K, P. rewrite data_silent; [ exact G | | | ].
  - apply kept_silent. apply (c_bind w _ C); [ apply (c_interpolate w _ C); exact Hrec | intro; apply (c_dig_in w _ C) ].
  - destruct P as (_ & P & _). congruence.
  - intro X. rewrite (kp_mode _ _ K), Hm in X. discriminate X.
Qed.
Print Assumptions C31_options_only_partial.

Example C31_options_only_ex :
  let s := init_st (ScMap []) (Some (new_explainer true true)) in
  fst (run_lookup secret_w 9 pw None s) = Ok (Some (VSens (VStr "s3cret"))) /\
  s_ex (snd (run_lookup secret_w 9 pw None s)) = s_ex (snd (get_config secret_w (run secret_w 8) "/h/hiera.yaml" "" s)).
Proof.
  intro s. split; [ vm_compute; reflexivity | ].
  apply (C31_options_only_partial secret_w 8 pw "pw"); try reflexivity. discriminate.
Qed.
