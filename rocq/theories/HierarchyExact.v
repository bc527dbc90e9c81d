(** Providers with their caches give what the specification of the hierarchy
    says. *)

From Coq Require Import String Ascii List ZArith Bool Arith Lia.
From Verif Require Import SpecPlace PlaceFacts.
From Verif Require Import Str Value Outcome Key Merge Fpath Config Ipl Explain State Engine Meta Fuel
  SpecKey SpecIpl SpecInterp SpecConfig SpecMerge SpecLookup
  KeyFacts ValueFacts MergeFacts MergeLookup StrFacts IplFacts InterpFacts IplExact ResolveFacts LookupExact LoaderFacts RootFacts.
Import ListNotations.
Open Scope nat_scope.
Open Scope string_scope.
Open Scope list_scope.

(** ** The caches of a provider *)

(** What a provider function is once loaded. *)
Inductive loads (w : world) (e : entry) : fdef -> loaded -> Prop :=
| lo_yaml : loads w e (mk_fdef KDataHash "yaml_data") LdYaml
| lo_json : loads w e (mk_fdef KDataHash "json_data") LdJson
| lo_env : loads w e (mk_fdef KLookupKey "environment") LdEnv
| lo_scope : loads w e (mk_fdef KLookupKey "scope") LdScope
| lo_hash : forall n o, n <> "yaml_data" -> n <> "json_data" -> function_is w e n o ->
    loads w e (mk_fdef KDataHash n) (match o with Some f => LdFn f | None => LdNone end)
| lo_key : forall n o, n <> "environment" -> n <> "scope" -> function_is w e n o ->
    loads w e (mk_fdef KLookupKey n) (match o with Some f => LdFn f | None => LdNone end)
| lo_dig : forall n o, function_is w e n o ->
    loads w e (mk_fdef KDataDig n) (match o with Some f => LdFn f | None => LdNone end).

Lemma function_is_det w e n o : function_is w e n o -> forall o', function_is w e n o' -> o = o'.
Proof.
  intros H o' H'. destruct H as [H1|p H1 F N H2|p H1 F N H2|H1 F], H' as [G1|q G1 F' N' G2|q G1 F' N' G2|G1 F']; try reflexivity;
    try (specialize (H1 []); specialize (G1 []); congruence);
    pose proof (plugin_file_det _ _ _ _ F _ F'); subst; try congruence;
    specialize (H2 []); specialize (G2 []); congruence.
Qed.

Lemma loads_det w e f l : loads w e f l -> forall l', loads w e f l' -> l = l'.
Proof.
  intros [| | | |n o Hy Hj H|n o Hy Hj H|n o H] l' G; inversion G; subst; try congruence;
    match goal with A : function_is _ _ _ ?o, B : function_is _ _ _ ?o2 |- _ =>
      rewrite (function_is_det _ _ _ _ A _ B) end; reflexivity.
Qed.

Lemma options_are_det e loc o : options_are e loc o -> forall o', options_are e loc o' -> o = o'.
Proof. intros [|l p H] o' G; inversion G; subst; congruence. Qed.

Lemma file_has_det f m : file_has f m -> forall m', file_has f m' -> m = m'.
Proof. intros [|x] m' G; inversion G; reflexivity. Qed.

Lemma hash_is_det w e n loc m : hash_is w e n loc m -> forall m', hash_is w e n loc m' -> m = m'.
Proof.
  intros H m' G.
  destruct H as [opts p m Hn Ho Hp Hf|opts p m Hn Ho Hp Hf|opts f v Hn Hj Hff Ho Hc|opts Hn Hj Hff Ho];
  destruct G as [opts' p' m' Hn' Ho' Hp' Hf'|opts' p' m' Hn' Ho' Hp' Hf'|opts' f' v' Hn' Hj' Hff' Ho' Hc'|opts' Hn' Hj' Hff' Ho'];
    subst; try congruence; pose proof (options_are_det _ _ _ Ho _ Ho') as Eo; subst opts'.
  - assert (p = p') by congruence. subst. exact (file_has_det _ _ (Hf []) _ (Hf' [])).
  - assert (p = p') by congruence. subst. exact (file_has_det _ _ (Hf []) _ (Hf' [])).
  - pose proof (function_is_det _ _ _ _ Hff _ Hff') as E. injection E as ->.
    specialize (Hc []). specialize (Hc' []). assert (E : v = v') by congruence. rewrite E. reflexivity.
  - pose proof (function_is_det _ _ _ _ Hff _ Hff'). discriminate.
  - pose proof (function_is_det _ _ _ _ Hff _ Hff'). discriminate.
Qed.

(** A location an entry is asked at, and its place in the cache. *)
Definition location_of (e : entry) (loc : option location) : Prop :=
  match loc with
  | None => e_locations e = None
  | Some l => exists ls, e_locations e = Some ls /\ In l ls
  end.
Definition place (loc : option location) (k : string) : Prop :=
  match loc with None => k = "" | Some l => loc_resolved l = Ok k end.

Lemma options_place e loc opts : options_are e loc opts -> exists k, place loc k.
Proof. intros [|l p H]; [ exists "" | exists p ]; [ reflexivity | exact H ]. Qed.

Lemma hash_is_options w e n loc m : hash_is w e n loc m -> exists opts, options_are e loc opts.
Proof. intros [opts p ? ? Ho|opts p ? ? Ho|opts f v ? ? ? Ho|opts ? ? ? Ho]; eauto. Qed.

(** Two locations of an entry at the same place give the same hash. *)
Lemma same_place w e n loc loc' k m m' :
  location_of e loc -> location_of e loc' -> place loc k -> place loc' k ->
  hash_is w e n loc m -> hash_is w e n loc' m' -> m = m'.
Proof.
  intros H H' K K' G G'. apply (hash_is_det w e n loc m G). destruct loc as [l|], loc' as [l'|].
  - assert (O : forall o, options_are e (Some l') o -> options_are e (Some l) o).
    { intros o Q. inversion Q; subst. cbn in K, K'. assert (p = k) by congruence. subst. constructor. exact K. }
    destruct G' as [opts p m' Hn Ho Hp Hf|opts p m' Hn Ho Hp Hf|opts f v Hn Hj Hff Ho Hc|opts Hn Hj Hff Ho].
    + eapply hi_yaml; eauto.
    + eapply hi_json; eauto.
    + eapply hi_function; eauto.
    + eapply hi_unknown; eauto.
  - cbn in H, H'. destruct H as (ls & E & _). congruence.
  - cbn in H, H'. destruct H' as (ls & E & _). congruence.
  - exact G'.
Qed.

(** What is in the caches of a provider is what the specification says, and its
    lock is free. *)
Record agrees (w : world) (p : provider) (q : pstate) : Prop := mk_agrees {
  ag_free : ps_locked q = false;
  ag_fn : forall l, ps_fn q = Some l -> exists f, e_function (p_entry p) = Some f /\ loads w (p_entry p) f l;
  ag_hash : forall k h, aget k (ps_hashes q) = Some h ->
    exists n loc, e_function (p_entry p) = Some (mk_fdef KDataHash n) /\
      location_of (p_entry p) loc /\ place loc k /\ hash_is w (p_entry p) n loc h
}.

Lemma agrees_new w p : agrees w p new_pstate.
Proof. constructor; [ reflexivity | discriminate | discriminate ]. Qed.

Lemma agrees_fn w p q l f l' : agrees w p q -> ps_fn q = Some l -> e_function (p_entry p) = Some f ->
  loads w (p_entry p) f l' -> l = l'.
Proof.
  intros [_ H _] E Ef Hl. destruct (H l E) as (f' & Ef' & Hl'). rewrite Ef in Ef'. injection Ef' as <-.
  exact (loads_det _ _ _ _ Hl' _ Hl).
Qed.

Lemma agrees_hash w p q k h n loc m : agrees w p q -> aget k (ps_hashes q) = Some h ->
  e_function (p_entry p) = Some (mk_fdef KDataHash n) ->
  location_of (p_entry p) loc -> place loc k -> hash_is w (p_entry p) n loc m -> h = m.
Proof.
  intros [_ _ H] E Ef Hloc Hk Hm. destruct (H k h E) as (n' & loc' & Ef' & Hloc' & Hk' & Hm').
  rewrite Ef in Ef'. injection Ef' as <-. exact (same_place w _ n loc' loc k h m Hloc' Hloc Hk' Hk Hm' Hm).
Qed.

(** ** States *)

(** The state of a session while lookups go on: the invocation, the
    configurations and the providers in use. *)
Record good (w : world) (i : iv) (cf : list (string * rconfig)) (sh : list (string * shared))
       (ps : list provider) (s : st) : Prop := mk_good {
  g_iv : s_iv s = i;
  g_configs : s_configs s = cf;
  g_shared : s_shared s = sh;
  g_provs : forall p, In p ps -> agrees w p (s_provs s (p_id p))
}.

(** The caches of one provider may have changed, and questions asked. *)
Record touched (id : nat) (q : pstate) (s s' : st) : Prop := mk_touched {
  t_iv : s_iv s' = s_iv s;
  t_configs : s_configs s' = s_configs s;
  t_shared : s_shared s' = s_shared s;
  t_next : s_next s' = s_next s;
  t_provs : forall j, s_provs s' j = if Nat.eqb j id then q else s_provs s j;
  t_mods : s_mods s' = s_mods s;
  t_tpc : s_tpc s' = s_tpc s
}.

Lemma touched_same id s : touched id (s_provs s id) s s.
Proof. constructor; try reflexivity. intro j. destruct (Nat.eqb_spec j id); [ subst | ]; reflexivity. Qed.

Lemma touched_asked id q s s' s'' : touched id q s s' -> asked s' s'' -> touched id q s s''.
Proof. intros [] [l ->]. constructor; assumption. Qed.

Lemma touched_trans id q q' s s' s'' : touched id q s s' -> touched id q' s' s'' -> touched id q' s s''.
Proof.
  intros [A1 A2 A3 A4 A5 A6 A7] [B1 B2 B3 B4 B5 B6 B7]. constructor; try congruence.
  intro j. rewrite B5. destruct (Nat.eqb_spec j id); [ reflexivity | ]. rewrite A5.
  destruct (Nat.eqb_spec j id); [ contradiction | reflexivity ].
Qed.

Lemma touched_with id q s : touched id q s (with_prov id q s).
Proof. constructor; reflexivity. Qed.

Lemma touched_at id q s s' : touched id q s s' -> s_provs s' id = q.
Proof. intro H. rewrite (t_provs _ _ _ _ H), Nat.eqb_refl. reflexivity. Qed.

Lemma good_touched w i cf sh ps s s' p q : NoDup (map p_id ps) -> In p ps -> good w i cf sh ps s ->
  touched (p_id p) q s s' -> agrees w p q -> good w i cf sh ps s'.
Proof.
  intros Hd Hin [G1 G2 G3 G4] [T1 T2 T3 T4 T5 T6 T7] Ha. constructor; try congruence.
  intros p' Hp'. rewrite T5. destruct (Nat.eqb_spec (p_id p') (p_id p)) as [E|E]; [ | exact (G4 p' Hp') ].
  assert (p' = p) as ->; [ | exact Ha ].
  clear - Hd Hin Hp' E. induction ps as [|a ps IH]; [ destruct Hin | ].
  inversion Hd as [|? ? N D]; subst.
  destruct Hin as [->|Hin], Hp' as [->|Hp']; [ reflexivity | | | exact (IH D Hin Hp') ].
  - exfalso. apply N. rewrite <- E. apply in_map. exact Hp'.
  - exfalso. apply N. rewrite E. apply in_map. exact Hin.
Qed.

Lemma good_asked w i cf sh ps s s' : good w i cf sh ps s -> asked s s' -> good w i cf sh ps s'.
Proof. intros [] [l ->]. constructor; assumption. Qed.

(** ** Loading and calling functions *)

Lemma gives_load_function w e n o sc : function_is w e n o -> gives sc (load_function w e n) o.
Proof.
  intro H. unfold load_function.
  eapply gives_bind with (a := match o with Some (FnSession _) => true | _ => false end).
  { apply gives_ask. intro t. destruct H as [H|p H _ _ _|p H _ _ _|H _]; apply H. }
  destruct H as [H|p H1 F N H2|p H1 F N H2|H1 F]; [ apply gives_ret | | | ];
    rewrite (loader_plugin _ _ _ _ F); [ apply String.eqb_neq in N; rewrite N | apply String.eqb_neq in N; rewrite N | ].
  - eapply gives_bind with (a := Ok true); [ apply gives_ask; exact H2 | ].
    eapply gives_bind with (a := true); [ intros s _ _; exists s; split; [ reflexivity | apply asked_refl ] | apply gives_ret ].
  - eapply gives_bind with (a := Ok false); [ apply gives_ask; exact H2 | ].
    eapply gives_bind with (a := false); [ intros s _ _; exists s; split; [ reflexivity | apply asked_refl ] | apply gives_ret ].
  - apply gives_ret.
Qed.

Lemma gives_report sc r : gives sc (run_op (OReport r)) tt.
Proof. intros s _ Ho. exists s. split; [ exact (report_off r s Ho) | apply asked_refl ]. Qed.

Lemma gives_loaded w e n o sc : function_is w e n o ->
  gives sc (bind (load_function w e n) (fun x =>
              match x with
              | Some r => ret (LdFn r)
              | None => bind (run_op (OReport (RText ("unresolved function '" ++ n ++ "'")))) (fun _ => ret LdNone)
              end)) (match o with Some f => LdFn f | None => LdNone end).
Proof.
  intro H. eapply gives_bind; [ exact (gives_load_function _ _ _ _ _ H) | ].
  destruct o; [ apply gives_ret | ]. eapply gives_bind; [ apply gives_report | apply gives_ret ].
Qed.

Lemma gives_load_provider w e f l sc : loads w e f l -> gives sc (load_provider w e f) l.
Proof.
  intros [| | | |n o Hy Hj H|n o Hy Hj H|n o H]; unfold load_provider; cbn [f_kind f_name]; try apply gives_ret.
  - apply String.eqb_neq in Hy, Hj. rewrite Hy, Hj. exact (gives_loaded _ _ _ _ _ H).
  - apply String.eqb_neq in Hy, Hj. rewrite Hy, Hj. exact (gives_loaded _ _ _ _ _ H).
  - exact (gives_loaded _ _ _ _ _ H).
Qed.

(** The function of a provider, with its cache. *)
Lemma provider_function_run w id e f l s : off s -> loads w e f l ->
  (forall l', ps_fn (s_provs s id) = Some l' -> l' = l) ->
  exists s', provider_function w id e f s = (Ok l, s') /\
    touched id (mk_pstate (Some l) (ps_hashes (s_provs s id)) (ps_locked (s_provs s id))) s s'.
Proof.
  intros Ho Hl Hc. unfold provider_function, bind at 1, run_op at 1.
  destruct (ps_fn (s_provs s id)) as [l'|] eqn:E.
  - rewrite (Hc l' eq_refl) in E. exists s. split; [ rewrite (Hc l' eq_refl); reflexivity | ].
    rewrite <- E. destruct (s_provs s id) as [a b c] eqn:Ep. cbn. rewrite <- Ep. apply touched_same.
  - destruct (gives_load_provider w e f l _ Hl s eq_refl Ho) as (s1 & E1 & A1). unfold bind. rewrite E1.
    unfold run_op, ret. eexists. split; [ reflexivity | ].
    destruct A1 as [t ->]. cbn. constructor; reflexivity.
Qed.

Lemma gives_lift sc A o (a : A) : o = Ok a -> gives sc (lift o) a.
Proof. intros -> s _ _. exists s. split; [ reflexivity | apply asked_refl ]. Qed.

Lemma mmerge_put o k v : mmerge o [(k, v)] = mput k v o.
Proof. reflexivity. Qed.

Lemma gives_options e loc opts sc : options_are e loc opts -> gives sc (provider_options e loc) opts.
Proof.
  intros [|l p H].
  - apply gives_ret.
  - unfold provider_options. eapply gives_bind; [ apply gives_lift; exact H | ]. apply gives_ret.
Qed.

Lemma gives_file_data w (json : bool) opts p m sc : mgets "path" opts = Some p ->
  (forall t, file_has ((if json then w_json w else w_yaml w) t (vstring w p)) m) ->
  gives sc (file_data w json opts) m.
Proof.
  intros Hp Hf. unfold file_data. rewrite Hp.
  destruct json; intros s Hs Ho; unfold bind, ask, run_op, ret; cbn [bind run_op ret];
    pose proof (Hf (s_trace s)) as F; destruct F;
    (eexists; split; [ reflexivity | ]; eexists; reflexivity).
Qed.

Lemma gives_call_fn w rec f a v sc : (forall t, w_call w t f a = PRet v) -> gives sc (call_fn w rec f a) v.
Proof. intro H. unfold call_fn. eapply gives_bind; [ apply gives_ask; exact H | apply gives_ret ]. Qed.

(** The loaded function of a data_hash provider gives the hash. *)
Lemma hash_call w rec e n loc m sc : hash_is w e n loc m ->
  exists opts l, options_are e loc opts /\ loads w e (mk_fdef KDataHash n) l /\ gives sc (call_hash w rec l opts) m.
Proof.
  intros [opts p m' Hn Ho Hp Hf|opts p m' Hn Ho Hp Hf|opts f v Hn Hj Hff Ho Hc|opts Hn Hj Hff Ho]; exists opts.
  - subst n. exists LdYaml. split; [ exact Ho | split; [ constructor | ] ]. exact (gives_file_data w false opts p m' sc Hp Hf).
  - subst n. exists LdJson. split; [ exact Ho | split; [ constructor | ] ]. exact (gives_file_data w true opts p m' sc Hp Hf).
  - exists (LdFn f). split; [ exact Ho | split; [ exact (lo_hash w e n (Some f) Hn Hj Hff) | ] ].
    cbn [call_hash]. eapply gives_bind; [ exact (gives_call_fn _ _ _ _ _ _ Hc) | apply gives_ret ].
  - exists LdNone. split; [ exact Ho | split; [ exact (lo_hash w e n None Hn Hj Hff) | apply gives_ret ] ].
Qed.

(** ** The data hash of a provider *)

Lemma data_hash_touch w rec i cf sh ps p n loc m s : iv_expl i = false -> NoDup (map p_id ps) -> In p ps ->
  e_function (p_entry p) = Some (mk_fdef KDataHash n) -> location_of (p_entry p) loc ->
  hash_is w (p_entry p) n loc m -> good w i cf sh ps s ->
  exists q s', data_hash w rec (p_id p) (p_entry p) (mk_fdef KDataHash n) loc s = (Ok m, s') /\
    touched (p_id p) q s s' /\ agrees w p q.
Proof.
  intros Hi Hd Hin Hf Hloc Hm G. pose proof (g_provs _ _ _ _ _ _ G p Hin) as [Gl Gf Gh].
  set (id := p_id p) in *. set (e := p_entry p) in *.
  destruct (hash_call w rec e n loc m (iv_scope i) Hm) as (opts & l & Ho & Hl & Hc).
  destruct (options_place _ _ _ Ho) as (k & Hk).
  assert (Ek : forall s : st, (match loc with None => ret "" | Some l => lift (loc_resolved l) end : M st string) s = (Ok k, s)).
  { intro s0. destruct loc as [x|]; cbn in Hk; [ unfold lift; rewrite Hk | rewrite Hk ]; reflexivity. }
  assert (Eo : forall s, provider_options e loc s = (Ok opts, s)).
  { intro s0. inversion Ho as [E|x q E E']; subst; [ reflexivity | ]. unfold provider_options, bind, lift. rewrite E. reflexivity. }
  unfold data_hash. unfold bind at 1. rewrite Ek. unfold bind at 1. rewrite Eo.
  unfold bind at 1. unfold run_scoped at 1. rewrite Gl.
  set (s1 := with_prov id (mk_pstate (ps_fn (s_provs s id)) (ps_hashes (s_provs s id)) true) s).
  change (run_op (OHash id k) s1) with (Ok (aget k (ps_hashes (s_provs s1 id))), s1).
  assert (E1 : s_provs s1 id = mk_pstate (ps_fn (s_provs s id)) (ps_hashes (s_provs s id)) true).
  { apply (touched_at id _ s). apply touched_with. }
  cbv beta iota zeta. rewrite !E1. cbn [ps_fn ps_hashes].
  set (q2 := mk_pstate (ps_fn (s_provs s id)) (ps_hashes (s_provs s id)) false).
  set (s2 := with_prov id q2 s1).
  assert (T2 : touched id q2 s s2).
  { apply (touched_trans id (mk_pstate (ps_fn (s_provs s id)) (ps_hashes (s_provs s id)) true) _ s s1); apply touched_with. }
  assert (A2 : agrees w p q2) by (constructor; [ reflexivity | exact Gf | exact Gh ]).
  assert (G2 : good w i cf sh ps s2) by exact (good_touched w i cf sh ps s s2 p q2 Hd Hin G T2 A2).
  destruct (aget k (ps_hashes (s_provs s id))) as [h|] eqn:Eh.
  - exists q2, s2. split; [ | split; [ exact T2 | exact A2 ] ].
    rewrite (agrees_hash w p _ k h n loc m (g_provs _ _ _ _ _ _ G p Hin) Eh Hf Hloc Hk Hm). reflexivity.
  - unfold fill. unfold run_scoped. rewrite (touched_at _ _ _ _ T2). cbn [ps_locked ps_fn ps_hashes q2].
    set (q3 := mk_pstate (ps_fn (s_provs s id)) (ps_hashes (s_provs s id)) true).
    set (s3 := with_prov id q3 s2).
    assert (T3 : touched id q3 s s3) by (apply (touched_trans id q2 _ s s2); [ exact T2 | apply touched_with ]).
    unfold bind at 1. change (run_op (OHash id k) s3) with (Ok (aget k (ps_hashes (s_provs s3 id))), s3).
    rewrite (touched_at _ _ _ _ T3). cbn [ps_hashes q3]. rewrite Eh.
    assert (O3 : off s3) by (unfold off; rewrite (t_iv _ _ _ _ T3), (g_iv _ _ _ _ _ _ G); exact Hi).
    unfold bind at 1. unfold bind at 1.
    destruct (provider_function_run w id e (mk_fdef KDataHash n) l s3 O3 Hl) as (s4 & E4 & T4).
    { rewrite (touched_at _ _ _ _ T3). cbn [ps_fn q3]. intros l' El. exact (agrees_fn w p _ l' _ l (g_provs _ _ _ _ _ _ G p Hin) El Hf Hl). }
    rewrite E4. rewrite (touched_at _ _ _ _ T3) in T4. cbn [ps_hashes ps_locked q3] in T4.
    assert (O4 : off s4) by (unfold off; rewrite (t_iv _ _ _ _ T4); exact O3).
    destruct (Hc s4) as (s5 & E5 & A5).
    { rewrite (t_iv _ _ _ _ T4), (t_iv _ _ _ _ T3), (g_iv _ _ _ _ _ _ G). reflexivity. }
    { exact O4. }
    rewrite E5. pose proof (touched_asked _ _ _ _ _ T4 A5) as T5.
    unfold bind, run_op, ret. rewrite (touched_at _ _ _ _ T5). cbn [ps_fn ps_hashes ps_locked].
    set (q6 := mk_pstate (Some l) (aput k m (ps_hashes (s_provs s id))) true).
    set (s6 := with_prov id q6 s5). rewrite (touched_at id q6 s5 s6) by apply touched_with. cbn [ps_fn ps_hashes q6].
    eexists _, _. split; [ reflexivity | ]. split.
    + eapply touched_trans; [ exact T3 | ]. eapply touched_trans; [ exact T5 | ].
      eapply touched_trans; apply touched_with.
    + constructor.
      * reflexivity.
      * cbn [ps_fn]. intros l1 E. injection E as <-. exists (mk_fdef KDataHash n). split; [ exact Hf | exact Hl ].
      * cbn [ps_hashes]. intros k' h E. unfold aput in E. cbn [aget] in E. destruct (String.eqb_spec k' k) as [->|Hne].
        -- injection E as <-. exists n, loc. auto.
        -- exact (Gh k' h E).
Qed.

Lemma data_hash_run w rec i cf sh ps p n loc m s : iv_expl i = false -> NoDup (map p_id ps) -> In p ps ->
  e_function (p_entry p) = Some (mk_fdef KDataHash n) -> location_of (p_entry p) loc ->
  hash_is w (p_entry p) n loc m -> good w i cf sh ps s ->
  exists s', data_hash w rec (p_id p) (p_entry p) (mk_fdef KDataHash n) loc s = (Ok m, s') /\ good w i cf sh ps s'.
Proof.
  intros Hi Hd Hin Hf Hloc Hm G.
  destruct (data_hash_touch w rec i cf sh ps p n loc m s Hi Hd Hin Hf Hloc Hm G) as (q & s' & E & T & A).
  exists s'. split; [ exact E | exact (good_touched _ _ _ _ _ _ _ _ _ Hd Hin G T A) ].
Qed.

(** ** Providers and the hierarchy *)

(** What else is in the state: it does not change while providers are asked. *)
Definition same_rest (s s' : st) : Prop :=
  s_next s' = s_next s /\ s_mods s' = s_mods s /\ s_tpc s' = s_tpc s.
Lemma same_rest_refl s : same_rest s s.
Proof. repeat split. Qed.
Lemma same_rest_trans s s' s'' : same_rest s s' -> same_rest s' s'' -> same_rest s s''.
Proof. unfold same_rest. intuition congruence. Qed.
Lemma same_rest_asked s s' : asked s s' -> same_rest s s'.
Proof. intros [l ->]. repeat split. Qed.
Lemma same_rest_touched id q s s' : touched id q s s' -> same_rest s s'.
Proof. intros [? ? ? ? ? ? ?]. repeat split; assumption. Qed.

(** In a scope, with at least these providers, a run gives this and nothing but
    the caches of the providers changes. *)
Definition frames (w : world) (sc : scope) (ps : list provider) {A} (m : M st A) (a : A) : Prop :=
  forall i cf sh qs s, iv_expl i = false -> iv_scope i = sc -> incl ps qs -> NoDup (map p_id qs) ->
    good w i cf sh qs s -> exists s', m s = (Ok a, s') /\ good w i cf sh qs s' /\ same_rest s s'.

Lemma frames_yields w sc ps A (m : M st A) a : NoDup (map p_id ps) -> frames w sc ps m a ->
  forall i cf sh, iv_expl i = false -> iv_scope i = sc -> yields (good w i cf sh ps) m a.
Proof.
  intros Hd H i cf sh Hi Hs s G. destruct (H i cf sh ps s Hi Hs (incl_refl ps) Hd G) as (s' & E & G' & _).
  exists s'. split; assumption.
Qed.

Lemma frames_gives w sc ps A (m : M st A) a : gives sc m a -> frames w sc ps m a.
Proof.
  intros H i cf sh qs s Hi Hs _ _ G. destruct (H s) as (s' & E & Ha).
  - rewrite (g_iv _ _ _ _ _ _ G). exact Hs.
  - unfold off. rewrite (g_iv _ _ _ _ _ _ G). exact Hi.
  - exists s'. split; [ exact E | ]. split; [ exact (good_asked _ _ _ _ _ _ _ G Ha) | exact (same_rest_asked _ _ Ha) ].
Qed.

Lemma frames_hash w rec sc ps p n loc m : In p ps ->
  e_function (p_entry p) = Some (mk_fdef KDataHash n) -> location_of (p_entry p) loc ->
  hash_is w (p_entry p) n loc m -> frames w sc ps (data_hash w rec (p_id p) (p_entry p) (mk_fdef KDataHash n) loc) m.
Proof.
  intros Hin Hf Hloc Hm i cf sh qs s Hi _ Hinc Hd G.
  destruct (data_hash_touch w rec i cf sh qs p n loc m s Hi Hd (Hinc p Hin) Hf Hloc Hm G) as (q & s' & E & T & A).
  exists s'. split; [ exact E | ]. split; [ exact (good_touched _ _ _ _ _ _ _ _ _ Hd (Hinc p Hin) G T A) | exact (same_rest_touched _ _ _ _ T) ].
Qed.

Lemma yields_gives w i cf sh ps A (m : M st A) a : iv_expl i = false -> gives (iv_scope i) m a ->
  yields (good w i cf sh ps) m a.
Proof.
  intros Hi H s G. destruct (H s) as (s' & E & Ha).
  - rewrite (g_iv _ _ _ _ _ _ G). reflexivity.
  - unfold off. rewrite (g_iv _ _ _ _ _ _ G). exact Hi.
  - exists s'. split; [ exact E | exact (good_asked _ _ _ _ _ _ _ G Ha) ].
Qed.

Lemma bury_wrapped t x : forall ps v, bury (mk_key t (PStr x :: ps)) v = wrapped ps v.
Proof.
  unfold bury. cbn [k_parts tl]. induction ps as [|p ps IH]; intro v; [ reflexivity | ].
  cbn [fold_right]. rewrite IH. destruct p; reflexivity.
Qed.

Section Hierarchy.
  Variables (w : world) (rec : req -> M st res) (sc : scope) (ps : list provider).
  (** The states: all those of some invocations in the scope. *)
  Variable P : st -> Prop.
  Hypothesis Pof : forall s, P s -> exists i cf sh, iv_expl i = false /\ iv_scope i = sc /\ good w i cf sh ps s.
  Hypothesis Pall : forall A (m : M st A) a, frames w sc ps m a -> yields P m a.
  Variable value_is : value -> option value -> Prop.
  Hypothesis Hv : forall v o, value_is v o -> yields P (interpolate rec true v) o.

  Lemma states_off s : P s -> off s.
  Proof. intro H. destruct (Pof s H) as (i & cf & sh & Hi & _ & G). unfold off. rewrite (g_iv _ _ _ _ _ _ G). exact Hi. Qed.
  Lemma states_scope s : P s -> iv_scope (s_iv s) = sc.
  Proof. intro H. destruct (Pof s H) as (i & cf & sh & _ & Hs & G). rewrite (g_iv _ _ _ _ _ _ G). exact Hs. Qed.
  Lemma states_gives A (m : M st A) a : gives sc m a -> yields P m a.
  Proof. intro H. apply Pall. apply frames_gives. exact H. Qed.

  Lemma yields_function p f l : In p ps -> e_function (p_entry p) = Some f -> loads w (p_entry p) f l ->
    yields P (provider_function w (p_id p) (p_entry p) f) l.
  Proof.
    intros Hin Hf Hl. apply Pall. intros i cf sh qs s Hi Hs Hinc Hd G. apply Hinc in Hin.
    pose proof (g_provs _ _ _ _ _ _ G p Hin) as [Gl Gf Gh].
    assert (Ho : off s) by (unfold off; rewrite (g_iv _ _ _ _ _ _ G); exact Hi).
    destruct (provider_function_run w (p_id p) (p_entry p) f l s Ho Hl) as (s' & E & T).
    { intros l' El. exact (agrees_fn w p _ l' f l (g_provs _ _ _ _ _ _ G p Hin) El Hf Hl). }
    exists s'. split; [ exact E | ]. split; [ | exact (same_rest_touched _ _ _ _ T) ].
    apply (good_touched _ _ _ _ _ _ _ _ _ Hd Hin G T).
    constructor; cbn [ps_locked ps_fn ps_hashes]; [ exact Gl | | exact Gh ].
    intros l1 E1. injection E1 as <-. exists f. auto.
  Qed.

  Lemma yields_report_found k v : yields P (report_found k v) tt.
  Proof. destruct v; exact (yields_report P states_off _). Qed.

  Lemma yields_reported k (v : option value) : yields P (bind (report_found k v) (fun _ => ret v)) v.
  Proof. eapply yields_bind; [ apply yields_report_found | apply yields_ret ]. Qed.

  Lemma yields_provider k r p loc o : In p ps -> new_key r = Ok k -> location_of (p_entry p) loc ->
    provides w (sc) value_is r (p_entry p) loc o -> yields P (provider_lookup w rec k p loc) o.
  Proof.
    intros Hin Hk Hloc H. unfold provider_lookup.
    assert (Hparts : forall x qs, written_key r (PStr x :: qs) -> k = mk_key r (PStr x :: qs)).
    { intros x qs Hw. apply written_key_new in Hw. congruence. }
    assert (Hroot : forall x, root_is r x -> yields P (lift (root k)) x).
    { intros x (qs & Hw). apply yields_lift. rewrite (Hparts x qs Hw). reflexivity. }
    destruct H as [x n m v o Hx0 Hf Hm Hg Hx|x n m Hx0 Hf Hm Hg|x opts Hx0 Hf Ho|x opts Hx0 Hf Ho|x n f opts v Hx0 Hf H1 H2 Hff Ho Hc|n opts Hf H1 H2 Hff Ho
                  |x qs n f opts v Hx0 Hf Hff Ho Hc|n opts Hf Hff Ho]; rewrite Hf; cbn [f_kind].
    - eapply yields_bind; [ exact (Hroot x Hx0) | ]. eapply yields_bind.
      { apply Pall. exact (frames_hash w rec sc ps p n loc m Hin Hf Hloc Hm). }
      rewrite Hg. eapply yields_bind; [ exact (Hv v o Hx) | apply yields_reported ].
    - eapply yields_bind; [ exact (Hroot x Hx0) | ]. eapply yields_bind.
      { apply Pall. exact (frames_hash w rec sc ps p n loc m Hin Hf Hloc Hm). }
      rewrite Hg. eapply yields_bind; [ apply yields_ret | apply yields_reported ].
    - eapply yields_bind; [ exact (Hroot x Hx0) | ].
      eapply yields_bind; [ apply states_gives; exact (gives_options _ _ _ _ Ho) | ].
      eapply yields_bind; [ exact (yields_function p _ LdEnv Hin Hf (lo_env _ _)) | ].
      eapply yields_bind; [ apply yields_ret | apply yields_reported ].
    - eapply yields_bind; [ exact (Hroot x Hx0) | ].
      eapply yields_bind; [ apply states_gives; exact (gives_options _ _ _ _ Ho) | ].
      eapply yields_bind; [ exact (yields_function p _ LdScope Hin Hf (lo_scope _ _)) | ].
      eapply yields_bind with (a := scope_get (sc) x); [ | apply yields_reported ].
      eapply yields_bind; [ exact (yields_scope (sc) P states_scope) | apply yields_ret ].
    - eapply yields_bind; [ exact (Hroot x Hx0) | ].
      eapply yields_bind; [ apply states_gives; exact (gives_options _ _ _ _ Ho) | ].
      eapply yields_bind; [ exact (yields_function p _ (LdFn f) Hin Hf (lo_key _ _ _ (Some f) H1 H2 Hff)) | ].
      eapply yields_bind with (a := v); [ | apply yields_reported ].
      apply states_gives; exact (gives_call_fn _ _ _ _ _ _ Hc).
    - destruct (new_key_root _ _ Hk) as (x & qs & _ & Er).
      eapply yields_bind; [ apply yields_lift; exact Er | ].
      eapply yields_bind; [ apply states_gives; exact (gives_options _ _ _ _ Ho) | ].
      eapply yields_bind; [ exact (yields_function p _ LdNone Hin Hf (lo_key _ _ _ None H1 H2 Hff)) | ].
      eapply yields_bind with (a := None); [ apply yields_ret | apply yields_reported ].
    - eapply yields_bind; [ apply states_gives; exact (gives_options _ _ _ _ Ho) | ].
      eapply yields_bind; [ exact (yields_function p _ (LdFn f) Hin Hf (lo_dig _ _ _ (Some f) Hff)) | ].
      eapply yields_bind with (a := v).
      + cbn [call_dig]. rewrite (Hparts x qs Hx0). cbn [k_parts]. apply states_gives.
        eapply gives_bind with (a := Ok v); [ apply gives_ask; exact Hc | apply gives_lift; reflexivity ].
      + destruct v as [y|]; (eapply yields_bind; [ apply yields_report_found | ]).
        * cbn [option_map]. rewrite <- (bury_wrapped r x qs y), <- (Hparts x qs Hx0). apply yields_ret.
        * apply yields_ret.
    - eapply yields_bind; [ apply states_gives; exact (gives_options _ _ _ _ Ho) | ].
      eapply yields_bind; [ exact (yields_function p _ LdNone Hin Hf (lo_dig _ _ _ None Hff)) | ].
      eapply yields_bind with (a := None); [ apply yields_ret | ].
      eapply yields_bind; [ apply yields_report_found | apply yields_ret ].
  Qed.

  Lemma yields_invoke k r p l o : In p ps -> new_key r = Ok k -> location_of (p_entry p) (Some l) ->
    location_gives w (sc) value_is r (p_entry p) l o -> yields P (invoke w rec k p l) o.
  Proof.
    intros Hin Hk Hloc H. unfold invoke. apply (yields_node P states_off). destruct H as [E|o E H]; [ apply not_there in E | apply there_exists in E ]; rewrite E.
    - eapply yields_bind; [ exact (yields_report P states_off _) | apply yields_ret ].
    - exact (yields_provider k r p (Some l) o Hin Hk Hloc H).
  Qed.

  Lemma provides_function r e loc o : provides w (sc) value_is r e loc o -> e_function e <> None.
  Proof. intros []; congruence. Qed.

  Lemma yields_locations k r s p o : In p ps -> new_key r = Ok k -> e_function (p_entry p) <> None ->
    entry_gives w (sc) value_is r s (p_entry p) o -> yields P (merge_locations w rec k s p) o.
  Proof.
    intros Hin Hk Hf H. unfold merge_locations. destruct (e_function (p_entry p)) as [f|]; [ | congruence ].
    apply (yields_node P states_off).
    destruct H as [o El H|El|l o El H|l1 l2 ls o El H]; rewrite El.
    - exact (yields_provider k r p None o Hin Hk El H).
    - apply yields_ret.
    - apply (yields_invoke k r p l o Hin Hk); [ | exact H ]. exists [l]. split; [ exact El | left; reflexivity ].
    - apply (yields_picks P states_off location (invoke w rec k p) (location_gives w (sc) value_is r (p_entry p)));
        [ | exact H ].
      intros l o' Hl Hg. apply (yields_invoke k r p l o' Hin Hk); [ | exact Hg ].
      exists (l1 :: l2 :: ls). split; [ exact El | exact Hl ].
  Qed.

  Lemma picks_map {A B} (g : A -> B) (from : B -> option value -> Prop) s l o :
    picks from s (map g l) o -> picks (fun x => from (g x)) s l o.
  Proof.
    intro H. remember (map g l) as l' eqn:El. destruct H as [pre x post v Hp Hx|l' Hn|s l' outs Hs Ha].
    - symmetry in El. apply map_eq_app in El as (a & b & -> & <- & Eb). destruct b as [|y b]; [ discriminate | ].
      injection Eb as <- <-. apply pk_first; [ | exact Hx ]. rewrite Forall_map in Hp. exact Hp.
    - subst l'. apply pk_none. rewrite Forall_map in Hn. exact Hn.
    - subst l'. apply pk_merge; [ exact Hs | ]. clear Hs. revert outs Ha.
      induction l as [|x l IH]; intros outs Ha; inversion Ha; subst; constructor; auto.
  Qed.

  Lemma hierarchy_yields k r s o : new_key r = Ok k ->
    Forall (fun p => e_function (p_entry p) <> None) ps ->
    hierarchy_gives w (sc) value_is r s (map p_entry ps) o ->
    yields P (merging s ps (merge_locations w rec k s)) o.
  Proof.
    intros Hk Hf H.
    apply (yields_picks P states_off provider (merge_locations w rec k s)
             (fun p => entry_gives w (sc) value_is r s (p_entry p))).
    - intros p o' Hin. apply yields_locations; [ exact Hin | exact Hk | exact (proj1 (Forall_forall _ _) Hf p Hin) ].
    - exact (picks_map p_entry _ s ps o H).
  Qed.
End Hierarchy.

(** The same for one invocation. *)
Section One.
  Variables (w : world) (i : iv) (cf : list (string * rconfig)) (sh : list (string * shared)) (ps : list provider).
  Hypothesis Hi : iv_expl i = false.

  Lemma good_off s : good w i cf sh ps s -> off s.
  Proof. intro G. unfold off. rewrite (g_iv _ _ _ _ _ _ G). exact Hi. Qed.
  Lemma good_scope s : good w i cf sh ps s -> iv_scope (s_iv s) = iv_scope i.
  Proof. intro G. rewrite (g_iv _ _ _ _ _ _ G). reflexivity. Qed.

  Lemma good_of s : good w i cf sh ps s ->
    exists i' cf' sh', iv_expl i' = false /\ iv_scope i' = iv_scope i /\ good w i' cf' sh' ps s.
  Proof. intro G. exists i, cf, sh. auto. Qed.
  Lemma good_all A (m : M st A) a :
    (forall i' cf' sh', iv_expl i' = false -> iv_scope i' = iv_scope i -> yields (good w i' cf' sh' ps) m a) ->
    yields (good w i cf sh ps) m a.
  Proof. intro H. exact (H i cf sh Hi eq_refl). Qed.
  Lemma good_frames A (m : M st A) a :
    NoDup (map p_id ps) -> frames w (iv_scope i) ps m a -> yields (good w i cf sh ps) m a.
  Proof. intros Hd H. exact (frames_yields w _ ps A m a Hd H i cf sh Hi eq_refl). Qed.

  Lemma yields_hierarchy rec : NoDup (map p_id ps) -> forall value_is : value -> option value -> Prop,
    (forall v o, value_is v o -> yields (good w i cf sh ps) (interpolate rec true v) o) ->
    forall k r s o, new_key r = Ok k -> Forall (fun p => e_function (p_entry p) <> None) ps ->
    hierarchy_gives w (iv_scope i) value_is r s (map p_entry ps) o ->
    yields (good w i cf sh ps) (merging s ps (merge_locations w rec k s)) o.
  Proof.
    intros Hd vi Hv k r s o. exact (hierarchy_yields w rec (iv_scope i) ps (good w i cf sh ps) good_of (fun A m a => good_frames A m a Hd) vi Hv k r s o).
  Qed.
End One.

(** ** Nested lookups *)

Section Nested.
  Variables (w : world) (i : iv) (cf : list (string * rconfig)) (sh : list (string * shared)) (ps : list provider).
  Hypothesis Hi : iv_expl i = false.
  Hypothesis Hd : NoDup (map p_id ps).
  Hypothesis Hf : Forall (fun p => e_function (p_entry p) <> None) ps.
  (** With a strategy in use data is being looked up. *)
  Variable st : option strategy.
  Hypothesis Hst : forall s, st = Some s -> w_top w = LkConfig /\ iv_mode i = MdData /\ iv_strat i = Some s /\
    exists rc, aget (w_cfgpath w) cf = Some rc /\ rc_providers rc = ps.
  Let P := good w i cf sh ps.
  Let es := map p_entry ps.

  Lemma plain_new r : plain_key r -> new_key r = Ok (mk_key r [PStr r]).
  Proof. apply written_key_new. Qed.

  Lemma yields_answers : forall n q o, answers w (iv_scope i) es st n q o ->
    match q with
    | QStr t => exists b, (b = false -> o = Some (VStr t)) /\ yields P (run w n (RStr t true)) (o, b)
    | QKey k => exists b, yields P (run w n (RLookup k None)) (o, b)
    end.
  Proof.
    induction n as [|n IH]; intros q o H; [ destruct H | ]. cbn [run].
    assert (Poff : forall s, P s -> off s) by exact (good_off w i cf sh ps Hi).
    assert (Psc : forall s, P s -> iv_scope (s_iv s) = iv_scope i) by exact (good_scope w i cf sh ps).
    assert (Hs : forall t o, answers w (iv_scope i) es st n (QStr t) o ->
       exists b, (b = false -> o = Some (VStr t)) /\ yields P (run w n (RStr t true)) (o, b)).
    { intros t o' Ht. exact (IH (QStr t) o' Ht). }
    assert (Hl : forall k o, answers w (iv_scope i) es st n (QKey k) o ->
       exists b, yields P (run w n (RLookup k None)) (o, b)).
    { intros k o' Hk. exact (IH (QKey k) o' Hk). }
    pose proof (yields_interpolate P (run w n) _ Hs) as Hv.
    destruct q as [t|k]; cbn [answers] in H.
    - exact (yields_string w (iv_scope i) P Poff Psc (run w n) _ _ Hs Hl t o H).
    - destruct H as [(rest & Ek & ->)|(s & r & rest & v & Es & Ek & Hr & Hp & Hh & Hx)]; exists true.
      { cbn [body]. eapply yields_bind with (a := None); [ | apply yields_ret ].
        unfold lookup. eapply yields_bind with (a := "lookup_options"); [ apply yields_lift; unfold root; rewrite Ek; reflexivity | ].
        rewrite String.eqb_refl. apply yields_node; [ exact Poff | ].
        eapply yields_bind; [ apply yields_report; exact Poff | apply yields_ret ]. }
      destruct (correct_new r Hp) as (x0 & qs & Hw & Hnew).
      destruct (Hst s Es) as (Htop & Hm & Hss & rc & Hrc & Hps).
      cbn [body]. eapply yields_bind with (a := o); [ | apply yields_ret ].
      unfold lookup. eapply yields_bind with (a := r); [ apply yields_lift; unfold root; rewrite Ek; reflexivity | ].
      apply String.eqb_neq in Hr. rewrite Hr. rewrite Htop. cbn [call_lk].
      eapply yields_bind with (a := v).
      + unfold config_lookup_at. eapply yields_bind with (a := rc).
        { intros s0 G. exists s0. split; [ | exact G ]. unfold get_config.
          replace (if String.eqb (w_cfgpath w) "" then w_cfgpath w else w_cfgpath w) with (w_cfgpath w)
            by (destruct (String.eqb (w_cfgpath w) ""); reflexivity).
          unfold bind, run_op. rewrite (g_configs _ _ _ _ _ _ G), Hrc. reflexivity. }
        eapply yields_bind; [ apply yields_lift; exact Hnew | ].
        eapply yields_bind with (a := MdData).
        { intros s0 G. exists s0. split; [ | exact G ]. unfold run_op. rewrite (g_iv _ _ _ _ _ _ G), Hm. reflexivity. }
        eapply yields_bind with (a := Some s).
        { intros s0 G. exists s0. split; [ | exact G ]. unfold run_op. rewrite (g_iv _ _ _ _ _ _ G), Hss. reflexivity. }
        unfold merge_hierarchy. rewrite Hps.
        exact (yields_hierarchy w i cf sh ps Hi (run w n) Hd _ Hv (mk_key r (PStr x0 :: qs)) r s v Hnew Hf Hh).
      + destruct v as [x|]; [ | subst o; apply yields_ret ]. destruct Hx as (y & Hy & Hdig).
        intros s0 G. unfold run_scoped. rewrite (g_iv _ _ _ _ _ _ G), Hm.
        revert s0 G. change (yields P (bind (interpolate (run w n) true x) (dig_in k)) o).
        eapply yields_bind; [ exact (Hv x y Hy) | ].
        destruct k as [ks kp]. cbn in Ek. subst kp. exact (digs_dig P Poff ks r rest y o Hdig).
  Qed.
End Nested.
