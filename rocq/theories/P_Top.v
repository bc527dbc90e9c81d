(** C84: sessions whose top provider reads no configuration. *)

From Coq Require Import String Ascii List ZArith Bool Arith Lia.
From Verif Require Import Str Value Outcome Key Merge Fpath Config Ipl Explain State Engine Session Worlds
  SpecKey SpecKeyErr SpecIpl SpecInterp SpecConfig SpecMerge SpecPath SpecLookup SpecExplain SpecFail SpecWorld SpecTop Transparent
  KeyFacts KeyErrFacts ValueFacts MergeLookup StrFacts IplFacts InterpFacts IplExact Meta Fuel ResolveFacts LookupExact FailExact
  ExLevels Cycles Decided SettledLookup OptionsAsk P_Lookup TopExact.
Import ListNotations.
Open Scope nat_scope.
Open Scope string_scope.
Open Scope list_scope.

(** Functions of the user that answer from their arguments, or fail. *)
Definition functions_answer (w : world) : Prop := forall f a,
  (exists v, (forall t, w_call w t f a = PRet v) /\ tidy v) \/ (exists x, forall t, w_call w t f a = PPanic x).

(** A key that starts with a text and a scope of values without double keys. *)
Definition plain_request (q : request) : Prop :=
  (exists r ps, k_parts (q_key q) = PStr r :: ps) /\ forall x v, scope_get (q_scope q) x = Some v -> wf v = true.

Lemma lookup_is_run w n k opts s : run_lookup w (S n) k opts s =
  bind (bind (lookup w (run w n) k opts) (fun v => ret (v, true))) (fun r => ret (fst r)) s.
Proof. reflexivity. Qed.

Section Sessions.
  Variables (w : world) (src : entries + err).
  Hypothesis Htop : plain_top (w_top w).
  Hypothesis Hsrc : w_top w = LkYaml -> yaml_source w src.
  Hypothesis Hcall : functions_answer w.
  Variable sh : list (string * shared).

  Lemma told n q o s : same w src sh s -> tells w src n q o ->
    exists s', run_lookup w (S n) (q_key q) (q_opts q) (invocation (q_scope q) false s) = (o, s') /\ same w src sh s'.
  Proof.
    intros Hs Ht.
    assert (R : ready w src sh (q_scope q) (invocation (q_scope q) false s)) by (split; [ reflexivity | split; [ reflexivity | exact Hs ] ]).
    pose proof (keeps_requests w src Htop Hsrc Hcall sh (S n) (q_key q) (q_opts q) (invocation (q_scope q) false s) Hs) as K.
    destruct o as [v|x| |]; cbn [tells] in Ht; try contradiction.
    - destruct (lookup_yields w src Htop Hsrc sh (q_scope q) (run w n) (fun t => top_gives w (q_scope q) src n (QStr t))
                  (fun t o H' => gives_run w src Htop Hsrc sh (q_scope q) n (QStr t) o H') (q_key q) (q_opts q) v Ht _ R)
        as (s' & E & _ & _ & Hs').
      exists s'. rewrite lookup_is_run. unfold bind. rewrite E. auto.
    - destruct (lookup_breaks w src Htop Hsrc sh (q_scope q) (run w n) (fun t => top_gives w (q_scope q) src n (QStr t))
                  (fun t o H' => gives_run w src Htop Hsrc sh (q_scope q) n (QStr t) o H') (fun t => top_breaks w (q_scope q) src n (QStr t))
                  (fun t x H' => breaks_run w src Htop Hsrc sh (q_scope q) n (QStr t) x H') (q_key q) (q_opts q) x Ht _ R)
        as (s' & E & _).
      cbn [run body] in K. unfold bind at 1 in K. rewrite E in K. exists s'. rewrite lookup_is_run. unfold bind. rewrite E. auto.
  Qed.

  Hypothesis Wsrc : forall m, src = inl m -> wf (VMap m) = true.

  Lemma told_or_endless n q s : same w src sh s -> plain_request q ->
    (exists o, tells w src n q o) \/ fst (run_lookup w (S n) (q_key q) (q_opts q) (invocation (q_scope q) false s)) = NoFuel.
  Proof.
    intros Hs [(r & ps & Hk) Hv].
    assert (R : ready w src sh (q_scope q) (invocation (q_scope q) false s)) by (split; [ reflexivity | split; [ reflexivity | exact Hs ] ]).
    pose proof (all_decided w src Htop Hsrc Hcall sh (q_scope q) Wsrc Hv n) as [D _].
    destruct (lookup_settled w src Htop Hsrc Hcall sh (q_scope q) (run w n) (fun t => top_gives w (q_scope q) src n (QStr t))
                (fun t => top_breaks w (q_scope q) src n (QStr t))
                (interpolate_decided (ready w src sh (q_scope q)) (run w n) (fun t => top_gives w (q_scope q) src n (QStr t))
                   (fun t o H' => gives_run w src Htop Hsrc sh (q_scope q) n (QStr t) o H')
                   (fun t => top_breaks w (q_scope q) src n (QStr t)) D) Wsrc Hv (q_key q) (q_opts q) r ps Hk) as [(o & H & _)|[(x & H)|H]].
    - left. exists (Ok o). exact H.
    - left. exists (Panic x). exact H.
    - right. specialize (H _ R). rewrite lookup_is_run. unfold bind.
      destruct (lookup w (run w n) (q_key q) (q_opts q) (invocation (q_scope q) false s)) as [o s']. cbn [fst] in H. subst o. reflexivity.
  Qed.

  Lemma session_told n : forall rs os s, same w src sh s -> Forall2 (tells w src n) rs os -> fst (serve w (S n) false rs s) = os.
  Proof.
    intros rs os s Hs H. revert s Hs. induction H as [|q o rs os Hq _ IH]; intros s Hs; [ reflexivity | ]. cbn [serve].
    destruct (told n q o s Hs Hq) as (s' & -> & Hs'). specialize (IH s' Hs').
    destruct (serve w (S n) false rs s') as [os' s'']. cbn [fst] in *. congruence.
  Qed.

  Lemma session_tells n : forall rs s, same w src sh s -> Forall plain_request rs ->
    Forall (fun o => o <> NoFuel) (fst (serve w (S n) false rs s)) -> Forall2 (tells w src n) rs (fst (serve w (S n) false rs s)).
  Proof.
    induction rs as [|q rs IH]; intros s Hs Hp Hf; [ constructor | ]. inversion Hp as [|? ? Hq Hrs]; subst.
    pose proof (told_or_endless n q s Hs Hq) as T. pose proof (fun o => told n q o s Hs) as K. cbn [serve] in *.
    destruct (run_lookup w (S n) (q_key q) (q_opts q) (invocation (q_scope q) false s)) as [a s1]. cbn [fst] in T.
    destruct T as [(o & Ho)| ->].
    - destruct (K o Ho) as (s' & E & Hs'). injection E as -> ->. specialize (IH s' Hs' Hrs).
      destruct (serve w (S n) false rs s') as [os s2]. cbn [fst] in *. inversion Hf; subst. constructor; [ exact Ho | apply IH; assumption ].
    - destruct (serve w (S n) false rs s1) as [os s2]. inversion Hf as [|? ? C _]; subst. destruct (C eq_refl).
  Qed.
End Sessions.

Lemma new_same w src sc ex : same w src [] (init_st sc ex).
Proof. split; [ reflexivity | ]. intros _. destruct src; [ left | ]; cbn; auto. Qed.

(** The outcomes of a session in which every lookup ends are those of the
    description, at the same depth of nesting, with and without an explainer. *)
Theorem C84_sessions : forall w src n rs os sc,
  plain_top (w_top w) -> (w_top w = LkYaml -> yaml_source w src) -> functions_answer w ->
  (forall m, src = inl m -> wf (VMap m) = true) -> Forall plain_request rs ->
  (fst (serve w (S n) false rs (init_st sc None)) = os /\ Forall (fun o => o <> NoFuel) os <-> Forall2 (tells w src n) rs os) /\
  forall options only, fst (serve w (S n) true rs (init_st sc (Some (new_explainer options only)))) = fst (serve w (S n) false rs (init_st sc None)).
Proof.
  intros w src n rs os sc Ht Hs Hc Hw Hp. split.
  - split.
    + intros [<- Hf]. exact (session_tells w src Ht Hs Hc [] Hw n rs _ (new_same w src sc None) Hp Hf).
    + intro H. split; [ exact (session_told w src Ht Hs Hc [] n rs os _ (new_same w src sc None) H) | ].
      clear - H. induction H as [|q o rs os Ho _ IH]; constructor; [ | exact IH ]. intros ->. exact Ho.
  - intros options only. exact (proj1 (sim_serve w (S n) rs (init_st sc (Some (new_explainer options only))) (init_st sc None) eq_refl eq_refl)).
Qed.
Print Assumptions C84_sessions.

(** A lookup goes on for ever exactly if the description says nothing about it. *)
Theorem C84_endless : forall w src q sc,
  plain_top (w_top w) -> (w_top w = LkYaml -> yaml_source w src) -> functions_answer w ->
  (forall m, src = inl m -> wf (VMap m) = true) -> plain_request q ->
  ((forall N, fst (serve w N false [q] (init_st sc None)) = [NoFuel]) <-> ~ exists n o, tells w src n q o).
Proof.
  intros w src q sc Ht Hs Hc Hw Hq. split.
  - intros H (n & o & Ho). destruct (proj2 (proj1 (C84_sessions w src n [q] [o] sc Ht Hs Hc Hw (Forall_cons q Hq (Forall_nil _))))
      (Forall2_cons _ _ Ho (Forall2_nil _))) as [E F]. rewrite H in E. injection E as <-. exact Ho.
  - intros H [|n]; [ reflexivity | ].
    destruct (told_or_endless w src Ht Hs Hc [] Hw n q (init_st sc None) (new_same w src sc None) Hq) as [(o & Ho)|E]; [ destruct H; eauto | ].
    cbn [serve]. destruct (run_lookup w (S n) (q_key q) (q_opts q) (invocation (q_scope q) false (init_st sc None))) as [o s].
    cbn [fst] in *. rewrite E. reflexivity.
Qed.
Print Assumptions C84_endless.

(** ** Cycles *)

Section Ring.
  Variables (w : world) (src : entries + err).
  Hypothesis Htop : plain_top (w_top w).
  Hypothesis Hsrc : w_top w = LkYaml -> yaml_source w src.
  Variable sh : list (string * shared).
  Variable sc : scope.
  Variable ring : string -> Prop.
  Hypothesis Hring : forall r, ring r -> r <> "lookup_options" /\
    exists v t r', top_has w sc src [] r (w_top w) (Some v) /\ first_text t v /\ asks_for t r' /\ ring r'.

  Let P := ready w src sh sc.
  Let Poff : forall s, P s -> off s := ready_off w src sh sc.

  Lemma ring_text n t r : asks_for t r -> (forall k rest, k_parts k = PStr r :: rest -> diverges P (run w n (RLookup k None))) ->
    diverges P (run w (S n) (RStr t true)).
  Proof.
    intros (u & ex & rest & name & arg & ps & Et & Hu & Hex & Hc & Hl & Hk) Hn.
    destruct (cut_exists rest) as (cut & last & [Hc1 Hc2] & Er).
    change (run w (S n) (RStr t true)) with (istr w (run w n) t true).
    apply (div_string w sc P Poff (ready_scope w src sh sc) (run w n) (fun t => top_gives w sc src n (QStr t))
             (fun k => top_gives w sc src n (QKey k))
             (fun t o H' => gives_run w src Htop Hsrc sh sc n (QStr t) o H')
             (fun k o H' => gives_run w src Htop Hsrc sh sc n (QKey k) o H') t [] u ex cut last []).
    - cbn [app assembled]. rewrite Er. exact Et.
    - split; [ constructor; [ split; assumption | exact Hc1 ] | exact Hc2 ].
    - constructor.
    - intros ts acc m result. eapply div_lookup; [ exact Hc | exact Hl | exact Hk | ]. exact (Hn (mk_key arg (PStr r :: ps)) ps eq_refl).
  Qed.

  Lemma ring_value n t v : diverges P (run w (S n) (RStr t true)) -> first_text t v -> diverges P (do_interp (run w (S n)) true v).
  Proof.
    intros Ht H. pose (si := fun t => top_gives w sc src (S n) (QStr t)).
    assert (G : forall t o, si t o -> exists b, (b = false -> o = Some (VStr t)) /\ yields P (run w (S n) (RStr t true)) (o, b))
      by (intros t' o H'; exact (gives_run w src Htop Hsrc sh sc (S n) (QStr t') o H')).
    assert (Q : forall y, wf y = true /\ settled y -> exists r, value_is si y r).
    { intros y Hy. exists (Some y). apply quiet_is; [ | exact Hy ]. intros t' Ht'. unfold si. cbn [top_gives]. apply plain_text. exact Ht'. }
    induction H as [|pre v post Hp _ IH|pre k v post Hp _ IH|pre k v post Hp Hk1 Hk2 _ IH].
    - exact Ht.
    - rewrite do_interp_arr. apply div_bind.
      refine (div_each_arr P (run w (S n)) si G pre v post _ IH).
      eapply Forall_impl; [ | exact Hp ]. exact Q.
    - rewrite do_interp_map. apply div_bind.
      refine (div_each_map P (run w (S n)) si G pre k v post _ _ _); [ | left; exact IH ].
      eapply Forall_impl; [ | exact Hp ]. intros e [H1 H2]. split; apply Q; assumption.
    - rewrite do_interp_map. apply div_bind.
      refine (div_each_map P (run w (S n)) si G pre k v post _ _ _).
      + eapply Forall_impl; [ | exact Hp ]. intros e [H1 H2]. split; apply Q; assumption.
      + right. split; [ apply Q; split; assumption | exact IH ].
  Qed.

  Lemma ring_key n k opts r rest v t r' : k_parts k = PStr r :: rest -> r <> "lookup_options" ->
    top_has w sc src (match opts with Some o => o | None => [] end) r (w_top w) (Some v) -> first_text t v -> asks_for t r' ->
    (forall k rest, k_parts k = PStr r' :: rest -> diverges P (run w n (RLookup k None))) ->
    diverges P (run w (S (S n)) (RLookup k opts)).
  Proof.
    intros Hk Hr Hv Ht Ha Hn. pose proof (ring_value n t v (ring_text n t r' Ha Hn) Ht) as D. revert D. generalize (S n). clear n Hn. intros n D.
    cbn [run body]. apply div_bind. unfold lookup. apply String.eqb_neq in Hr.
    eapply div_after with (a := r); [ apply yields_lift; unfold root; rewrite Hk; reflexivity | ]. rewrite Hr.
    eapply div_after; [ apply (top_yields w src Htop Hsrc sh sc); exact Hv | ]. apply div_data. apply div_bind.
    unfold interpolate. apply div_bind. exact D.
  Qed.

  Lemma fewer n q : diverges P (run w (S n) q) -> diverges P (run w n q).
  Proof.
    intros D s Hs. specialize (D s Hs). destruct (fst (run w n q s)) eqn:E; try reflexivity;
      rewrite (run_mono w n (S n) q s (Nat.le_succ_diag_r n)) in D; congruence.
  Qed.

  Lemma ring_keys n : forall r k rest, ring r -> k_parts k = PStr r :: rest -> diverges P (run w n (RLookup k None)).
  Proof.
    induction n as [|n IH]; intros r k rest Hr Hk; [ intros s _; reflexivity | ].
    destruct (Hring r Hr) as (Hl & v & t & r' & Hv & Ht & Ha & Hr').
    apply fewer. eapply ring_key; [ exact Hk | exact Hl | exact Hv | exact Ht | exact Ha | ].
    intros k' rest' Hk'. exact (IH r' k' rest' Hr' Hk').
  Qed.
End Ring.

(** Keys whose texts ask for each other are looked up for ever, whatever is asked
    first and whatever other options there are. *)
Theorem C84_cycles : forall w src (ring : string -> Prop) q r rest v t r' sc,
  plain_top (w_top w) -> (w_top w = LkYaml -> yaml_source w src) ->
  (forall r, ring r -> r <> "lookup_options" /\
     exists v t r', top_has w (q_scope q) src [] r (w_top w) (Some v) /\ first_text t v /\ asks_for t r' /\ ring r') ->
  k_parts (q_key q) = PStr r :: rest -> r <> "lookup_options" ->
  top_has w (q_scope q) src (match q_opts q with Some o => o | None => [] end) r (w_top w) (Some v) ->
  first_text t v -> asks_for t r' -> ring r' ->
  forall N, fst (serve w N false [q] (init_st sc None)) = [NoFuel].
Proof.
  intros w src ring q r rest v t r' sc Htop Hsrc Hring Hk Hr Hv Ht Ha Hr' N.
  assert (R : ready w src [] (q_scope q) (invocation (q_scope q) false (init_st sc None)))
    by (split; [ reflexivity | split; [ reflexivity | apply new_same ] ]).
  assert (D : diverges (ready w src [] (q_scope q)) (run w N (RLookup (q_key q) (q_opts q)))).
  { apply fewer, fewer. eapply ring_key; [ exact Htop | exact Hsrc | exact Hk | exact Hr | exact Hv | exact Ht | exact Ha | ].
    intros k' rest' Hk'. exact (ring_keys w src Htop Hsrc [] (q_scope q) ring Hring N r' k' rest' Hr' Hk'). }
  specialize (D _ R).
  assert (E : fst (run_lookup w N (q_key q) (q_opts q) (invocation (q_scope q) false (init_st sc None))) = NoFuel).
  { unfold run_lookup, bind. destruct (run w N (RLookup (q_key q) (q_opts q)) (invocation (q_scope q) false (init_st sc None))) as [o s].
    cbn [fst] in D. rewrite D. reflexivity. }
  cbn [serve]. destruct (run_lookup w N (q_key q) (q_opts q) (invocation (q_scope q) false (init_st sc None))) as [o s].
  cbn [fst] in *. rewrite E. reflexivity.
Qed.
Print Assumptions C84_cycles.

(** How often a file has been read. *)
Definition reads (p : string) (t : list event) : nat :=
  length (filter (fun e => match e with EvYaml q => String.eqb q p | _ => false end) t).

Lemma reads_none p t : reads p t = 0 -> ~ In (EvYaml p) t.
Proof.
  unfold reads. intros H Hin. assert (K : In (EvYaml p) (filter (fun e => match e with EvYaml q => String.eqb q p | _ => false end) t)).
  { apply filter_In. split; [ exact Hin | apply String.eqb_refl ]. }
  destruct (filter (fun e => match e with EvYaml q => String.eqb q p | _ => false end) t); [ exact K | discriminate ].
Qed.

(** The file is read once at most, whatever is looked up, whether it is there or
    not, found or failed, explained or not. *)
Theorem C84_read_once : forall w m n explain rs sc ex,
  w_top w = LkYaml -> yaml_source w (inl m) ->
  reads (yaml_path w) (s_trace (snd (serve w n explain rs (init_st sc ex)))) <= 1.
Proof.
  intros w m n explain rs sc ex Ht Hs.
  set (J := fun s => (aget "yaml::data" (s_tpc s) = None /\ reads (yaml_path w) (s_trace s) = 0) \/
                     (aget "yaml::data" (s_tpc s) = Some (VMap m) /\ reads (yaml_path w) (s_trace s) = 1)).
  assert (T : forall rec opts r, keeps J (call_lk w rec (w_top w) opts r)).
  { intros rec opts r s H. rewrite Ht. cbn [call_lk]. unfold yaml_lookup. unfold bind at 1. unfold run_op at 1.
    destruct H as [[H1 H2]|[H1 H2]]; rewrite H1.
    - inversion Hs as [m0 Hm|]; subst m0. specialize (Hm _ (reads_none _ _ H2)).
      unfold bind at 1. unfold bind at 1. rewrite file_run.
      replace (match w_yaml w (s_trace s) (yaml_path w) with
             | DfMissing => Ok [] | DfError e => Panic e | DfValue (VMap m) => Ok m
             | DfValue _ => Panic (EErr ("file '" ++ yaml_path w ++ "' does not contain a YAML hash")) end) with (Ok m)
        by (inversion Hm; reflexivity).
      right. split; [ reflexivity | ]. cbn [snd]. change (reads (yaml_path w) (s_trace s ++ [EvYaml (yaml_path w)])%list = 1).
      unfold reads in *. rewrite filter_app, app_length, H2. cbn [filter]. rewrite String.eqb_refl. reflexivity.
    - right. split; assumption. }
  assert (K : forall rs s, J s -> J (snd (serve w n explain rs s))).
  { induction rs0 as [|q rs0 IH]; intros s H; [ exact H | ]. cbn [serve].
    assert (E : J (snd (run_lookup w n (q_key q) (q_opts q) (invocation (q_scope q) explain s)))).
    { unfold run_lookup. apply keeps_bind; [ | intro; apply keeps_ret | exact H ].
      exact (proj2 (keeps_run J w (fun _ _ h => h) (fun _ _ h => h) T n) (q_key q) (q_opts q)). }
    destruct (run_lookup w n (q_key q) (q_opts q) (invocation (q_scope q) explain s)) as [o s1]. cbn [snd] in E.
    specialize (IH s1 E). destruct (serve w n explain rs0 s1) as [os s2]. exact IH. }
  destruct (K rs (init_st sc ex)) as [[_ H]|[_ H]]; [ left; split; reflexivity | | ]; rewrite H; auto.
Qed.
Print Assumptions C84_read_once.

(** ** Examples *)

(** A file that can be read once: afterwards it is gone. *)
Definition once_m : entries :=
  [(VStr "a", VStr "%{lookup('b.c')} of %{who}"); (VStr "b", VMap [(VStr "c", VStr "%{ scope('x') }")]);
   (VStr "bad", VArr [VInt 1; VStr "%{lookup('no..key')}"]); (VStr "loop", VArr [VStr "here"; VStr "%{alias('loop')}"]); (VStr "who", VStr "unused")].
Definition once_yaml (t : list event) (p : string) : data_file :=
  if String.eqb p "/d.yaml" then
    if existsb (fun e => match e with EvYaml q => String.eqb q "/d.yaml" | _ => false end) t then DfError (EErr "gone") else DfValue (VMap once_m)
  else DfMissing.
Definition once_w : world :=
  mk_world (fun _ _ => false) (fun _ _ => []) (fun _ _ => CfMissing) once_yaml (fun _ _ => DfMissing)
    (fun _ _ => DirMissing) (fun _ _ => LsMissing) (fun _ _ => false) (fun _ _ _ => Ok false) (fun _ _ _ => PRet None) (fun _ _ _ => Ok None)
    [] "/work" (fun _ => "?") (fun _ => Panic (EStr "?")) (fun _ v _ => Ok v)
    LkYaml "/h/hiera.yaml" None None (Some (VStr "/d.yaml")).
Definition once_ask (t : string) (ps : list part) (o : option entries) : request :=
  mk_request (ScMap [(VStr "x", VStr "X"); (VStr "who", VInt 7)]) (mk_key t ps) o.
Definition once_rs : list request :=
  [once_ask "a" [PStr "a"] None; once_ask "b.c" [PStr "b"; PStr "c"] (Some [(VStr "merge", VStr "bogus")]);
   once_ask "bad.0" [PStr "bad"; PInt 0] None; once_ask "z" [PStr "z"] None; once_ask "who" [PStr "who"] None].

Lemma once_source : yaml_source once_w (inl once_m).
Proof.
  apply ys_content. intros t Hn. change (file_has (once_yaml t "/d.yaml") once_m). unfold once_yaml. cbn [String.eqb Ascii.eqb Bool.eqb].
  destruct (existsb (fun e => match e with EvYaml q => String.eqb q "/d.yaml" | _ => false end) t) eqn:E; [ | constructor ].
  apply existsb_exists in E as (e & He & Ee). destruct e; try discriminate. apply String.eqb_eq in Ee. subst. destruct (Hn He).
Qed.
Lemma once_functions : functions_answer once_w.
Proof. intros f a. left. exists None. split; [ reflexivity | exact tidy_none ]. Qed.
Lemma once_plain : Forall plain_request once_rs.
Proof.
  assert (G : forall t r ps o, plain_request (once_ask t (PStr r :: ps) o)).
  { intros t r ps o. split; [ exists r, ps; reflexivity | ]. intros x v E. unfold scope_get, mgets in E. cbn [once_ask q_scope mget] in E.
    destruct (veq (VStr x) (VStr "x")); [ injection E as <-; reflexivity | ].
    destruct (veq (VStr x) (VStr "who")); [ injection E as <-; reflexivity | discriminate ]. }
  unfold once_rs. do 5 (constructor; [ apply G | ]). constructor.
Qed.

Definition once_os : list (outcome (option value)) :=
  [Ok (Some (VStr "X of 7")); Ok (Some (VStr "X")); Panic (EErr "key 'no..key' contains an empty segment"); Ok None; Ok (Some (VStr "unused"))].

Example C84_sessions_ex : Forall2 (tells once_w (inl once_m) 8) once_rs once_os /\
  fst (serve once_w 9 true once_rs (init_st (ScMap []) (Some (new_explainer true false)))) = once_os.
Proof.
  destruct (C84_sessions once_w (inl once_m) 8 once_rs once_os (ScMap []) pt_yaml (fun _ => once_source) once_functions) as [H1 H2].
  - intros m E. injection E as <-. reflexivity.
  - exact once_plain.
  - assert (E : fst (serve once_w 9 false once_rs (init_st (ScMap []) None)) = once_os) by (vm_compute; reflexivity).
    split; [ | rewrite H2; exact E ]. apply H1. split; [ exact E | ]. unfold once_os. do 5 (constructor; [ discriminate | ]). constructor.
Qed.

Example C84_read_once_ex : reads "/d.yaml" (s_trace (snd (serve once_w 9 false once_rs (init_st (ScMap []) None)))) = 1 /\
  forall n explain rs sc ex, reads "/d.yaml" (s_trace (snd (serve once_w n explain rs (init_st sc ex)))) <= 1.
Proof.
  split; [ vm_compute; reflexivity | ]. intros. exact (C84_read_once once_w once_m n explain rs sc ex eq_refl once_source).
Qed.

(** A text that is an alias for itself, inside an array and after other texts. *)
Definition once_loop : request := once_ask "loop" [PStr "loop"] None.
Lemma once_loop_plain : plain_request once_loop.
Proof.
  split; [ exists "loop", []; reflexivity | ]. intros x v E. unfold scope_get, mgets in E. cbn [once_loop once_ask q_scope mget] in E.
  destruct (veq (VStr x) (VStr "x")); [ injection E as <-; reflexivity | ].
  destruct (veq (VStr x) (VStr "who")); [ injection E as <-; reflexivity | discriminate ].
Qed.
Lemma once_has : top_has once_w (q_scope once_loop) (inl once_m) [] "loop" LkYaml (Some (VArr [VStr "here"; VStr "%{alias('loop')}"])).
Proof. exact (th_yaml once_w (q_scope once_loop) (inl once_m) [] "loop" once_m eq_refl). Qed.
Lemma once_first : first_text "%{alias('loop')}" (VArr [VStr "here"; VStr "%{alias('loop')}"]).
Proof.
  apply (ft_arr _ [VStr "here"] _ []); [ | constructor ].
  constructor; [ split; [ reflexivity | apply settled_by; reflexivity ] | constructor ].
Qed.
Lemma once_asks : asks_for "%{alias('loop')}" "loop".
Proof.
  exists "", "alias('loop')", "", "alias", "loop", [].
  split; [ reflexivity | ]. split; [ apply contains_not; reflexivity | ]. split; [ apply contains_not; reflexivity | ].
  split; [ apply ex_calls; reflexivity | ]. split; [ right; right; split; [ left; reflexivity | reflexivity ] | apply written_by; reflexivity ].
Qed.

Example C84_cycles_ex : forall N, fst (serve once_w N false [once_loop] (init_st (ScMap []) None)) = [NoFuel].
Proof.
  apply (C84_cycles once_w (inl once_m) (fun r => r = "loop") once_loop "loop" [] (VArr [VStr "here"; VStr "%{alias('loop')}"])
           "%{alias('loop')}" "loop" (ScMap []) pt_yaml (fun _ => once_source)); try reflexivity; try discriminate.
  - intros r ->. split; [ discriminate | ]. do 3 eexists.
    split; [ exact once_has | split; [ exact once_first | split; [ exact once_asks | reflexivity ] ] ].
  - exact once_has.
  - exact once_first.
  - exact once_asks.
Qed.
Example C84_endless_ex : ~ exists n o, tells once_w (inl once_m) n once_loop o.
Proof.
  apply (C84_endless once_w (inl once_m) once_loop (ScMap []) pt_yaml (fun _ => once_source) once_functions);
    [ intros m E; injection E as <-; reflexivity | exact once_loop_plain | exact C84_cycles_ex ].
Qed.

(** The other providers: variables of the environment, a scope, and a function
    that fails for some keys. *)
Definition env_top : world := with_top LkEnv None (with_env [("PATH", "/bin"); ("NOTE", "see %{env.PATH} or %{lookup('env::PATH')}")] once_w).
Definition user_top : world :=
  mk_world (fun _ _ => false) (fun _ _ => []) (fun _ _ => CfMissing) once_yaml (fun _ _ => DfMissing)
    (fun _ _ => DirMissing) (fun _ _ => LsMissing) (fun _ _ => false) (fun _ _ _ => Ok false)
    (fun _ _ a => match a with
                  | ALookupKey o k => if String.eqb k "bad" then PPanic (EErr "no such thing") else PRet (Some (VArr [VStr k; VInt (Z.of_nat (length o)); VStr "%{x}"]))
                  | _ => PRet None end) (fun _ _ _ => Ok None)
    [] "/work" (fun _ => "?") (fun _ => Panic (EStr "?")) (fun _ v _ => Ok v)
    (LkUser "f") "/h/hiera.yaml" None None None.
Lemma user_functions : functions_answer user_top.
Proof.
  intros f a. destruct a as [o|o k]; cbn [user_top w_call]; [ left; exists None; split; [ reflexivity | exact tidy_none ] | ].
  destruct (String.eqb k "bad"); [ right; eexists; reflexivity | left ]. eexists. split; [ reflexivity | ]. intros v E. injection E as <-. reflexivity.
Qed.
Example C84_providers_ex :
  (exists n, Forall2 (tells env_top (inl []) n) [once_ask "env.NOTE" [PStr "env"; PStr "NOTE"] None; once_ask "env::NO" [PStr "env::NO"] None]
     [Ok (Some (VStr "see  or /bin")); Ok None]) /\
  (exists n, Forall2 (tells user_top (inl []) n)
     [once_ask "k.1" [PStr "k"; PInt 1] (Some [(VStr "a", VInt 1)]); once_ask "bad" [PStr "bad"] None; once_ask "k.2" [PStr "k"; PInt 2] None]
     [Ok (Some (VInt 1)); Panic (EErr "no such thing"); Ok (Some (VStr "X"))]).
Proof.
  assert (G : forall t r ps o, plain_request (once_ask t (PStr r :: ps) o)).
  { intros t r ps o. split; [ exists r, ps; reflexivity | ]. intros x v E. unfold scope_get, mgets in E. cbn [once_ask q_scope mget] in E.
    destruct (veq (VStr x) (VStr "x")); [ injection E as <-; reflexivity | ].
    destruct (veq (VStr x) (VStr "who")); [ injection E as <-; reflexivity | discriminate ]. }
  split; exists 8.
  - apply (C84_sessions env_top (inl []) 8 _ _ (ScMap []) pt_environment); [ discriminate | exact once_functions | | | ].
    + intros m E. injection E as <-. reflexivity.
    + do 2 (constructor; [ apply G | ]). constructor.
    + split; [ vm_compute; reflexivity | ]. do 2 (constructor; [ discriminate | ]). constructor.
  - apply (C84_sessions user_top (inl []) 8 _ _ (ScMap []) (pt_user "f")); [ discriminate | exact user_functions | | | ].
    + intros m E. injection E as <-. reflexivity.
    + do 3 (constructor; [ apply G | ]). constructor.
    + split; [ vm_compute; reflexivity | ]. do 3 (constructor; [ discriminate | ]). constructor.
Qed.
