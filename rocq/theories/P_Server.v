(** C81: what a function of the user is given and what it can do. *)

From Coq Require Import String Ascii List ZArith Bool Arith Lia.
From Verif Require Import Str Value Outcome Key Ipl Config Explain State Engine Session Worlds Transparent
  SpecKey SpecKeyErr SpecIpl SpecInterp SpecLookup SpecFail SpecServer SpecServerFail
  StrFacts IplFacts KeyFacts KeyErrFacts IplExact InterpFacts ExLevels ServerExact ServerFail
  SpecWorld ValueFacts Decided ServerComplete.
Import ListNotations.
Open Scope nat_scope.
Open Scope string_scope.
Open Scope list_scope.

Lemma serves_run w name function : w_top w = LkUser name -> (forall t a, w_call w t (FnTop name) a = function a) ->
  forall c rs os c', serves w function c rs os c' ->
  exists n0, forall n, n0 <= n -> forall s, (forall x, aget x (s_tpc s) = c x) ->
  fst (serve w n false rs s) = map Ok os /\ (forall x, aget x (s_tpc (snd (serve w n false rs s))) = c' x).
Proof.
  intros Ht Hc c rs os c' H. induction H as [c|c q rs o os c1 c' H1 _ [b IH]].
  - exists 0. intros n _ s Hs. split; [ reflexivity | exact Hs ].
  - destruct (proj1 (server_exact w (q_scope q) function name Ht Hc) _ _ _ _ _ _ H1) as [a A].
    exists (a + b). intros n Hn s Hs. cbn [serve].
    destruct (A n ltac:(lia) (invocation (q_scope q) false s)) as (s1 & E & K).
    { split; [ reflexivity | ]. split; [ reflexivity | ]. split; [ reflexivity | exact Hs ]. }
    assert (R : run_lookup w n (q_key q) (q_opts q) (invocation (q_scope q) false s) = (Ok o, s1)).
    { unfold run_lookup, bind. rewrite E. reflexivity. }
    rewrite R. destruct (IH n ltac:(lia) s1 (proj2 (proj2 (proj2 K)))) as [I1 I2].
    destruct (serve w n false rs s1) as [os' s2]. cbn [fst snd map] in *. split; [ congruence | exact I2 ].
Qed.

(** A session whose top provider is a function of the user.  Any number of
    lookups, in any scopes, explained or not, gives what the function gives with
    one cache for all calls: Cache gives what was there before and CachedValue
    what is there now, whichever request stored it; the scope and the mode are
    those of the invocation; lookups made by the function, and by expressions in
    what it gives, come back to it. *)
Theorem C81_sessions : forall w name function rs os c,
  w_top w = LkUser name -> (forall t a, w_call w t (FnTop name) a = function a) ->
  serves w function (fun _ => None) rs os c ->
  exists n0, forall n, n0 <= n ->
  (forall sc, fst (serve w n false rs (init_st sc None)) = map Ok os) /\
  (forall sc options only, fst (serve w n true rs (init_st sc (Some (new_explainer options only)))) = map Ok os).
Proof.
  intros w name function rs os c Ht Hc H.
  destruct (serves_run w name function Ht Hc _ _ _ _ H) as [n0 G]. exists n0. intros n Hn.
  assert (E : forall sc, fst (serve w n false rs (init_st sc None)) = map Ok os).
  { intro sc. apply (G n Hn). reflexivity. }
  split; [ exact E | ]. intros sc options only. rewrite <- (E sc).
  exact (proj1 (sim_serve w n rs (init_st sc (Some (new_explainer options only))) (init_st sc None) eq_refl eq_refl)).
Qed.
Print Assumptions C81_sessions.

(** A function that counts, remembers the last key it was asked for, and gives a
    text that looks up another key. *)
Definition srv_value (r : string) (old : option value) : value :=
  vmap [("v", VStr ("%{who} asked for " ++ r)); ("before", match old with Some x => x | None => VStr "nothing" end);
        ("now", VStr "%{lookup('last')}")].
Definition srv_function (a : args) : prog :=
  match a with
  | ALookupKey _ r =>
      if String.eqb r "last" then PCached "key" (fun k => PRet k)
      else PCache "key" (VStr r) (fun old => PRet (Some (srv_value r old)))
  | _ => PRet None
  end.
Definition srv_w : world :=
  with_top (LkUser "f") None (with_funs [("f", srv_function)] (file_world [] [])).
Definition srv_rs : list request :=
  [mk_request (ScMap [(VStr "who", VStr "A")]) (mk_key "a.v" [PStr "a"; PStr "v"]) None;
   mk_request (ScMap []) (mk_key "last" [PStr "last"]) None;
   mk_request (ScMap []) (mk_key "b" [PStr "b"]) None;
   mk_request (ScMap []) (mk_key "b.before" [PStr "b"; PStr "before"]) None].
Definition srv_os : list (option value) :=
  [Some (VStr "A asked for a"); Some (VStr "a");
   Some (vmap [("v", VStr " asked for b"); ("before", VStr "a"); ("now", VStr "b")]); Some (VStr "b")].

Lemma be_plain w sc f md c t : ~ has "%{" t -> becomes w sc f md c (VStr t) (Some (VStr t)) c.
Proof.
  intro H. apply be_str. apply (st_text w sc f md c [] [] t c); [ | constructor ].
  split; [ constructor | ]. intros (a & b & d & ->). apply H. exists a, (b ++ "}" ++ d)%string. reflexivity.
Qed.

Lemma ex_variable w sc f md c e r : new_key e = Ok (mk_key e [PStr e]) -> trim_space e = e -> empty_interpolation e = false ->
  method_match e = None ->
  match scope_get sc e with Some (VStr t) => r = t /\ ~ has "%{" t | None => r = "" | _ => False end ->
  expression_becomes w sc f md c e r c.
Proof.
  intros Hk Ht He Hm H. apply written_by in Hk. pose proof (empty_interpolation_not_in e He) as Hn. rewrite <- Ht in Hn at 1.
  assert (Ha : asks_scope true (trim_space e) e).
  { right. split; [ symmetry; exact Ht | ]. intros name a K. apply method_match_spec in K. rewrite Ht in K. congruence. }
  destruct (scope_get sc e) as [[| | | |t| | |]|] eqn:Eg; try contradiction.
  - destruct H as [-> H]. change t with (text w (Some (VStr t))).
    eapply ex_scope; [ exact Hn | exact Ha | exact Hk | exact Eg | apply be_plain; assumption | constructor; constructor ].
  - subst r. eapply ex_unset; eassumption.
Qed.

Lemma srv_asked sc md c r ps k old who o : k_parts k = PStr r :: ps -> r <> "last" -> r <> "lookup_options" ->
  contains "%{" (" asked for " ++ r) = false -> c "key" = old -> match old with Some x => exists t, x = VStr t /\ ~ has "%{" t | None => True end ->
  match scope_get sc "who" with Some (VStr t) => who = t /\ ~ has "%{" t | None => who = "" | _ => False end ->
  digs ps (Some (vmap [("v", VStr (who ++ " asked for " ++ r)); ("before", match old with Some x => x | None => VStr "nothing" end);
                       ("now", VStr r)])) o ->
  asks srv_w sc srv_function md c k None o (put "key" (VStr r) c).
Proof.
  intros Hk Hr Hl Hp Ho Hq Hw Hd. eapply as_value with (x := srv_value r old) (c1 := put "key" (VStr r) c); [ exact Hk | exact Hl | | | exact Hd ].
  - cbn [srv_function]. apply String.eqb_neq in Hr. rewrite Hr. apply do_cache. rewrite Ho. apply do_return.
  - set (C := put "key" (VStr r) c).
    assert (P : forall t, ~ has "%{" t -> becomes srv_w sc srv_function MdData C (VStr t) (Some (VStr t)) C)
      by (intros t Ht; apply be_plain; exact Ht).
    match goal with |- becomes _ _ _ _ _ _ (Some (vmap ?l)) _ =>
      refine (be_map srv_w sc srv_function MdData C _ (map (fun e => (VStr (fst e), snd e)) l) C _ _) end;
      [ destruct old as [x|]; [ destruct Hq as (t & -> & _) | ]; reflexivity | ].
    cbn [map fst snd].
    apply (en_cons _ _ _ _ _ _ (Some (VStr "v")) _ (Some (VStr (who ++ " asked for " ++ r))) _ _ C C); [ | | 
      apply (en_cons _ _ _ _ _ _ (Some (VStr "before")) _ (Some (match old with Some x => x | None => VStr "nothing" end)) _ _ C C); [ | |
      apply (en_cons _ _ _ _ _ _ (Some (VStr "now")) _ (Some (VStr r)) _ _ C C); [ | | apply en_nil ] ] ].
    + apply P. now apply contains_not.
    + apply be_str. apply (st_text srv_w sc srv_function MdData C [("", "who")] [who] (" asked for " ++ r) C).
      * split; [ constructor; [ split; apply contains_not; reflexivity | constructor ] | ].
        intros (a & b & d & E). apply contains_not in Hp. apply Hp. rewrite E. exists a, (b ++ "}" ++ d)%string. reflexivity.
      * apply (pa_cons _ _ _ _ _ _ _ _ _ _ C); [ | apply pa_nil ]. apply ex_variable; try reflexivity. exact Hw.
    + apply P. now apply contains_not.
    + destruct old as [x|]; [ destruct Hq as (t & -> & Ht); apply P; exact Ht | apply P; now apply contains_not ].
    + apply P. now apply contains_not.
    + apply be_str. rewrite <- (app_nil_s r) at 1.
      apply (st_text srv_w sc srv_function MdData C [("", "lookup('last')")] [r] "" C).
      * split; [ constructor; [ split; apply contains_not; reflexivity | constructor ] | ].
        intros ([|a1 a] & b & d & E); discriminate E.
      * apply (pa_cons _ _ _ _ _ _ _ _ _ _ C); [ | apply pa_nil ]. change r with (text srv_w (Some (VStr r))).
        eapply ex_lookup with (ps := [PStr "last"]); [ apply method_match_spec; reflexivity | left; reflexivity | apply written_by; reflexivity | ].
        eapply as_value with (c1 := C) (y := Some (VStr r)); [ reflexivity | discriminate | | | constructor; constructor ].
        -- cbn [srv_function String.eqb Ascii.eqb Bool.eqb]. apply do_cached. apply do_return.
        -- apply P. apply contains_not in Hp. intro H. apply Hp. apply (has_app_r "%{" " asked for " r). exact H.
Qed.

Example C81_ex : (exists c, serves srv_w srv_function (fun _ => None) srv_rs srv_os c) /\
  forall sc, fst (serve srv_w 20 false srv_rs (init_st sc None)) = map Ok srv_os.
Proof.
  split; [ | intro sc; vm_compute; reflexivity ]. eexists. unfold srv_rs, srv_os.
  eapply se_cons; [ eapply srv_asked with (old := None) (who := "A"); try reflexivity; try discriminate; [ split; [ reflexivity | now apply contains_not ] | exact (digs_by [PStr "v"] (Some (vmap [("v", VStr "A asked for a"); ("before", VStr "nothing"); ("now", VStr "a")]))) ] | ].
  eapply se_cons.
  { eapply as_value with (y := Some (VStr "a")); [ reflexivity | discriminate | apply do_cached; apply do_return | apply be_plain; now apply contains_not | constructor; constructor ]. }
  eapply se_cons; [ eapply srv_asked with (old := Some (VStr "a")) (who := ""); try reflexivity; try discriminate; [ exists "a"; split; [ reflexivity | now apply contains_not ] | constructor; constructor ] | ].
  eapply se_cons; [ eapply srv_asked with (old := Some (VStr "b")) (who := ""); try reflexivity; try discriminate; [ exists "b"; split; [ reflexivity | now apply contains_not ] | exact (digs_by [PStr "before"] (Some (vmap [("v", VStr " asked for b"); ("before", VStr "b"); ("now", VStr "b")]))) ] | ].
  apply se_nil.
Qed.

Lemma handles_run w name function : w_top w = LkUser name -> (forall t a, w_call w t (FnTop name) a = function a) ->
  forall c rs os c', handles w function c rs os c' ->
  exists n0, forall n, n0 <= n -> forall s, (forall x, aget x (s_tpc s) = c x) ->
  fst (serve w n false rs s) = os /\ (forall x, aget x (s_tpc (snd (serve w n false rs s))) = c' x).
Proof.
  intros Ht Hc c rs os c' H. induction H as [c|c q rs o os c1 c' H1 _ [b IH]|c q rs x os c1 c' H1 _ [b IH]].
  - exists 0. intros n _ s Hs. split; [ reflexivity | exact Hs ].
  - destruct (proj1 (server_exact w (q_scope q) function name Ht Hc) _ _ _ _ _ _ H1) as [a A].
    exists (a + b). intros n Hn s Hs. cbn [serve].
    destruct (A n ltac:(lia) (invocation (q_scope q) false s)) as (s1 & E & K).
    { split; [ reflexivity | ]. split; [ reflexivity | ]. split; [ reflexivity | exact Hs ]. }
    assert (R : run_lookup w n (q_key q) (q_opts q) (invocation (q_scope q) false s) = (Ok o, s1)).
    { unfold run_lookup, bind. rewrite E. reflexivity. }
    rewrite R. destruct (IH n ltac:(lia) s1 (proj2 (proj2 (proj2 K)))) as [I1 I2].
    destruct (serve w n false rs s1) as [os' s2]. cbn [fst snd] in *. split; [ congruence | exact I2 ].
  - destruct (proj1 (server_fails w (q_scope q) function name Ht Hc) _ _ _ _ _ _ H1) as [a A].
    exists (a + b). intros n Hn s Hs. cbn [serve].
    destruct (A n ltac:(lia) (invocation (q_scope q) false s)) as (s1 & E & K).
    { split; [ reflexivity | ]. split; [ reflexivity | ]. split; [ reflexivity | exact Hs ]. }
    assert (R : run_lookup w n (q_key q) (q_opts q) (invocation (q_scope q) false s) = (Panic x, s1)).
    { unfold run_lookup, bind. rewrite E. reflexivity. }
    rewrite R. destruct (IH n ltac:(lia) s1 K) as [I1 I2].
    destruct (serve w n false rs s1) as [os' s2]. cbn [fst snd] in *. split; [ congruence | exact I2 ].
Qed.

(** The same with functions that fail, and with what they give failing: the
    error is that of the first step that fails, wherever it is nested, and it
    ends that request.  What the function stored before it failed is there for
    the requests that come after it. *)
Theorem C81_failures : forall w name function rs os c,
  w_top w = LkUser name -> (forall t a, w_call w t (FnTop name) a = function a) ->
  handles w function (fun _ => None) rs os c ->
  exists n0, forall n, n0 <= n ->
  (forall sc, fst (serve w n false rs (init_st sc None)) = os) /\
  (forall sc options only, fst (serve w n true rs (init_st sc (Some (new_explainer options only)))) = os).
Proof.
  intros w name function rs os c Ht Hc H.
  destruct (handles_run w name function Ht Hc _ _ _ _ H) as [n0 G]. exists n0. intros n Hn.
  assert (E : forall sc, fst (serve w n false rs (init_st sc None)) = os).
  { intro sc. apply (G n Hn). reflexivity. }
  split; [ exact E | ]. intros sc options only. rewrite <- (E sc).
  exact (proj1 (sim_serve w n rs (init_st sc (Some (new_explainer options only))) (init_st sc None) eq_refl eq_refl)).
Qed.
Print Assumptions C81_failures.

(** A function that stores the key it is asked for and then fails for "bad";
    what it gives for "deep" fails in an array, after a lookup that stores. *)
Definition flt_function (a : args) : prog :=
  match a with
  | ALookupKey _ r =>
      if String.eqb r "last" then PCached "key" (fun k => PRet k)
      else PCache "key" (VStr r) (fun _ =>
        if String.eqb r "bad" then PPanic (EErr "no such thing")
        else if String.eqb r "deep" then PRet (Some (VArr [VStr "x"; VStr "%{lookup('bad')} y"; VStr "%{lookup('never')}"]))
        else if String.eqb r "odd" then PLookup "a..b" None (fun _ => PRet None)
        else PRet None)
  | _ => PRet None
  end.
Definition flt_w : world :=
  with_top (LkUser "f") None (with_funs [("f", flt_function)] (file_world [] [])).
Definition flt_q (k : string) : request := mk_request (ScMap []) (mk_key k [PStr k]) None.
Definition flt_rs : list request := map flt_q ["last"; "bad"; "last"; "deep"; "last"; "odd"; "last"; "other"; "last"].
Definition flt_os : list (outcome (option value)) :=
  [Ok None; Panic (EErr "no such thing"); Ok (Some (VStr "bad")); Panic (EErr "no such thing"); Ok (Some (VStr "bad"));
   Panic (EErr "key 'a..b' contains an empty segment"); Ok (Some (VStr "odd")); Ok None; Ok (Some (VStr "other"))].

Lemma flt_last c k : c "key" = Some (VStr k) -> ~ has "%{" k ->
  asks flt_w (ScMap []) flt_function MdTop c (mk_key "last" [PStr "last"]) None (Some (VStr k)) c.
Proof.
  intros E H. eapply as_value with (y := Some (VStr k)); [ reflexivity | discriminate | | apply be_plain; exact H | constructor; constructor ].
  cbn [flt_function String.eqb Ascii.eqb Bool.eqb]. apply do_cached. rewrite E. apply do_return.
Qed.
Lemma flt_bad md c : asking_fails flt_w (ScMap []) flt_function md c (mk_key "bad" [PStr "bad"]) None (EErr "no such thing")
  (put "key" (VStr "bad") c).
Proof.
  eapply af_function; [ reflexivity | discriminate | ].
  cbn [flt_function String.eqb Ascii.eqb Bool.eqb]. apply df_cache. apply df_panic.
Qed.

Example C81_failures_ex : (exists c, handles flt_w flt_function (fun _ => None) flt_rs flt_os c) /\
  forall sc, fst (serve flt_w 20 false flt_rs (init_st sc None)) = flt_os.
Proof.
  split; [ | intro sc; vm_compute; reflexivity ]. eexists. unfold flt_rs, flt_os. cbn [map flt_q].
  eapply ha_answer; [ eapply as_nothing; [ reflexivity | discriminate | apply do_cached; apply do_return ] | ].
  eapply ha_failure; [ apply flt_bad | ].
  eapply ha_answer; [ apply flt_last; [ reflexivity | now apply contains_not ] | ].
  eapply ha_failure.
  { eapply af_value; [ reflexivity | discriminate | | ].
    - cbn [q_opts q_key q_scope flt_function String.eqb Ascii.eqb Bool.eqb]. apply do_cache. apply do_return.
    - eapply (vb_element _ _ _ _ _ [VStr "x"]); [ eapply al_cons; [ apply be_plain; now apply contains_not | apply al_nil ] | ].
      eapply (vb_str _ _ _ _ _ [] "" "lookup('bad')" [] " y"); [ | apply pa_nil | ].
      + split; [ constructor; [ split; apply contains_not; reflexivity | constructor ] | ].
        intros ([|a0 [|a1 [|a2 a]]] & b & d & E); discriminate E.
      + eapply eb_lookup with (ps := [PStr "bad"]); [ apply method_match_spec; reflexivity | left; reflexivity | apply written_by; reflexivity | ].
        apply flt_bad. }
  eapply ha_answer; [ apply flt_last; [ reflexivity | now apply contains_not ] | ].
  eapply ha_failure.
  { eapply af_function; [ reflexivity | discriminate | ].
    cbn [q_opts q_key q_scope flt_function String.eqb Ascii.eqb Bool.eqb]. apply df_cache. apply df_key.
    apply new_key_refused. reflexivity. }
  eapply ha_answer; [ apply flt_last; [ reflexivity | now apply contains_not ] | ].
  eapply ha_answer; [ eapply as_nothing; [ reflexivity | discriminate | ] | ].
  { cbn [q_opts q_key q_scope flt_function String.eqb Ascii.eqb Bool.eqb]. apply do_cache. apply do_return. }
  eapply ha_answer; [ apply flt_last; [ reflexivity | now apply contains_not ] | ].
  apply ha_nil.
Qed.

(** And nothing else: whatever a session that ends answers, with functions that
    make no map with a key twice and variables without such maps, is what
    [handles] says. *)
Theorem C81_exactly : forall w name function rs os,
  w_top w = LkUser name -> (forall t a, w_call w t (FnTop name) a = function a) ->
  (forall opts r, neat (function (ALookupKey opts r))) ->
  Forall (fun q => (forall x v, scope_get (q_scope q) x = Some v -> wf v = true) /\
                   exists r ps, k_parts (q_key q) = PStr r :: ps) rs ->
  ((exists c, handles w function (fun _ => None) rs os c) <->
   exists n, ~ In NoFuel os /\ forall sc, fst (serve w n false rs (init_st sc None)) = os).
Proof.
  intros w name function rs os Ht Hc Hn Hq. split.
  - intros [c H]. destruct (C81_failures _ _ _ _ _ _ Ht Hc H) as [n G]. exists n. split; [ | apply G; apply le_n ].
    clear - H. induction H as [c|c q rs o os c1 c' _ _ IH|c q rs x os c1 c' _ _ IH]; [ intros [] | | ];
      (intros [K|K]; [ discriminate K | exact (IH K) ]).
  - intros (n & Hf & G). specialize (G (ScMap [])).
    assert (K : forall rs os c s, Forall (fun q => (forall x v, scope_get (q_scope q) x = Some v -> wf v = true) /\
                   exists r ps, k_parts (q_key q) = PStr r :: ps) rs ->
       tidyc c -> (forall x, aget x (s_tpc s) = c x) -> fst (serve w n false rs s) = os -> ~ In NoFuel os ->
       exists c', handles w function c rs os c').
    { clear rs os Hq Hf G. induction rs as [|q rs IH]; intros os c s Hq Tc Hs E Hf.
      - subst os. exists c. apply ha_nil.
      - inversion Hq as [|? ? [Hv (r & ps & Hk)] Hq']; clear Hq; subst. cbn [serve] in *.
        pose proof (proj2 (all_told w (q_scope q) function name Ht Hc Hn Hv n) MdTop c (q_key q) r ps (q_opts q) Tc Hk
                      (invocation (q_scope q) false s)) as T.
        assert (A : at_ (q_scope q) MdTop c (invocation (q_scope q) false s)).
        { split; [ reflexivity | ]. split; [ reflexivity | ]. split; [ reflexivity | exact Hs ]. }
        specialize (T A). unfold run_lookup, bind, ret in *.
        destruct (run w n (RLookup (q_key q) (q_opts q)) (invocation (q_scope q) false s)) as [[[o b]|x| |] s1]; cbn [fst snd] in *.
        + destruct T as (c1 & (H1 & _ & T1) & (_ & _ & _ & A1)).
          destruct (serve w n false rs s1) as [os s2] eqn:Es. cbn [fst] in *.
          destruct (IH os c1 s1 Hq' T1 A1) as [c' H']; [ rewrite Es; reflexivity | intro I0; apply Hf; right; exact I0 | ].
          exists c'. eapply ha_answer; eassumption.
        + destruct T as (c1 & (H1 & T1) & A1).
          destruct (serve w n false rs s1) as [os s2] eqn:Es. cbn [fst] in *.
          destruct (IH os c1 s1 Hq' T1 A1) as [c' H']; [ rewrite Es; reflexivity | intro I0; apply Hf; right; exact I0 | ].
          exists c'. eapply ha_failure; eassumption.
        + contradiction.
        + exfalso. apply Hf. destruct (serve w n false rs s1) as [os s2]. left. reflexivity. }
    apply (K rs os _ (init_st (ScMap []) None) Hq); [ intro k; apply tidy_none | reflexivity | exact G | exact Hf ].
Qed.
Print Assumptions C81_exactly.

Example C81_exactly_ex : (forall opts r, neat (flt_function (ALookupKey opts r))) /\
  exists c, handles flt_w flt_function (fun _ => None) flt_rs flt_os c.
Proof.
  assert (N : forall opts r, neat (flt_function (ALookupKey opts r))).
  { intros opts r. cbn [flt_function]. destruct (String.eqb r "last"); [ intros o H; exact H | ].
    split; [ reflexivity | ]. intros o _. destruct (String.eqb r "bad"); [ exact I | ].
    destruct (String.eqb r "deep"); [ intros v E; injection E as <-; reflexivity | ].
    destruct (String.eqb r "odd"); cbn [neat]; [ intros _ _ v E; discriminate E | intros v E; discriminate E ]. }
  split; [ exact N | ].
  apply (C81_exactly flt_w "f" flt_function flt_rs flt_os eq_refl (fun _ _ => eq_refl) N).
  - repeat (constructor; [ split; [ intros x v E; discriminate E | eexists; eexists; reflexivity ] | ]). constructor.
  - exists 20. split; [ | intro sc; vm_compute; reflexivity ].
    intro H. repeat (destruct H as [H|H]; [ discriminate H | ]). destruct H.
Qed.
