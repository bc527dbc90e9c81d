(** C63 through whole sessions: entries with and without locations, functions of
    any kind, explained or not. *)

From Coq Require Import String Ascii List ZArith Bool Arith Lia.
From Verif Require Import SpecPlace PlaceFacts.
From Verif Require Import Str Value Outcome Key Merge Fpath Config Ipl Explain State Engine Session Worlds
  SpecKey SpecIpl SpecInterp SpecConfig SpecMerge SpecLookup SpecMux
  Meta Transparent KeyFacts ValueFacts MergeLookup StrFacts IplExact ResolveFacts SettledLookup ExLevels InterpFacts AnswerFacts MuxExact SchemaFacts P_Kinds P_MuxLookup RootFacts.
Import ListNotations.
Open Scope nat_scope.
Open Scope string_scope.
Open Scope list_scope.

(** An entry that has the data [m] at a location, whatever kind of function it
    has: one that gives the whole of it, one that gives the value of a key, or one
    that gives what is at a path. *)
Inductive carries (w : world) (e : entry) (loc : option location) (m : entries) : Prop :=
| ca_hash : forall n, e_function e = Some (mk_fdef KDataHash n) -> hash_is w e n loc m -> carries w e loc m
| ca_key : forall n f opts, e_function e = Some (mk_fdef KLookupKey n) -> n <> "environment" -> n <> "scope" ->
    function_is w e n (Some f) -> options_are e loc opts ->
    (forall t r, w_call w t f (ALookupKey opts r) = PRet (mgets r m)) -> carries w e loc m
| ca_dig : forall n f opts, e_function e = Some (mk_fdef KDataDig n) -> function_is w e n (Some f) -> options_are e loc opts ->
    (forall t r, w_dig w t f [PStr r] = Ok (mgets r m)) -> carries w e loc m.

(** The data of an entry: one piece when it has no locations, otherwise one for
    each location, which is missing where there is nothing. *)
Inductive holds (w : world) (e : entry) : list (option entries) -> Prop :=
| ho_plain : forall m, e_locations e = None -> carries w e None m -> holds w e [Some m]
| ho_locations : forall ls ms, e_locations e = Some ls ->
    Forall2 (fun l o => match o with
                        | None => ~ there l
                        | Some m => there l /\ carries w e (Some l) m
                        end) ls ms -> holds w e ms.

(** What a strategy makes of the data of an entry, and of a hierarchy. *)
Definition entry_value (s : strategy) (r : string) (ms : list (option entries)) : option value :=
  match ms with
  | [] => None
  | [m] => under r m
  | _ => pure_lookup s (map (under r) ms)
  end.
Definition data_value (s : strategy) (r : string) (mss : list (list (option entries))) : option value :=
  pure_lookup s (map (entry_value s r) mss).

(** Data with nothing to interpolate under a key. *)
Definition quiet_under (r : string) (mss : list (list (option entries))) : Prop :=
  forall ms m v, In ms mss -> In (Some m) ms -> mgets r m = Some v -> wf v = true /\ settled v.

Lemma carries_provides w sc (vi : value -> option value -> Prop) r e loc m : plain_key r -> carries w e loc m ->
  (forall v, mgets r m = Some v -> vi v (Some v)) -> provides w sc vi r e loc (mgets r m).
Proof.
  intros Hp H Hv. pose proof (plain_root r Hp) as Hr. destruct H as [n Hf Hh|n f opts Hf N1 N2 Hfn Ho Hc|n f opts Hf Hfn Ho Hc].
  - destruct (mgets r m) as [v|] eqn:E; [eapply pr_hash; eauto|eapply pr_hash_not; eauto].
  - eapply pr_key; eauto.
  - assert (D : provides w sc vi r e loc (option_map (wrapped []) (mgets r m))) by (eapply pr_dig; eauto).
    destruct (mgets r m); exact D.
Qed.

Lemma holds_gives w sc (vi : value -> option value -> Prop) r s e ms : plain_key r -> holds w e ms ->
  (forall m v, In (Some m) ms -> mgets r m = Some v -> vi v (Some v)) ->
  entry_gives w sc vi r s e (entry_value s r ms).
Proof.
  intros Hp H Hv. destruct H as [m El Hc|ls ms El Hf].
  - apply eg_plain; [exact El|]. cbn [entry_value under]. apply carries_provides; [exact Hp|exact Hc|].
    intros v E. exact (Hv m v (or_introl eq_refl) E).
  - assert (G : Forall2 (location_gives w sc vi r e) ls (map (under r) ms)).
    { clear El. induction Hf as [|l o ls ms H Hf IH]; [constructor|]. cbn [map]. constructor.
      - destruct o as [m|]; cbn [under]; [|apply lg_absent; exact H]. destruct H as [Hx Hc]. apply lg_there; [exact Hx|].
        apply carries_provides; [exact Hp|exact Hc|]. intros v E. exact (Hv m v (or_introl eq_refl) E).
      - apply IH. intros m v Hi E. exact (Hv m v (or_intror Hi) E). }
    destruct ms as [|o [|o2 ms]]; cbn [map] in G; inversion G as [|l x ls' xs G1 G2]; subst.
    + apply eg_empty. exact El.
    + inversion G2; subst. eapply eg_one; [exact El|exact G1].
    + inversion G2 as [|l2 x2 ls2 xs2 G3 G4]; subst. eapply eg_many; [exact El|].
      cbn [entry_value]. apply picks_pure. exact G.
Qed.

Lemma hierarchy_pure w sc (vi : value -> option value -> Prop) r s es mss : plain_key r -> Forall2 (holds w) es mss ->
  (forall v, quiet v -> vi v (Some v)) -> quiet_under r mss ->
  hierarchy_gives w sc vi r s es (data_value s r mss).
Proof.
  intros Hp Hf Hv Hq. apply picks_pure. induction Hf as [|e ms es mss H Hf IH]; [constructor|].
  cbn [map]. constructor.
  - apply holds_gives; [exact Hp|exact H|]. intros m v Hi E. apply Hv. exact (Hq ms m v (or_introl eq_refl) Hi E).
  - apply IH. intros ms' m v Hi Hm E. exact (Hq ms' m v (or_intror Hi) Hm E).
Qed.

(** The answer to a request, from the data [mss] of the hierarchy and what the
    other functions [pre] and [post] have: the lookup options are under
    lookup_options in the data, and so on, as in C72_settled_files. *)
Definition data_answer (w : world) (pre post : list lkfn) (mss : list (list (option entries))) (q : request) (o : option value) : Prop :=
  exists r ps before after mine lo mo s cv x,
    k_parts (q_key q) = PStr r :: ps /\ r <> "lookup_options" /\ plain_key r /\ quiet_under r mss /\
    Forall2 (source_has w (q_scope q) r) pre before /\ Forall2 (source_has w (q_scope q) r) post after /\
    options_for (data_value (SDeep []) "lookup_options" mss) r mine /\
    map_of (pure_lookup (SDeep []) (before ++ option_map VMap mine :: after)) lo /\
    merge_option (q_opts q) lo mo /\ strategy_is mo s /\ conversion_is lo cv /\
    converted w cv (pure_lookup s (before ++ data_value s r mss :: after)) x /\
    (forall v, x = Some v -> wf v = true /\ settled v) /\ digs ps x o.

Lemma data_mux_answer w od mt c pre post mss es q o :
  hierarchy_is w od mt (q_scope q) c es -> Forall2 (holds w) es mss -> quiet_under "lookup_options" mss ->
  data_answer w pre post mss q o -> mux_answer w od mt c (pre ++ LkConfig :: post) 1 q o.
Proof.
  intros Hh Hf Hqo (r & ps & before & after & mine & lo & mo & s & cv & x & Hk & Hr & Hp & Hq & Hpre & Hpost & Hmine & Hlo & Hmo & Hs & Hcv & Hx & Hxq & Hd).
  exists es. split; [exact Hh|]. exists (data_value (SDeep []) "lookup_options" mss).
  split. { apply hierarchy_pure; [exact options_key_plain|exact Hf|intros v; apply (quiet_answers w (q_scope q) es None 0)|exact Hqo]. }
  exists r, ps, x. split; [ exact Hk | ]. split; [ exact Hr | ]. split; [ exact Hp | ]. split.
  - exists (before ++ option_map VMap mine :: after), lo, mo, s, cv, (pure_lookup s (before ++ data_value s r mss :: after)).
    split.
    { apply Forall2_app; [ eapply Forall2_weaken; [ | exact Hpre ]; intros; apply of_source; assumption | ].
      constructor; [ apply of_config; exact Hmine | ].
      eapply Forall2_weaken; [ | exact Hpost ]; intros; apply of_source; assumption. }
    split; [ exact Hlo | ]. split; [ exact Hmo | ]. split; [ exact Hs | ]. split; [ exact Hcv | ]. split; [ | exact Hx ].
    apply picks_pure. apply Forall2_app; [ eapply Forall2_weaken; [ | exact Hpre ]; intros; apply vf_source; assumption | ].
    constructor; [ apply vf_config | eapply Forall2_weaken; [ | exact Hpost ]; intros; apply vf_source; assumption ].
    apply hierarchy_pure; [ exact Hp | exact Hf | intros v; apply (quiet_mux_answers w (q_scope q) es _ _ 0) | exact Hq ].
  - destruct x as [x|]; [ | inversion Hd; reflexivity ]. exists (Some x). split; [ | exact Hd ].
    apply quiet_mux_answers. exact (Hxq x eq_refl).
Qed.

(** The two worlds have the same functions besides the configuration and the same
    types. *)
Definition same_outside (w w' : world) (fs : list lkfn) : Prop :=
  (forall sc r f o, In f fs -> source_has w sc r f o -> source_has w' sc r f o) /\
  (forall cv v x, converted w cv v x -> converted w' cv v x).

Lemma same_answer w w' pre post mss q o : same_outside w w' (pre ++ post) ->
  data_answer w pre post mss q o -> data_answer w' pre post mss q o.
Proof.
  intros [Hs Hc] (r & ps & before & after & mine & lo & mo & s & cv & x & Hk & Hr & Hp & Hq & Hpre & Hpost & Hmine & Hlo & Hmo & Hst & Hcv & Hx & Hxq & Hd).
  exists r, ps, before, after, mine, lo, mo, s, cv, x.
  assert (G : forall fs outs, (forall f, In f fs -> In f (pre ++ post)) ->
              Forall2 (source_has w (q_scope q) r) fs outs -> Forall2 (source_has w' (q_scope q) r) fs outs).
  { intros fs outs Hi H. induction H as [|f v fs outs H1 H IH]; [constructor|]. constructor.
    - apply Hs; [apply Hi; left; reflexivity|exact H1].
    - apply IH. intros g Hg. apply Hi. right. exact Hg. }
  repeat match goal with |- _ /\ _ => split; [first [assumption | apply G; [intros; apply in_or_app; auto|assumption] | apply Hc; assumption]|] end.
  exact Hd.
Qed.

(** ** C63, through whole sessions, in part

    Two sessions whose hierarchies have the same data, but in entries of any
    kinds: with one data_hash, lookup_key or data_dig function in place of
    another, from a file, a plugin or the session.  Any number of lookups, in any
    scopes, explained or not, gives the same in both.  Full statement: C63_full;
    missing are values with expressions, for which it is false. *)
Theorem C63_sessions_partial : forall w w' on_disk on_disk' matching matching' c c' pre post mss N rs os,
  steady_mux w on_disk matching c (pre ++ LkConfig :: post) ->
  steady_mux w' on_disk' matching' c' (pre ++ LkConfig :: post) ->
  same_outside w w' (pre ++ post) ->
  (forall q, In q rs -> exists es, hierarchy_is w on_disk matching (q_scope q) c es /\ Forall2 (holds w) es mss) ->
  (forall q, In q rs -> exists es, hierarchy_is w' on_disk' matching' (q_scope q) c' es /\ Forall2 (holds w') es mss) ->
  quiet_under "lookup_options" mss ->
  Forall2 (data_answer w pre post mss) rs os ->
  (forall sc, fst (serve w (6 + N) false rs (init_st sc None)) = map Ok os /\
              fst (serve w' (6 + N) false rs (init_st sc None)) = map Ok os) /\
  (forall sc options only,
     fst (serve w (6 + N) true rs (init_st sc (Some (new_explainer options only)))) = map Ok os /\
     fst (serve w' (6 + N) true rs (init_st sc (Some (new_explainer options only)))) = map Ok os).
Proof.
  intros w w' od od' mt mt' c c' pre post mss N rs os Hw Hw' Hsame Hh Hh' Hqo H.
  assert (G : forall v od mt c, (forall q, In q rs -> exists es, hierarchy_is v od mt (q_scope q) c es /\ Forall2 (holds v) es mss) ->
              Forall2 (data_answer v pre post mss) rs os -> Forall2 (mux_answer v od mt c (pre ++ LkConfig :: post) 1) rs os).
  { clear - Hqo. intros v od mt c Hh H. induction H as [|q o rs os H1 H IH]; [constructor|]. constructor.
    - destruct (Hh q (or_introl eq_refl)) as (es & A & B). exact (data_mux_answer v od mt c pre post mss es q o A B Hqo H1).
    - apply IH. intros q' Hi. apply Hh. right. exact Hi. }
  assert (H' : Forall2 (data_answer w' pre post mss) rs os).
  { eapply Forall2_weaken; [|exact H]. intros q o. apply same_answer. exact Hsame. }
  destruct (C72_every_lookup_in_a_session w od mt c _ 1 (2 + N) rs os Hw ltac:(lia) (G _ _ _ _ Hh H)) as [A B].
  destruct (C72_every_lookup_in_a_session w' od' mt' c' _ 1 (2 + N) rs os Hw' ltac:(lia) (G _ _ _ _ Hh' H')) as [A' B'].
  split; [intro sc; split; [exact (A sc)|exact (A' sc)]|].
  intros sc options only. split; [exact (B sc options only)|exact (B' sc options only)].
Qed.
Print Assumptions C63_sessions_partial.

(** The same data from a data_hash function and from a data_dig function, above
    the same file, whose lookup options ask for a merge of one key. *)
Definition sess_m : entries := [(VStr "k", VArr [VInt 1; VInt 2]); (VStr "a", vmap [("b", VInt 7)])].
Definition sess_common : entries :=
  [(VStr "k", VArr [VInt 2; VInt 3]); (VStr "a", vmap [("b", VInt 8)]);
   (VStr "lookup_options", vmap [("k", vmap [("merge", VStr "unique")])])].
Definition sess_w (kind : string) : world :=
  with_env [] (with_top LkMux (Some [LkConfig; LkEnv]) (kinds_w sess_m sess_common kind)).
Definition sess_disk : string -> bool :=
  fun p => match aget p [("/h/data/common.yaml", VMap sess_common)] with Some _ => true | None => false end.
Definition fn_in (kind : fkind) : entry := mk_entry "" "" "" None (Some (mk_fdef kind "fn")) "fn" None.
Definition fn_out (kind : fkind) : entry := mk_entry "data" "/h/plugin" "" (Some []) (Some (mk_fdef kind "fn")) "fn" None.
Definition sess_in (kind : fkind) : config := mk_config "/h" "/h/hiera.yaml" defaults_in [fn_in kind; level_in "common"] [].

Lemma sess_steady kind fk : config_new [] "/h/hiera.yaml" (CfYaml (kinds_config kind)) = Ok (sess_in fk) ->
  steady_mux (sess_w kind) sess_disk (fun _ => []) (sess_in fk) ([] ++ LkConfig :: [LkEnv]).
Proof.
  intro H. constructor; try reflexivity.
  - exists [], [LkEnv]. split; [ reflexivity | ]. split; [ intros [] | ]. intros [E|[]]. discriminate E.
  - exists (CfYaml (kinds_config kind)). split; [ reflexivity | exact H ].
Qed.

Lemma sess_resolved w sc fk : hierarchy_is w sess_disk (fun _ => []) sc (sess_in fk) [fn_out fk; level_out sess_disk "common"].
Proof.
  exists defaults_out, []. split; [|split; [|constructor]].
  - constructor; try reflexivity; cbn.
    + exists (mk_fdef KDataHash "yaml_data"). split; [ reflexivity | ]. split; [ now apply contains_not | ].
      split; [ | reflexivity ]. apply expands_plain. now apply contains_not.
    + apply dir_own; [ discriminate | ]. apply expands_plain. now apply contains_not.
    + exists "plugin". split; [ | reflexivity ]. apply dir_own; [ discriminate | ]. apply expands_plain. now apply contains_not.
  - constructor; [|apply (level_resolved w sess_disk (fun _ => []) sc (w_env w) ["common"] eq_refl)].
    constructor; try reflexivity; cbn.
    + exists (mk_fdef fk "fn"). split; [ reflexivity | ]. split; [ now apply contains_not | ].
      split; [ | reflexivity ]. apply expands_plain. now apply contains_not.
    + apply dir_inherited.
    + exists "/h/plugin". split; [ apply dir_inherited | reflexivity ].
Qed.

Lemma sess_file kind : holds (sess_w kind) (level_out sess_disk "common") [Some sess_common].
Proof.
  eapply ho_locations; [reflexivity|]. constructor; [|constructor]. split; [reflexivity|].
  eapply ca_hash; [reflexivity|]. eapply hi_yaml; [reflexivity|apply oa_location; reflexivity|reflexivity|].
  intro t. constructor.
Qed.

(** Nothing in the data is to be interpolated. *)
Lemma sess_quiet r : quiet_under r [[Some sess_m]; [Some sess_common]].
Proof.
  intros ms m v Hi Hm E.
  assert (G : Forall (fun e => wf (snd e) = true /\ settled (snd e)) m).
  { destruct Hi as [<-|[<-|[]]]; destruct Hm as [[= <-]|[]];
      repeat (constructor; [split; [reflexivity|apply settled_by; reflexivity]|]); constructor. }
  rewrite Forall_forall in G. exact (G _ (mgets_in r m v E)).
Qed.

Lemma sess_plain x : (wf x && plain x)%bool = true -> forall v, Some x = Some v -> wf v = true /\ settled v.
Proof. intros H v [= <-]. apply andb_true_iff in H as [H1 H2]. split; [exact H1|apply settled_by; exact H2]. Qed.

Example C63_sessions_ex :
  let rs := [mk_request (ScMap []) (mk_key "k" [PStr "k"]) None;
             mk_request (ScMap []) (mk_key "a.b" [PStr "a"; PStr "b"]) None;
             mk_request (ScMap []) (mk_key "k" [PStr "k"]) (Some [(VStr "merge", VStr "first")])] in
  let os := [Some (VArr [VInt 1; VInt 2; VInt 3]); Some (VInt 7); Some (VArr [VInt 1; VInt 2])] in
  forall sc, fst (serve (sess_w "data_hash") 6 false rs (init_st sc None)) = map Ok os /\
             fst (serve (sess_w "data_dig") 6 false rs (init_st sc None)) = map Ok os.
Proof.
  intros rs os.
  refine (proj1 (C63_sessions_partial (sess_w "data_hash") (sess_w "data_dig") sess_disk sess_disk (fun _ => []) (fun _ => [])
            (sess_in KDataHash) (sess_in KDataDig) [] [LkEnv] [[Some sess_m]; [Some sess_common]] 0 rs os _ _ _ _ _ _ _)).
  - apply sess_steady. reflexivity.
  - apply sess_steady. reflexivity.
  - split.
    + intros sc r f o [<-|[]] H. inversion H; subst. exact (sh_environment (sess_w "data_dig") sc r).
    + intros cv v x H. inversion H; subst; econstructor; eauto.
  - intros q _. eexists. split; [apply sess_resolved|]. constructor; [|constructor; [apply sess_file|constructor]].
    apply ho_plain; [reflexivity|]. eapply ca_hash; [reflexivity|].
    apply (hi_function (sess_w "data_hash") (fn_out KDataHash) "fn" None [] (FnSession "fn") (Some (VMap sess_m)));
      [discriminate|discriminate|apply fi_session; reflexivity|constructor|reflexivity].
  - intros q _. eexists. split; [apply sess_resolved|]. constructor; [|constructor; [apply sess_file|constructor]].
    apply ho_plain; [reflexivity|]. eapply ca_dig; [reflexivity|apply fi_session; reflexivity|constructor|].
    intros t r. cbn -[mgets]. destruct (mgets r sess_m); reflexivity.
  - apply sess_quiet.
  - constructor; [|constructor; [|constructor; [|constructor]]]; cbn [q_scope q_key q_opts].
    + exists "k", [], [], [None], (Some [(VStr "merge", VStr "unique")]), (Some [(VStr "merge", VStr "unique")]),
        (Some (VStr "unique")), SUnique, None, (Some (VArr [VInt 1; VInt 2; VInt 3])).
      repeat match goal with |- _ /\ _ => split end; try reflexivity; try discriminate.
      * apply plain_key_by. reflexivity.
      * apply sess_quiet.
      * constructor.
      * constructor; [exact (sh_environment (sess_w "data_hash") (ScMap []) "k")|constructor].
      * eapply of_map; [vm_compute; reflexivity|reflexivity].
      * vm_compute. constructor.
      * eapply mo_option; [discriminate|reflexivity|reflexivity].
      * apply si_name. constructor.
      * apply ci_none. intros l [= <-]. left. reflexivity.
      * match goal with |- converted _ _ ?v _ => change v with (Some (VArr [VInt 1; VInt 2; VInt 3])) end. constructor.
      * apply sess_plain. reflexivity.
      * match goal with |- digs ?ps ?v _ => exact (digs_by ps v) end.
    + exists "a", [PStr "b"], [], [None], None, None, None, SFirst, None, (Some (vmap [("b", VInt 7)])).
      repeat match goal with |- _ /\ _ => split end; try reflexivity; try discriminate.
      * apply plain_key_by. reflexivity.
      * apply sess_quiet.
      * constructor.
      * constructor; [exact (sh_environment (sess_w "data_hash") (ScMap []) "a")|constructor].
      * eapply of_other; [vm_compute; reflexivity|]. intros o E. vm_compute in E. discriminate.
      * vm_compute. constructor. discriminate.
      * apply mo_none; discriminate.
      * constructor.
      * apply ci_none. discriminate.
      * match goal with |- converted _ _ ?v _ => change v with (Some (vmap [("b", VInt 7)])) end. constructor.
      * apply sess_plain. reflexivity.
      * match goal with |- digs ?ps ?v _ => exact (digs_by ps v) end.
    + exists "k", [], [], [None], (Some [(VStr "merge", VStr "unique")]), (Some [(VStr "merge", VStr "unique")]),
        (Some (VStr "first")), SFirst, None, (Some (VArr [VInt 1; VInt 2])).
      repeat match goal with |- _ /\ _ => split end; try reflexivity; try discriminate.
      * apply plain_key_by. reflexivity.
      * apply sess_quiet.
      * constructor.
      * constructor; [exact (sh_environment (sess_w "data_hash") (ScMap []) "k")|constructor].
      * eapply of_map; [vm_compute; reflexivity|reflexivity].
      * vm_compute. constructor.
      * eapply mo_explicit; reflexivity.
      * apply si_name. constructor.
      * apply ci_none. intros l [= <-]. left. reflexivity.
      * match goal with |- converted _ _ ?v _ => change v with (Some (VArr [VInt 1; VInt 2])) end. constructor.
      * apply sess_plain. reflexivity.
      * match goal with |- digs ?ps ?v _ => exact (digs_by ps v) end.
Qed.
