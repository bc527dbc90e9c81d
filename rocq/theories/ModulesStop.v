(** A lookup with several functions, one of which fails when it is asked for
    lookup options. *)

From Coq Require Import String Ascii List ZArith Bool Arith Lia.
From Verif Require Import Str Value Outcome Key Merge Fpath Config Ipl Explain State Engine Meta Fuel Session
  SpecKey SpecIpl SpecInterp SpecConfig SpecMerge SpecPath SpecLookup SpecFail SpecMux SpecTop SpecModules
  KeyFacts ValueFacts MergeFacts MergeLookup StrFacts IplFacts InterpFacts IplExact ResolveFacts LookupExact
  HierarchyExact LookupTop RootFacts PathFacts FailExact P_Mux MuxExact P_Modules ModulesExact.
Import ListNotations.
Open Scope nat_scope.
Open Scope string_scope.
Open Scope list_scope.

Section Stop.
  Variables (w : world) (rd : string -> dir_list) (ls : string -> lstat).
  Variables (on_disk : string -> bool) (matching : string -> list string).
  Hypothesis Hdirs : settled_dirs w rd ls.
  Hypothesis Hstat : forall t p, w_stat w t p = on_disk p.
  Hypothesis Hglob : forall t p, w_glob w t p = matching p.
  Variables (sc : scope) (n0 : nat) (sites : string -> option site).
  Hypothesis Hsites : forall path si, sites path = Some si -> site_is w on_disk matching sc n0 path si.
  Variable locked : string -> Prop.
  Hypothesis Hbroken : forall path, locked path -> exists x, broken w path x.

  (** How a lookup ends that was stopped: with an error, or never when the broken
      file is not the one that was broken first. *)
  Definition stop_end {A} (file : option string) (x : err) (o : outcome A) (s : st) : Prop :=
    match file with
    | None => o = Panic x /\ kept_over w rd ls locked s
    | Some path =>
        (locked path /\ o = Hang /\ kept_over w rd ls locked s) \/
        (~ locked path /\ o = Panic x /\ kept_over w rd ls (fun p => p = path \/ locked p) s)
    end.
  Definition ends {A} (P : st -> Prop) (file : option string) (x : err) (m : M st A) : Prop :=
    forall s, P s -> exists o s', m s = (o, s') /\ stop_end file x o s'.

  Lemma stop_end_bind {A B} file x (m : M st A) (f : A -> M st B) o s s' : m s = (o, s') -> stop_end file x o s' ->
    exists o' s2, bind m f s = (o', s2) /\ stop_end file x o' s2.
  Proof.
    intros E H. unfold bind. rewrite E. destruct file as [path|].
    - destruct H as [(H1 & -> & H2)|(H1 & -> & H2)]; [ exists Hang, s' | exists (Panic x), s' ]; (split; [ reflexivity | ]);
        [ left | right ]; auto.
    - destruct H as [-> H]. exists (Panic x), s'. split; [ reflexivity | split; [ reflexivity | exact H ] ].
  Qed.

  Lemma kept_with_iv L i s : kept_over w rd ls L s -> kept_over w rd ls L (with_iv i s).
  Proof. intros []; constructor; assumption. Qed.

  Lemma stop_end_iv {A} file x (o : outcome A) i s : stop_end file x o s -> stop_end file x o (with_iv i s).
  Proof.
    destruct file as [path|]; cbn [stop_end].
    - intros [(H1 & H2 & H3)|(H1 & H2 & H3)]; [ left | right ]; (split; [ exact H1 | split; [ exact H2 | now apply kept_with_iv ] ]).
    - intros [H1 H2]. split; [ exact H1 | now apply kept_with_iv ].
  Qed.

  Lemma ends_now {A B} P file x (m : M st A) (f : A -> M st B) : ends P file x m -> ends P file x (bind m f).
  Proof. intros H s Hs. destruct (H s Hs) as (o & s' & E & K). exact (stop_end_bind file x m f o s s' E K). Qed.

  Lemma ends_after {A B} P file x (m : M st A) (f : A -> M st B) a : yields P m a -> ends P file x (f a) -> ends P file x (bind m f).
  Proof. intros Hm H s Hs. destruct (Hm s Hs) as (s1 & E & H1). unfold bind. rewrite E. exact (H s1 H1). Qed.

  Lemma ends_node {A} (P : st -> Prop) file x k i (m : M st A) : (forall s, P s -> off s) -> ends P file x m -> ends P file x (run_scoped (SNode k i) m).
  Proof. intros Ho H s Hs. rewrite node_off by exact (Ho s Hs). exact (H s Hs). Qed.

  (** ** A broken configuration *)

  Lemma config_stops rec i R path module x : broken w path x -> (path <> "" \/ path = w_cfgpath w) ->
    ends (steady w rd ls sites locked i R) (Some path) x (get_config w rec path module).
  Proof.
    intros (file & Hf & Hc) Hp s (E & [K1 K2 K3] & (qs & _ & _ & _ & Hq) & _). unfold get_config.
    replace (if String.eqb path "" then w_cfgpath w else path) with path
      by (destruct (String.eqb_spec path ""); [ destruct Hp; congruence | reflexivity ]).
    unfold bind at 1, run_op at 1. destruct (aget path (s_configs s)) as [rc|] eqn:Ec.
    { exfalso. destruct (Hq path rc Ec) as [_ (si & Hsi & _)]. destruct (Hsites path si Hsi) as (file' & c & Hf' & Hc' & _).
      specialize (Hf []). specialize (Hf' []). congruence. }
    unfold shared_config. unfold bind at 1. unfold bind at 1, run_op at 1.
    pose proof (K1 path) as Kp. destruct (aget path (s_shared s)) as [[c'|]|] eqn:Es.
    - exfalso. destruct Kp as (file' & Hf' & Hc'). specialize (Hf []). specialize (Hf' []). congruence.
    - exists Hang, s. split; [ reflexivity | ]. left. split; [ exact Kp | ]. split; [ reflexivity | constructor; assumption ].
    - unfold load_config, ask, bind, run_op, lift, ret. rewrite Hf, Hc. exists (Panic x). eexists. split; [ reflexivity | ].
      right. split; [ exact Kp | ]. split; [ reflexivity | ]. constructor; [ | exact K2 | exact K3 ].
      cbn [with_shared with_trace s_shared]. intro q. rewrite aget_put. pose proof (K1 q) as Kq.
      destruct (String.eqb_spec q path) as [->|Hne]; [ left; reflexivity | ].
      destruct (aget q (s_shared s)) as [[c'|]|]; [ exact Kq | right; exact Kq | intros [H|H]; auto ].
  Qed.

  (** ** The module path *)

  Lemma load_module_fails pre p x s : directory_fails rd ls pre p x ->
    exists s', load_module w p pre s = (Panic x, s') /\ searched s s'.
  Proof.
    destruct Hdirs as [HR HL]. intro H. unfold load_module. unfold bind at 1.
    destruct (ask_run _ (EvReadDir p) (fun t => w_readdir w t p) s I) as (s1 & -> & S1). rewrite HR.
    destruct H as [E|l d E F G]; rewrite E.
    - exists s1. split; [ reflexivity | exact S1 ].
    - apply find_module_first in F. rewrite F. unfold bind.
      destruct (ask_run _ (EvLstat (join2 (join2 p d) "hiera.yaml")) (fun t => w_lstat w t (join2 (join2 p d) "hiera.yaml")) s1 I) as (s2 & -> & S2).
      rewrite HL, G. exists s2. split; [ reflexivity | ]. exact (searched_trans _ _ _ S1 S2).
  Qed.

  Lemma load_from_fails pre ps x : path_fails rd ls pre ps x -> forall s,
    exists s', load_from w ps pre s = (Panic x, s') /\ searched s s'.
  Proof.
    induction 1 as [p l x H|p l x H _ IH]; intro s; cbn [load_from]; unfold bind.
    - destruct (load_module_fails pre p x s H) as (s1 & -> & S1). exists s1. split; [ reflexivity | exact S1 ].
    - destruct (load_module_spec w rd ls pre p None s Hdirs H) as (s1 & -> & S1).
      destruct (IH s1) as (s2 & E & S2). exists s2. split; [ exact E | exact (searched_trans _ _ _ S1 S2) ].
  Qed.

  Lemma directory_fails_not pre p x c : directory_fails rd ls pre p x -> ~ in_directory rd ls pre p c.
  Proof.
    intros H G. assert (W : settled_dirs w rd ls) by exact Hdirs.
    destruct (load_module_fails pre p x (init_st (ScMap []) None) H) as (s1 & E1 & _).
    destruct (load_module_spec w rd ls pre p c (init_st (ScMap []) None) W G) as (s2 & E2 & _). congruence.
  Qed.

  Lemma path_fails_not pre ps x c : path_fails rd ls pre ps x -> ~ in_path rd ls pre ps c.
  Proof.
    intros H G.
    destruct (load_from_fails pre ps x H (init_st (ScMap []) None)) as (s1 & E1 & _).
    destruct (load_from_spec w rd ls pre ps c Hdirs G (init_st (ScMap []) None)) as (s2 & E2 & _). congruence.
  Qed.

  Lemma path_fails_same a b ps x : same_name a b -> path_fails rd ls a ps x -> path_fails rd ls b ps x.
  Proof.
    intros Hs H. induction H as [p l x H|p l x H _ IH].
    - apply px_here. destruct H as [E|l' d E (y & z & -> & S1 & Nn) G]; [ now apply dx_directory | ].
      eapply dx_file; [ exact E | | exact G ]. exists y, z. repeat split; [ apply (same_name_through a b _ Hs); exact S1 | ].
      intros u Hu Su. apply (Nn u Hu). apply (same_name_through a b _ Hs). exact Su.
    - apply px_next; [ | exact IH ].
      assert (Q : in_path rd ls b [p] None).
      { apply (in_path_same rd ls a b [p] None Hs). apply ip_next; [ exact H | constructor ]. }
      inversion Q; subst. assumption.
  Qed.

  Lemma module_stops i R pre x : path_fails rd ls pre (module_dirs w) x ->
    ends (steady w rd ls sites locked i R) None x (module_config w (to_lower pre)).
  Proof.
    intros H s (E & [K1 K2 K3] & _).
    assert (Hp : path_fails rd ls (to_lower pre) (module_dirs w) x).
    { apply (path_fails_same pre); [ apply same_name_lower; rewrite to_lower_twice; reflexivity | exact H ]. }
    unfold module_config. unfold bind at 1, run_op at 1. destruct (aget (to_lower pre) (s_mods s)) as [d|] eqn:Em.
    { destruct (path_fails_not _ _ _ _ Hp (K2 _ _ Em)). }
    unfold module_dirs in Hp. destruct (w_modpath w) as [mp|]; [ | inversion Hp ].
    destruct (load_from_fails _ _ _ Hp s) as (s1 & E1 & (l & _ & ->)). unfold bind. rewrite E1.
    exists (Panic x). eexists. split; [ reflexivity | ]. split; [ reflexivity | constructor; assumption ].
  Qed.

  (** ** Functions *)

  Lemma steady_refuses A i R (m : M st A) x : iv_expl i = false -> iv_scope i = sc -> refuses sc m x ->
    ends (steady w rd ls sites locked i R) None x m.
  Proof.
    intros Hi Hsc H s (E & [K1 K2 K3] & _). destruct (H s) as (s' & E' & (l & ->)).
    - rewrite E. exact Hsc.
    - unfold off. rewrite E. exact Hi.
    - exists (Panic x). eexists. split; [ exact E' | ]. split; [ reflexivity | constructor; assumption ].
  Qed.

  Lemma function_stops rec i R args r f file x : iv_expl i = false -> iv_scope i = sc ->
    stops w rd ls args r f file x -> ends (steady w rd ls sites locked i R) file x (call_lk w rec f args r).
  Proof.
    intros Hi Hsc [y H|g y H|pre y Hn H|y H|pre file' y Hn Hp H]; cbn [call_lk].
    - intros s S. pose proof S as (E & K & _). unfold yaml_lookup. unfold bind at 1, run_op at 1.
      destruct (aget "yaml::data" (s_tpc s)) as [d|] eqn:Ed.
      + exfalso. destruct (ko_yaml _ _ _ _ _ K d Ed) as (m & _ & Hm). specialize (H []). specialize (Hm []).
        unfold yaml_path in *. destruct H as [e|v Hv]; inversion Hm; subst. eapply Hv. reflexivity.
      + apply (ends_now (steady w rd ls sites locked i R)); [ | exact S ].
        apply ends_now. apply steady_refuses; [ exact Hi | exact Hsc | ].
        apply (refuses_file w false _ (nil_to_null (w_yamlpath w))); [ reflexivity | exact H ].
    - apply steady_refuses; [ exact Hi | exact Hsc | ]. unfold call_fn.
      eapply refuses_after; [ apply gives_ask; exact H | ]. apply refuses_panic.
    - rewrite (module_lookup_inside w rec args r pre Hn). apply ends_now. now apply module_stops.
    - unfold config_lookup_at. apply ends_now. apply config_stops; [ exact H | now right ].
    - rewrite (module_lookup_inside w rec args r pre Hn). eapply ends_after with (a := Some file').
      + intros s S. exact (module_steady w rd ls Hdirs sites locked i R pre (Some file') s S Hp).
      + apply ends_node; [ intros s S; exact (steady_off w rd ls sites locked i R s Hi S) | ].
        unfold config_lookup_at. apply ends_now. apply config_stops; [ exact H | left; exact (in_path_file rd ls _ _ _ Hp) ].
  Qed.

  (** ** All functions *)

  Lemma loop_stops P file x (g : lkfn -> M st (option value)) s pre f post outs :
    Forall2 (fun y o => yields P (g y) o) pre outs -> ends P file x (g f) ->
    forall memo, ends P file x (merge_loop g s memo (pre ++ f :: post)).
  Proof.
    intros Hp Hx. induction Hp as [|y o l outs Hy _ IH]; intro memo; cbn [app merge_loop].
    - apply ends_now. exact Hx.
    - eapply ends_after; [ exact Hy | ]. destruct o; [ destruct memo | ]; apply IH.
  Qed.

  Lemma merging_stops (P : st -> Prop) file x (g : lkfn -> M st (option value)) d pre f post outs : (forall s, P s -> off s) ->
    Forall2 (fun y o => yields P (g y) o) pre outs -> ends P file x (g f) ->
    ends P file x (merging (SDeep d) (pre ++ f :: post) g).
  Proof.
    intros Poff Hp Hx. unfold merging, merge_lookup.
    assert (B : ends P file x (with_merge (SDeep d) (bind (merge_loop g (SDeep d) None (pre ++ f :: post)) (report_some report_result)))).
    { apply ends_node; [ exact Poff | ]. apply ends_now. eapply loop_stops; eassumption. }
    destruct pre as [|a [|b pre]]; [ destruct post as [|q post]; [ apply ends_now; exact Hx | exact B ] | exact B | exact B ].
  Qed.

  Variable fs : list lkfn.
  Hypothesis Hmux : w_mux w = Some fs.
  Hypothesis Htop : w_top w = LkMux.

  Lemma lookup_stops N k opts file x s : n0 <= S (S N) -> steady w rd ls sites locked (new_iv sc false) [] s ->
    stopped w rd ls sc sites fs k opts file x ->
    exists o s', lookup w (run w (S (S (S N)))) k opts s = (o, s') /\ stop_end file x o s'.
  Proof.
    intros HN S0 (r & ps & pre & f & post & outs & Ek & Hr & Hp & Hfs & Ho & Hst).
    set (args := match opts with Some o => o | None => [] end) in *.
    set (i0 := new_iv sc false) in *.
    assert (Y : forall j, iv_expl j = false -> iv_scope j = sc -> iv_mode j = MdLookup ->
      ends (steady w rd ls sites locked j []) file x
        (merging (SDeep []) fs (fun f => call_lk w (run w (S (S N))) f args r))).
    { intros j Xj Sj Mj. rewrite Hfs. apply (merging_stops _ file x _ [] pre f post outs).
      - intros s1 Hs1. exact (steady_off w rd ls sites locked j [] s1 Xj Hs1).
      - clear - Ho Xj Sj Mj HN Hp Hsites Hstat Hglob Hdirs Hbroken. induction Ho as [|y o l outs Hy _ IH]; constructor; [ | exact IH ].
        exact (option_steady w rd ls on_disk matching Hdirs Hstat Hglob sc n0 sites Hsites locked Hbroken N j [] args r y o HN Xj Sj Mj Hp Hy).
      - apply function_stops; assumption. }
    assert (X : exists o s', mux_lookup w (run w (S (S N))) args r s = (o, s') /\ stop_end file x o s').
    { unfold mux_lookup. rewrite Hmux.
      assert (Q : exists o s', run_scoped SLookup (merging (SDeep []) fs (fun f => call_lk w (run w (S (S N))) f args r)) s = (o, s') /\
                  stop_end file x o s').
      { unfold run_scoped. rewrite (proj1 S0). cbn [i0 new_iv iv_mode]. unfold with_copy. rewrite (proj1 S0).
        match goal with |- context [with_iv ?j s] =>
          destruct (Y j eq_refl eq_refl eq_refl (with_iv j s) (steady_with_iv _ _ _ _ _ _ _ _ _ S0)) as (o & s1 & E1 & H1) end.
        rewrite E1. eexists. eexists. split; [ reflexivity | ]. apply stop_end_iv. exact H1. }
      destruct Q as (o & s1 & E1 & H1). exact (stop_end_bind file x _ _ o s s1 E1 H1). }
    destruct X as (o & s1 & E1 & H1).
    unfold lookup. unfold bind at 1, lift at 1, root at 1. rewrite Ek.
    apply String.eqb_neq in Hr. rewrite Hr. rewrite Htop. cbn [call_lk]. fold args.
    change (run w (S (S (S N))) (RMux args r)) with (bind (mux_lookup w (run w (S (S N))) args r) (fun v => ret (v, true))).
    destruct (stop_end_bind file x _ (fun v => ret (v, true)) o s s1 E1 H1) as (o2 & s2 & E2 & H2).
    destruct (stop_end_bind file x _ (fun r => ret (fst r)) o2 s s2 E2 H2) as (o3 & s3 & E3 & H3).
    exact (stop_end_bind file x _ _ o3 s s3 E3 H3).
  Qed.
End Stop.
