(** Whether it matters which kind of function the data comes from: C63. *)

From Coq Require Import String List ZArith Bool Arith Lia.
From Verif Require Import Str Value Outcome Key Merge Fpath Config Ipl Explain State Engine Worlds Meta Kept ValueFacts Session.
From Verif Require Import SpecKey SpecIpl InterpFacts IplExact P_Provider P_Key.
Import ListNotations.
Open Scope string_scope.
Open Scope list_scope.
Open Scope bool_scope.
Open Scope monad_scope.

(** ** The full statement *)

(** A hierarchy with a function of the given kind above a file. *)
Definition kinds_config (kind : string) : value :=
  vmap [("version", VInt 5);
        ("hierarchy", VArr [vmap [("name", VStr "fn"); (kind, VStr "fn")];
                            vmap [("name", VStr "common"); ("path", VStr "common.yaml")]])].

(** The value at the end of a path of keys. *)
Fixpoint at_end (v : value) (ps : list part) : option value :=
  match ps with
  | [] => Some v
  | PStr k :: r => match v with VMap m => match mgets k m with Some x => at_end x r | None => None end | _ => None end
  | PInt _ :: _ => None
  end.

(** The three kinds of functions for the same data: the whole of it, the value
    of a key, or the value at a path. *)
Definition kinds_w (m common : entries) (kind : string) : world :=
  let w := with_funs [("fn", fun a => match a with
                                      | ADataHash _ => PRet (Some (VMap m))
                                      | ALookupKey _ k => PRet (mgets k m)
                                      end)]
             (file_world [("/h/hiera.yaml", kinds_config kind)] [("/h/data/common.yaml", VMap common)]) in
  mk_world (w_stat w) (w_glob w) (w_config w) (w_yaml w) (w_json w) (w_readdir w) (w_lstat w) (w_fun w)
           (w_plugin w) (w_call w) (fun _ _ ps => Ok (at_end (VMap m) ps))
           (w_env w) (w_cwd w) (w_show w) (w_parse_type w) (w_new w)
           (w_top w) (w_cfgpath w) (w_mux w) (w_modpath w) (w_yamlpath w).

(** The full statement: the kind of the function makes no difference. *)
Definition C63_full : Prop := forall m common sc key k1 k2 n o1 o2,
  In k1 ["data_hash"; "lookup_key"; "data_dig"] -> In k2 ["data_hash"; "lookup_key"; "data_dig"] ->
  look (kinds_w m common k1) n sc key None = o1 -> look (kinds_w m common k2) n sc key None = o2 ->
  o1 <> NoFuel -> o2 <> NoFuel -> o1 = o2.

(** It does for values that look up other keys: the values of data_hash
    functions are interpolated while the merge strategy of the lookup is known,
    /repo/internal/datahashprovider.go:33, those of the other functions after
    the lookup, /repo/session/invocation.go:255-258, where there is no strategy
    and looking up another key ends in a nil dereference.  And values of
    data_hash functions are interpolated twice. *)
Definition kinds_common : entries := [(VStr "x", VStr "xx"); (VStr "a", vmap [("b", VInt 7)])].

Theorem C63_nested_refuted : exists m sc key,
  look (kinds_w m kinds_common "data_hash") 20 sc key None = Ok (Some (VStr "xx")) /\
  look (kinds_w m kinds_common "lookup_key") 20 sc key None = Panic nil_deref /\
  look (kinds_w m kinds_common "data_dig") 20 sc key None = Panic nil_deref.
Proof.
  exists [(VStr "k", VStr "%{lookup('x')}")], [], "k". vm_compute. auto.
Qed.
Print Assumptions C63_nested_refuted.

Theorem C63_twice_refuted : exists m sc key,
  look (kinds_w m kinds_common "data_hash") 20 sc key None = Ok (Some (VStr "a vv")) /\
  look (kinds_w m kinds_common "lookup_key") 20 sc key None = Ok (Some (VStr "a %{v}")) /\
  look (kinds_w m kinds_common "data_dig") 20 sc key None = Ok (Some (VStr "a %{v}")).
Proof.
  exists [(VStr "k", VStr "a %{literal('%')}{v}")], [(VStr "v", VStr "vv")], "k". vm_compute. auto.
Qed.
Print Assumptions C63_twice_refuted.

Theorem C63_full_is_false : ~ C63_full.
Proof.
  intro H. specialize (H [(VStr "k", VStr "%{lookup('x')}")] kinds_common [] "k" "data_hash" "lookup_key" 20 _ _
    ltac:(cbn; auto) ltac:(cbn; auto) eq_refl eq_refl).
  assert (E1 : look (kinds_w [(VStr "k", VStr "%{lookup('x')}")] kinds_common "data_hash") 20 [] "k" None = Ok (Some (VStr "xx"))) by (vm_compute; reflexivity).
  assert (E2 : look (kinds_w [(VStr "k", VStr "%{lookup('x')}")] kinds_common "lookup_key") 20 [] "k" None = Panic nil_deref) by (vm_compute; reflexivity).
  rewrite E1, E2 in H. specialize (H ltac:(discriminate) ltac:(discriminate)). discriminate H.
Qed.
Print Assumptions C63_full_is_false.

(** ** Values without anything to interpolate *)

(** A hierarchy entry without locations whose function has been loaded. *)
Record answers (s : st) (p : provider) (kind : fkind) (f : fnref) : Prop := mk_answers {
  an_function : exists n, e_function (p_entry p) = Some (mk_fdef kind n);
  an_loaded : ps_fn (s_provs s (p_id p)) = Some (LdFn f);
  an_unused : ps_hashes (s_provs s (p_id p)) = [];
  an_free : ps_locked (s_provs s (p_id p)) = false
}.

Lemma loaded_run w id e f l s : ps_fn (s_provs s id) = Some l -> provider_function w id e f s = (Ok l, s).
Proof. intro H. unfold provider_function, bind, run_op. rewrite H. reflexivity. Qed.

Lemma kinds_hash w n s p f k r ps m : off s -> k_parts k = PStr r :: ps ->
  answers s p KDataHash f -> (forall t o, w_call w t f (ADataHash o) = PRet (Some (VMap m))) ->
  (forall v, mgets r m = Some v -> settled v) ->
  fst (provider_lookup w (run w (S n)) k p None s) = Ok (mgets r m).
Proof.
  intros Ho Hk [(nm & Hf) Hl Hu Hlk] Hc Hs. unfold provider_lookup. rewrite Hf. cbn [f_kind].
  unfold bind at 1, lift at 1, root. rewrite Hk. cbn [part_string].
  assert (D : exists s', data_hash w (run w (S n)) (p_id p) (p_entry p) (mk_fdef KDataHash nm) None s = (Ok m, s') /\ off s').
  { unfold data_hash. unfold bind at 1, ret at 1. unfold bind at 1, provider_options, ret at 1.
    unfold bind at 1. destruct (read_hash (p_id p) "" s Hlk) as (s1 & E1 & S1). rewrite E1, Hu. cbn [aget].
    assert (P1 := ss_provs _ _ S1 (p_id p)).
    unfold fill. unfold run_scoped. rewrite P1, Hlk.
    match goal with |- context [bind _ _ ?x] => set (s2 := x) end.
    assert (P2 : s_provs s2 (p_id p) = mk_pstate (Some (LdFn f)) [] true).
    { unfold s2, with_prov. cbn [s_provs]. rewrite Nat.eqb_refl, Hl, Hu. reflexivity. }
    assert (O2 : off s2).
    { unfold s2, off, with_prov. cbn [s_iv]. rewrite (ss_iv _ _ S1). exact Ho. }
    clearbody s2. unfold bind at 1. change (run_op (OHash (p_id p) "") s2) with (Ok (aget "" (ps_hashes (s_provs s2 (p_id p)))), s2).
    rewrite P2. cbn [ps_hashes aget]. unfold bind at 1. unfold bind at 1.
    rewrite (loaded_run w _ _ _ (LdFn f)) by (rewrite P2; reflexivity).
    cbn [call_hash]. unfold call_fn, ask. unfold bind at 1. unfold bind at 1. unfold bind at 1. unfold bind at 1.
    unfold run_op at 1. cbv beta iota. unfold ret at 1. rewrite Hc. cbn [run_prog]. unfold ret at 1 2.
    unfold bind, ret. unfold run_op. cbv beta iota zeta.
    eexists. split; [ reflexivity | exact O2 ]. }
  destruct D as (s' & ED & O'). unfold bind at 1. rewrite ED.
  destruct (mgets r m) as [v|] eqn:E.
  - unfold bind at 1. rewrite (interpolate_settled w n true v s' (Hs v eq_refl)). unfold bind, report_found.
    rewrite report_off by exact O'. reflexivity.
  - unfold bind, ret, report_found. rewrite report_off by exact O'. reflexivity.
Qed.

Lemma kinds_key w n s p f k r ps v : off s -> k_parts k = PStr r :: ps ->
  answers s p KLookupKey f -> (forall t o, w_call w t f (ALookupKey o r) = PRet v) ->
  fst (provider_lookup w (run w (S n)) k p None s) = Ok v.
Proof.
  intros Ho Hk [(nm & Hf) Hl Hu Hlk] Hc. unfold provider_lookup. rewrite Hf. cbn [f_kind].
  unfold bind at 1, lift at 1, root. rewrite Hk. cbn [part_string]. unfold bind at 1, provider_options, ret at 1.
  unfold bind at 1. rewrite (loaded_run w _ _ _ (LdFn f)) by exact Hl.
  cbn [call_key]. unfold call_fn, ask. unfold bind at 1. unfold bind at 1. unfold bind at 1. unfold run_op at 1. cbv beta iota. unfold ret at 1.
  rewrite Hc. cbn [run_prog]. unfold ret at 1. unfold bind. destruct v as [v|]; unfold report_found; rewrite report_off by exact Ho; reflexivity.
Qed.

Lemma kinds_dig w n s p f k d : off s ->
  answers s p KDataDig f -> (forall t, w_dig w t f (k_parts k) = Ok d) ->
  fst (provider_lookup w (run w (S n)) k p None s) = Ok (match d with Some x => Some (bury k x) | None => None end).
Proof.
  intros Ho [(nm & Hf) Hl Hu Hlk] Hc. unfold provider_lookup. rewrite Hf. cbn [f_kind].
  unfold bind at 1, provider_options, ret at 1.
  unfold bind at 1. rewrite (loaded_run w _ _ _ (LdFn f)) by exact Hl.
  cbn [call_dig]. unfold ask. unfold bind at 1. unfold bind at 1. unfold bind at 1. unfold run_op at 1. cbv beta iota. unfold ret at 1.
  rewrite Hc. unfold lift at 1. unfold bind. destruct d as [x|]; unfold report_found; rewrite report_off by exact Ho; reflexivity.
Qed.

Lemma settled_path v ps x : path v ps x -> settled v -> settled x.
Proof.
  induction 1 as [v|v p u ps x H P IH]; [ auto | ]. intro S. apply IH. intros t I.
  apply S. destruct H as [pre y post | m pre z y post -> N | m pre k y post -> N].
  - apply inside_arr with y; [ apply in_elt | exact I ].
  - apply inside_val with (VInt z) y; [ apply in_elt | exact I ].
  - apply inside_val with (VStr k) y; [ apply in_elt | exact I ].
Qed.

(** The part that holds, for lookups in entries without locations and without
    an explainer: when what the data [m] says about the first part of the key
    has nothing to interpolate, a data_hash function that gives all of [m], a
    lookup_key function that gives the value of the first part and a data_dig
    function that gives the value [d] at the end of the path find the same:
    [d] or nothing is dug out of what they give, and there is nothing to
    interpolate in it after the lookup. *)
Theorem C63_kinds_partial : forall w n s k r ps m d ph pk pd fh fk fd oh ok od,
  off s -> k_parts k = PStr r :: ps ->
  answers s ph KDataHash fh -> (forall t o, w_call w t fh (ADataHash o) = PRet (Some (VMap m))) ->
  answers s pk KLookupKey fk -> (forall t o, w_call w t fk (ALookupKey o r) = PRet (mgets r m)) ->
  answers s pd KDataDig fd -> (forall t, w_dig w t fd (k_parts k) = Ok d) ->
  (forall v, mgets r m = Some v -> settled v) ->
  (forall x, d = Some x <-> exists v, mgets r m = Some v /\ path v ps x) ->
  fst (provider_lookup w (run w (S n)) k ph None s) = oh ->
  fst (provider_lookup w (run w (S n)) k pk None s) = ok ->
  fst (provider_lookup w (run w (S n)) k pd None s) = od ->
  oh = ok /\
  (forall v, oh = Ok (Some v) -> forall x s', dig k v = Some x -> interpolate (run w (S n)) true x s' = (Ok (Some x), s')) /\
  (exists vh vd, oh = Ok vh /\ od = Ok vd /\
     forall x, (exists v, vh = Some v /\ dig k v = Some x) <-> (exists v, vd = Some v /\ dig k v = Some x)).
Proof.
  intros w n s k r ps m d ph pk pd fh fk fd oh ok od Ho Hk Ah Ch Ak Ck Ad Cd Hs Hd Eh Ek Ed.
  rewrite (kinds_hash w n s ph fh k r ps m Ho Hk Ah Ch Hs) in Eh.
  rewrite (kinds_key w n s pk fk k r ps (mgets r m) Ho Hk Ak Ck) in Ek.
  rewrite (kinds_dig w n s pd fd k d Ho Ad Cd) in Ed. subst oh ok od.
  assert (T : tl (k_parts k) = ps) by (rewrite Hk; reflexivity).
  split; [ reflexivity | ]. split.
  - intros v E x s' Dx. injection E as E. apply interpolate_settled.
    apply C05_dig_is_path in Dx. rewrite T in Dx. exact (settled_path v ps x Dx (Hs v E)).
  - eexists. eexists. split; [ reflexivity | ]. split; [ reflexivity | ]. intro x. split.
    + intros (v & Ev & Dx). apply C05_dig_is_path in Dx. rewrite T in Dx.
      assert (Dd : d = Some x) by (apply Hd; exists v; auto). rewrite Dd. exists (bury k x). split; [ reflexivity | apply C04_dig_bury ].
    + intros (v & Ev & Dx). destruct d as [y|]; [ | discriminate Ev ]. injection Ev as <-. rewrite C04_dig_bury in Dx. injection Dx as ->.
      destruct (proj1 (Hd x) eq_refl) as (v & Em & Pv). exists v. split; [ exact Em | ]. apply C05_dig_is_path. rewrite T. exact Pv.
Qed.
Print Assumptions C63_kinds_partial.

(** Three entries whose functions have the data {k: {b: 7}, c: text}. *)
Definition kinds_m : entries := [(VStr "k", vmap [("b", VInt 7); ("c", VStr "text")])].
Definition kinds_world : world := kinds_w kinds_m [] "data_hash".
Definition kinds_entry (k : fkind) : entry := mk_entry "data" "/h/plugin" "" None (Some (mk_fdef k "fn")) "e" None.
Definition kinds_st : st :=
  let p := mk_pstate (Some (LdFn (FnSession "fn"))) [] false in
  with_prov 2 p (with_prov 1 p (with_prov 0 p (with_next 3 (init_st (ScMap []) None)))).

Example C63_ex :
  let k := mk_key "k.c" [PStr "k"; PStr "c"] in
  let p i kd := mk_provider i (kinds_entry kd) in
  off kinds_st /\
  answers kinds_st (p 0 KDataHash) KDataHash (FnSession "fn") /\
  answers kinds_st (p 1 KLookupKey) KLookupKey (FnSession "fn") /\
  answers kinds_st (p 2 KDataDig) KDataDig (FnSession "fn") /\
  (forall t o, w_call kinds_world t (FnSession "fn") (ADataHash o) = PRet (Some (VMap kinds_m))) /\
  (forall t o, w_call kinds_world t (FnSession "fn") (ALookupKey o "k") = PRet (mgets "k" kinds_m)) /\
  (forall t, w_dig kinds_world t (FnSession "fn") (k_parts k) = Ok (Some (VStr "text"))) /\
  (forall v, mgets "k" kinds_m = Some v -> settled v) /\
  (forall x, Some (VStr "text") = Some x <-> exists v, mgets "k" kinds_m = Some v /\ path v [PStr "c"] x) /\
  fst (provider_lookup kinds_world (run kinds_world 3) k (p 1 KLookupKey) None kinds_st)
    = Ok (Some (vmap [("b", VInt 7); ("c", VStr "text")])) /\
  fst (provider_lookup kinds_world (run kinds_world 3) k (p 2 KDataDig) None kinds_st)
    = Ok (Some (vmap [("c", VStr "text")])).
Proof.
  cbv zeta. split; [ reflexivity | ].
  do 3 (split; [ constructor; try reflexivity; eexists; reflexivity | ]).
  do 3 (split; [ intros; vm_compute; reflexivity | ]).
  split.
  { intros v E. vm_compute in E. injection E as <-. apply settled_by. reflexivity. }
  split.
  { intro x. split.
    - intro E. injection E as <-. eexists. split; [ vm_compute; reflexivity | ].
      apply path_cons with (VStr "text"); [ | apply path_nil ].
      apply step_str_key with (pre := [(VStr "b", VInt 7)]) (post := []); [ reflexivity | ]. intros y [J|[]]. discriminate J.
    - intros (v & E & P). vm_compute in E. injection E as <-.
      apply (C05_dig_is_path (mk_key "" [PStr "k"; PStr "c"])) in P. vm_compute in P. exact P. }
  split; vm_compute; reflexivity.
Qed.

(** The same through whole lookups, a scope variable included. *)
Example C63_ex_lookup :
  let m := [(VStr "k", vmap [("b", VInt 7); ("c", VStr "a %{v} z")])] in
  forall kind, In kind ["data_hash"; "lookup_key"; "data_dig"] ->
    look (kinds_w m kinds_common kind) 20 [(VStr "v", VStr "vv")] "k.c" None = Ok (Some (VStr "a vv z")) /\
    look (kinds_w m kinds_common kind) 20 [(VStr "v", VStr "vv")] "k.d" None = Ok None.
Proof. cbv zeta. intros kind [<-|[<-|[<-|[]]]]; vm_compute; auto. Qed.
