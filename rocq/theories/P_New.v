(** Property C40: which configuration file a session uses. *)

From Coq Require Import String Ascii List ZArith Bool Arith Lia.
From Verif Require Import Str Value Outcome Key Merge Fpath Config Ipl Explain State Engine Meta Worlds Kept Session New
  SpecKey ValueFacts MergeFacts InterpFacts PathFacts P_Options.
Import ListNotations.
Open Scope nat_scope.
Open Scope string_scope.
Open Scope list_scope.

(** The file name asked for: the option, else the environment, else
    hiera.yaml. *)
Inductive asked_name (show : value -> string) (env : environ) (opts : entries) : string -> Prop :=
| an_option : forall v, mgets "Hiera::ConfigFileName" opts = Some v -> asked_name show env opts (show v)
| an_env : forall f, mgets "Hiera::ConfigFileName" opts = None -> lookup_env env "HIERA_CONFIGFILE" = Some f ->
    asked_name show env opts f
| an_default : mgets "Hiera::ConfigFileName" opts = None -> lookup_env env "HIERA_CONFIGFILE" = None ->
    asked_name show env opts "hiera.yaml".

(** The directory: the option, else the working directory. *)
Inductive asked_root (show : value -> string) (cwd : string) (opts : entries) : string -> Prop :=
| ar_option : forall v, mgets "Hiera::Root" opts = Some v -> asked_root show cwd opts (show v)
| ar_cwd : mgets "Hiera::Root" opts = None -> asked_root show cwd opts cwd.

(** The path of the configuration that is to be used. *)
Inductive asked_config (show : value -> string) (env : environ) (cwd : string) (opts : entries) : string -> Prop :=
| ac_option : forall v, mgets "Hiera::Config" opts = Some v -> asked_config show env cwd opts (show v)
| ac_absolute : forall f, mgets "Hiera::Config" opts = None -> mgets "Hiera::ConfigFileName" opts = None ->
    lookup_env env "HIERA_CONFIGFILE" = Some f -> is_abs f = true -> asked_config show env cwd opts f
| ac_joined : forall r f, mgets "Hiera::Config" opts = None -> asked_root show cwd opts r -> asked_name show env opts f ->
    (is_abs f = true -> mgets "Hiera::ConfigFileName" opts <> None) ->
    asked_config show env cwd opts (join2 r f).

Lemma mgets_put_other k k' v m : wfm m -> k <> k' -> mgets k (mput (VStr k') v m) = mgets k m.
Proof.
  intros W H. unfold mgets. rewrite mget_mput; auto. cbn.
  destruct (String.eqb_spec k k') as [E|_]; [ now contradiction H | reflexivity ].
Qed.
Lemma mgets_put_same k v m : wfm m -> mgets k (mput (VStr k) v m) = Some v.
Proof. intros W. unfold mgets. rewrite mget_mput; auto. cbn. now rewrite String.eqb_refl. Qed.

(** The options as given. *)
Definition options_given (oif : option entries) : entries := match oif with Some m => m | None => [] end.

Lemma mgets_given oif k : wfm (options_given oif) -> mgets k (mputall [] (options_given oif)) = mgets k (options_given oif).
Proof.
  intro W. unfold mgets. rewrite mget_mputall; auto; [ | now constructor ].
  destruct (mget (VStr k) (options_given oif)); reflexivity.
Qed.

(** A session that could be made uses the configuration asked for: the one
    given, or the file name asked for below the directory asked for.  Missing:
    HIERA_CONFIGFILE holding an absolute path, refuted below. *)
Theorem C40_config_path_partial : forall show env cwd oif s,
  wfm (options_given oif) ->
  (forall t, show (VStr t) = t) ->
  new_session show env (Ok cwd) oif = Ok s ->
  (forall f, lookup_env env "HIERA_CONFIGFILE" = Some f -> is_abs f = true ->
     mgets "Hiera::Config" (options_given oif) <> None \/ mgets "Hiera::ConfigFileName" (options_given oif) <> None) ->
  exists p, config_path show s = Ok p /\ asked_config show env cwd (options_given oif) p.
Proof.
  intros show env cwd oif s W Hs E Habs.
  unfold new_session in E. fold (options_given oif) in E.
  assert (W' : wfm (mputall [] (options_given oif))) by (apply mputall_wf; [ now constructor | exact W ]).
  rewrite mgets_given in E by exact W.
  destruct (mgets "Hiera::Config" (options_given oif)) as [v|] eqn:Ec.
  - cbn [obind] in E. destruct (new_dialect _) as [d| | |]; try discriminate E. injection E as <-.
    exists (show v). unfold config_path. cbn [ss_options]. rewrite mgets_given, Ec by exact W.
    split; [ reflexivity | now constructor ].
  - unfold add_hiera_config in E. rewrite !mgets_given in E by exact W.
    assert (R : exists r, match mgets "Hiera::Root" (options_given oif) with Some r => Ok (show r) | None => Ok cwd end = Ok r /\
                          asked_root show cwd (options_given oif) r).
    { destruct (mgets "Hiera::Root" (options_given oif)) as [r|] eqn:Er;
        [ exists (show r) | exists cwd ]; (split; [ reflexivity | now constructor ]). }
    destruct R as (r & Er & Ar). rewrite Er in E. cbn [obind] in E.
    destruct (new_dialect _) as [d| | |]; try discriminate E. injection E as <-.
    unfold config_path. cbn [ss_options]. rewrite mgets_put_same by exact W'. rewrite Hs.
    eexists. split; [ reflexivity | ].
    apply ac_joined; [ exact Ec | exact Ar | | ].
    + destruct (mgets "Hiera::ConfigFileName" (options_given oif)) as [v|] eqn:Ef; [ now constructor | ].
      destruct (lookup_env env "HIERA_CONFIGFILE") as [f|] eqn:Ee; now constructor.
    + destruct (mgets "Hiera::ConfigFileName" (options_given oif)) as [v|] eqn:Ef; [ discriminate | ].
      destruct (lookup_env env "HIERA_CONFIGFILE") as [f|] eqn:Ee; [ | discriminate ].
      intros Ha. destruct (Habs f eq_refl Ha); congruence.
Qed.
Print Assumptions C40_config_path_partial.

(** HIERA_CONFIGFILE holding an absolute path is not used as it is. *)
Theorem C40_absolute_env_refuted : exists show env cwd oif s f,
  (forall t, show (VStr t) = t) /\ wfm (options_given oif) /\
  new_session show env (Ok cwd) oif = Ok s /\
  mgets "Hiera::Config" (options_given oif) = None /\ mgets "Hiera::ConfigFileName" (options_given oif) = None /\
  lookup_env env "HIERA_CONFIGFILE" = Some f /\ is_abs f = true /\
  config_path show s <> Ok f /\ config_path show s = Ok "/work/etc/h.yaml".
Proof.
  exists (fun v => match v with VStr t => t | _ => "?" end), [("HIERA_CONFIGFILE", "/etc/h.yaml")], "/work", None.
  eexists. exists "/etc/h.yaml".
  split; [ reflexivity | ]. split; [ reflexivity | ]. split; [ vm_compute; reflexivity | ].
  repeat split; try reflexivity; vm_compute; try discriminate.
Qed.
Print Assumptions C40_absolute_env_refuted.

(** How far that claim holds: an absolute HIERA_CONFIGFILE is joined with the root that
    is asked for, and that gives the same path exactly if the path has no detours and the
    root is the empty text or leads to the top directory. *)
Theorem C40_absolute_env_exactly : forall show env cwd oif s f,
  wfm (options_given oif) -> (forall t, show (VStr t) = t) ->
  new_session show env (Ok cwd) oif = Ok s ->
  mgets "Hiera::Config" (options_given oif) = None -> mgets "Hiera::ConfigFileName" (options_given oif) = None ->
  lookup_env env "HIERA_CONFIGFILE" = Some f -> SpecPath.absolute f ->
  exists r, asked_root show cwd (options_given oif) r /\ config_path show s = Ok (join2 r f) /\
    (config_path show s = Ok f <-> SpecPath.direct f /\ (r = "" \/ SpecPath.absolute r /\ SpecPath.reaches [] r [])).
Proof.
  intros show env cwd oif s f W Hs E Ec Ef Ee Ha.
  assert (W' : wfm (mputall [] (options_given oif))) by (apply mputall_wf; [ now constructor | exact W ]).
  unfold new_session in E. fold (options_given oif) in E. rewrite mgets_given, Ec in E by exact W.
  unfold add_hiera_config in E. rewrite !mgets_given, Ef, Ee in E by exact W.
  assert (R : exists r, match mgets "Hiera::Root" (options_given oif) with Some r => Ok (show r) | None => Ok cwd end = Ok r /\
                        asked_root show cwd (options_given oif) r).
  { destruct (mgets "Hiera::Root" (options_given oif)) as [r|] eqn:Er;
      [ exists (show r) | exists cwd ]; (split; [ reflexivity | now constructor ]). }
  destruct R as (r & Er & Ar). rewrite Er in E. cbn [obind] in E.
  destruct (new_dialect _) as [d| | |]; try discriminate E. injection E as <-.
  exists r. split; [ exact Ar | ].
  unfold config_path. cbn [ss_options]. rewrite mgets_put_same by exact W'. rewrite Hs. split; [ reflexivity | ].
  apply PathFacts.absolute_is in Ha. pose proof (PathFacts.join_absolute r f Ha) as J.
  rewrite PathFacts.absolute_is, PathFacts.reaches_place by constructor.
  split.
  - intro X. injection X as X. apply J in X as [D [->|[A P]]]; split; auto.
  - intros [D [->|[A P]]]; f_equal; apply J; auto.
Qed.
Print Assumptions C40_absolute_env_exactly.

Example C40_ex_absolute_env :
  let show := fun v => match v with VStr t => t | _ => "?" end in
  let go r f := match new_session show [("HIERA_CONFIGFILE", f)] (Ok "/work") (Some [(VStr "Hiera::Root", VStr r)]) with Ok s => config_path show s | _ => NoFuel end in
  go "/a/.." "/etc/h.yaml" = Ok "/etc/h.yaml" /\ go "/" "/etc/./h.yaml" = Ok "/etc/h.yaml" /\ go "/r" "/etc/h.yaml" = Ok "/r/etc/h.yaml" /\
  SpecPath.absolute "/etc/h.yaml" /\ SpecPath.reaches [] "/a/.." [].
Proof.
  repeat split; try (vm_compute; reflexivity); [ eexists; reflexivity | ].
  apply PathFacts.reaches_place; [ constructor | vm_compute; reflexivity ].
Qed.

(** When no session can be made: only for a dialect that is not known, or
    without a working directory where one is needed. *)
Theorem C40_refused : forall show env cwd oif e,
  wfm (options_given oif) ->
  new_session show env cwd oif = Panic e <->
  (mgets "Hiera::Config" (options_given oif) = None /\ mgets "Hiera::Root" (options_given oif) = None /\ cwd = Panic e) \/
  (~ (mgets "Hiera::Config" (options_given oif) = None /\ mgets "Hiera::Root" (options_given oif) = None /\ forall d, cwd <> Ok d) /\
   exists d, mgets "Hiera::Dialect" (options_given oif) = Some (VStr d) /\ d <> "dgo" /\ d <> "pcore" /\
             e = EErr ("unknown dialect '" ++ d ++ "'")).
Proof.
  intros show env cwd oif e W.
  assert (W' : wfm (mputall [] (options_given oif))) by (apply mputall_wf; [ now constructor | exact W ]).
  assert (D : forall o, mgets "Hiera::Dialect" o = mgets "Hiera::Dialect" (options_given oif) ->
    (obind (new_dialect o) (fun d => Ok (mk_session o d (new_scope o))) = Panic e <->
     exists d, mgets "Hiera::Dialect" (options_given oif) = Some (VStr d) /\ d <> "dgo" /\ d <> "pcore" /\
               e = EErr ("unknown dialect '" ++ d ++ "'"))).
  { intros o Ho. unfold new_dialect. rewrite Ho.
    destruct (mgets "Hiera::Dialect" (options_given oif)) as [v|];
      [ | split; [ discriminate | intros (d & A & _); discriminate ] ].
    destruct v as [| | | |t| | |]; try (split; [ discriminate | intros (d & A & _); discriminate ]).
    destruct (String.eqb_spec t "dgo") as [->|N1].
    { split; [ discriminate | ]. intros (d & A & B & _). injection A as <-. now contradiction B. }
    destruct (String.eqb_spec t "pcore") as [->|N2].
    { split; [ discriminate | ]. intros (d & A & _ & B & _). injection A as <-. now contradiction B. }
    cbn [obind]. split.
    - intro H. injection H as <-. exists t. auto.
    - intros (d & A & _ & _ & ->). injection A as <-. reflexivity. }
  unfold new_session. fold (options_given oif). rewrite mgets_given by exact W.
  destruct (mgets "Hiera::Config" (options_given oif)) as [v|] eqn:Ec.
  { cbn [obind]. rewrite D by (now rewrite mgets_given).
    split; [ intro H; right; split; [ intros [A _]; discriminate | exact H ] | ].
    intros [[A _]|[_ H]]; [ discriminate | exact H ]. }
  unfold add_hiera_config. rewrite !mgets_given by exact W.
  destruct (mgets "Hiera::Root" (options_given oif)) as [r|] eqn:Er.
  { cbn [obind]. rewrite D by (rewrite mgets_put_other; [ now apply mgets_given | exact W' | discriminate ]).
    split; [ intro H; right; split; [ intros (_ & A & _); discriminate | exact H ] | ].
    intros [(_ & A & _)|[_ H]]; [ discriminate | exact H ]. }
  destruct cwd as [d|e'| |]; cbn [obind].
  { rewrite D by (rewrite mgets_put_other; [ now apply mgets_given | exact W' | discriminate ]).
    split; [ intro H; right; split; [ intros (_ & _ & A); now contradiction (A d) | exact H ] | ].
    intros [(_ & _ & A)|[_ H]]; [ discriminate | exact H ]. }
  all: split; [ try discriminate | intros [(_ & _ & A)|[A _]]; [ try discriminate A | exfalso; apply A; repeat split; discriminate ] ].
  - intro H. injection H as <-. auto.
  - injection A as <-. reflexivity.
Qed.
Print Assumptions C40_refused.

(** The scope of the session is the one in the options, and a variable of an
    invocation is looked for in the scope given with it before that. *)
Theorem C40_scope : forall show env cwd oif s si x,
  wfm (options_given oif) -> new_session show env cwd oif = Ok s ->
  scope_get (invocation_scope s si) x =
  match match si with Some m => mgets x m | None => None end with
  | Some v => Some v
  | None => match mgets "Hiera::Scope" (options_given oif) with Some (VMap m) => mgets x m | _ => None end
  end.
Proof.
  intros show env cwd oif s si x W E.
  assert (W' : wfm (mputall [] (options_given oif))) by (apply mputall_wf; [ now constructor | exact W ]).
  assert (S : ss_scope s = match mgets "Hiera::Scope" (options_given oif) with Some (VMap m) => ScMap m | _ => ScMap [] end).
  { unfold new_session in E. fold (options_given oif) in E. rewrite mgets_given in E by exact W.
    destruct (mgets "Hiera::Config" (options_given oif)) as [v|].
    - cbn [obind] in E. destruct (new_dialect _) as [d| | |]; try discriminate E. injection E as <-.
      cbn [ss_scope]. unfold new_scope. rewrite mgets_given by exact W. reflexivity.
    - unfold add_hiera_config in E.
      destruct (match mgets "Hiera::Root" (mputall [] (options_given oif)) with Some r => Ok (show r) | None => cwd end)
        as [r| | |]; try discriminate E.
      cbn [obind] in E. destruct (new_dialect _) as [d| | |]; try discriminate E. injection E as <-.
      cbn [ss_scope]. unfold new_scope.
      rewrite mgets_put_other by (exact W' || discriminate). rewrite mgets_given by exact W. reflexivity. }
  assert (S' : scope_get (ss_scope s) x = match mgets "Hiera::Scope" (options_given oif) with Some (VMap m) => mgets x m | _ => None end).
  { rewrite S. destruct (mgets "Hiera::Scope" (options_given oif)) as [v|]; [ destruct v | ]; reflexivity. }
  destruct si as [m|]; cbn [invocation_scope scope_get]; [ | exact S' ].
  destruct (mgets x m); [ reflexivity | exact S' ].
Qed.
Print Assumptions C40_scope.

(** ** The configuration that lookups read *)

(** [e] is the first thing asked of the world. *)
Definition first_asked (e : event) (s : st) : Prop := exists t, s_trace s = (e :: t)%list.

Lemma first_asked_kept e s s' : longer s s' -> first_asked e s -> first_asked e s'.
Proof. intros [t E] [u F]. exists (u ++ t). rewrite E, F. reflexivity. Qed.

Lemma first_asked_bind A B e (m : M st A) (f : A -> M st B) s :
  first_asked e (snd (m s)) -> (forall a, steps longer _ (f a) (f a)) -> first_asked e (snd (bind m f s)).
Proof.
  intros H Hf. unfold bind. destruct (m s) as [[a|x| |] s']; try exact H.
  exact (first_asked_kept e _ _ (Hf a s') H).
Qed.

(** The first thing a new session that uses configurations asks of the world is
    the configuration at the path of the session. *)
Theorem C40_first_read : forall show s p w n k opts sc x r,
  config_path show s = Ok p -> w_cfgpath w = p -> w_top w = LkConfig ->
  root k = Ok r -> r <> "lookup_options" ->
  exists t, s_trace (snd (run_lookup w (S n) k opts (init_st sc x))) = (EvConfig p :: t)%list.
Proof.
  intros show s p w n k opts sc x r _ Hp Ht Hr Hn.
  pose proof (longer_closed w) as C.
  assert (Hrec : forall q, steps longer _ (run w n q) (run w n q)) by (intro; apply (c_run w _ C)).
  assert (Q : forall t, quiet (run w n (RStr t false))) by (intro; apply quiet_run).
  change (first_asked (EvConfig p) (snd (run_lookup w (S n) k opts (init_st sc x)))).
  unfold run_lookup. cbn [run body].
  apply first_asked_bind; [ | intro; apply (f_lift _ longer_full) ].
  apply first_asked_bind; [ | intro; apply (f_lift _ longer_full) ].
  unfold lookup. rewrite Hr. cbn [lift bind].
  unfold bind at 1. cbn [lift].
  destruct (String.eqb_spec r "lookup_options") as [E|_]; [ contradiction | ].
  apply first_asked_bind.
  2:{ intros [v|]; [ | apply (f_lift _ longer_full) ].
      apply (f_scoped _ longer_full); [ discriminate | ].
      apply (f_bind _ longer_full).
      - apply (c_interpolate w _ C); assumption.
      - intro. apply (c_dig_in w _ C). }
  rewrite Ht. cbn [call_lk]. unfold config_lookup_at.
  apply first_asked_bind.
  2:{ intros c.
      apply (f_bind _ longer_full); [ apply (f_lift _ longer_full) | intro k' ].
      apply (f_bind _ longer_full); [ apply (f_op _ longer_full) | intros [ | | ] ].
      - apply (f_scoped _ longer_full); [ discriminate | ]. apply (f_scoped _ longer_full); [ discriminate | ].
        apply (f_bind _ longer_full); [ apply (f_lift _ longer_full) | intro lo ].
        apply (f_bind _ longer_full); [ apply (c_set_merge w _ C) | intro u ].
        apply (c_lookup_and_convert w _ C).
        apply (f_bind _ longer_full); [ apply (f_op _ longer_full) | intro g ].
        apply (c_merge_hierarchy w _ C); assumption.
      - apply (f_bind _ longer_full); [ apply (f_lift _ longer_full) | intro lo ]. apply (f_lift _ longer_full).
      - apply (f_bind _ longer_full); [ apply (f_op _ longer_full) | intro g ].
        apply (c_merge_hierarchy w _ C); assumption. }
  unfold get_config.
  replace (if String.eqb (w_cfgpath w) "" then w_cfgpath w else w_cfgpath w) with p
    by (destruct (String.eqb (w_cfgpath w) ""); congruence).
  unfold bind at 1. unfold run_op at 1. cbn [init_st s_configs aget].
  apply first_asked_bind.
  2:{ intros c.
      apply (f_bind _ longer_full); [ apply (c_resolve_config w _ C); assumption | intro rc ].
      apply (f_bind _ longer_full); [ apply (f_op _ longer_full) | intro u ]. apply (f_lift _ longer_full). }
  unfold shared_config, load_config, ask, bind, run_op, lift, ret.
  cbn [init_st s_shared aget].
  destruct (config_new (w_env w) p _) as [c|e| |]; eexists; reflexivity.
Qed.
Print Assumptions C40_first_read.

(** ** Examples *)

Section Examples.
  Let show (v : value) : string := match v with VStr t => t | _ => "?" end.

  (** An explicit configuration wins over all else. *)
  Example C40_ex_explicit :
    let o := Some [(VStr "Hiera::Config", VStr "/c/x.yaml"); (VStr "Hiera::Root", VStr "/r")] in
    exists s, new_session show [("HIERA_CONFIGFILE", "e.yaml")] (Ok "/work") o = Ok s /\ config_path show s = Ok "/c/x.yaml" /\ asked_config show [("HIERA_CONFIGFILE", "e.yaml")] "/work" (options_given o) "/c/x.yaml".
  Proof. eexists. split; [ vm_compute; reflexivity | ]. split; [ reflexivity | ].
    apply (ac_option show _ _ _ (VStr "/c/x.yaml")). reflexivity. Qed.

  (** The file named by the environment, below the root given. *)
  Example C40_ex_env :
    let o := Some [(VStr "Hiera::Root", VStr "/r")] in
    exists s, new_session show [("HIERA_CONFIGFILE", "e.yaml")] (Ok "/work") o = Ok s /\ config_path show s = Ok "/r/e.yaml" /\ asked_config show [("HIERA_CONFIGFILE", "e.yaml")] "/work" (options_given o) "/r/e.yaml".
  Proof.
    eexists. split; [ vm_compute; reflexivity | ]. split; [ reflexivity | ].
    apply (ac_joined _ _ _ _ "/r" "e.yaml"); [ reflexivity | now apply (ar_option show "/work" _ (VStr "/r")) | now apply an_env | ].
    discriminate.
  Qed.

  (** No options at all. *)
  Example C40_ex_default :
    exists s, new_session show [] (Ok "/work") None = Ok s /\ config_path show s = Ok "/work/hiera.yaml".
  Proof. eexists. split; [ vm_compute; reflexivity | reflexivity ]. Qed.

  (** A dialect that is not known; no working directory. *)
  Example C40_ex_dialect :
    new_session show [] (Ok "/work") (Some [(VStr "Hiera::Dialect", VStr "ruby")]) = Panic (EErr "unknown dialect 'ruby'").
  Proof. vm_compute. reflexivity. Qed.
  Example C40_ex_no_cwd :
    new_session show [] (Panic (EErr "getwd")) (Some [(VStr "Hiera::Dialect", VStr "ruby")]) = Panic (EErr "getwd").
  Proof. vm_compute. reflexivity. Qed.

  (** A variable of the session and one that the invocation replaces. *)
  Example C40_ex_scope :
    let o := Some [(VStr "Hiera::Scope", vmap [("a", VInt 1); ("b", VInt 2)])] in
    exists s, new_session show [] (Ok "/work") o = Ok s /\ scope_get (invocation_scope s (Some [(VStr "a", VInt 9)])) "a" = Some (VInt 9) /\ scope_get (invocation_scope s (Some [(VStr "a", VInt 9)])) "b" = Some (VInt 2) /\ scope_get (invocation_scope s None) "a" = Some (VInt 1).
  Proof. eexists. split; [ vm_compute; reflexivity | repeat split ]. Qed.

  (** The configuration read. *)
  Example C40_ex_first_read :
    let w := file_world [("/h/hiera.yaml", levels ["a"])] [("/h/data/a.yaml", vmap [("k", VInt 1)])] in
    exists s, new_session show [] (Ok "/h") None = Ok s /\ config_path show s = Ok (w_cfgpath w) /\ w_top w = LkConfig /\ match new_key "k" with
      | Ok k => s_trace (snd (run_lookup w 5 k None (init_st (ScMap []) None)))
                = [EvConfig "/h/hiera.yaml"; EvStat "/h/data/a.yaml"; EvYaml "/h/data/a.yaml"]
      | _ => False
      end.
  Proof. eexists. split; [ vm_compute; reflexivity | ]. split; [ reflexivity | ]. split; [ reflexivity | vm_compute; reflexivity ]. Qed.
End Examples.
