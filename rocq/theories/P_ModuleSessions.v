(** Property C91: what lookups give in a session that asks the configuration of
    the session, the configurations of modules and other functions, as the lookup
    command and the REST service do. *)

From Coq Require Import String Ascii List ZArith Bool Arith Lia.
From Verif Require Import Str Value Outcome Key Merge Fpath Config Ipl Explain State Engine Session Worlds
  SpecKey SpecIpl SpecInterp SpecConfig SpecMerge SpecPath SpecLookup SpecMux SpecTop SpecExplain SpecModules Transparent
  KeyFacts ValueFacts MergeLookup StrFacts IplFacts InterpFacts IplExact Fuel ResolveFacts LookupTop SettledLookup ExLevels
  AnswerFacts RootFacts P_Modules P_Lookup P_MuxLookup ModulesExact.
Import ListNotations.
Open Scope nat_scope.
Open Scope string_scope.
Open Scope list_scope.

(** A world whose files and directories stay as they are, in a session that asks
    several functions. *)
Record steady_modules (w : world) (on_disk : string -> bool) (matching : string -> list string)
       (rd : string -> dir_list) (ls : string -> lstat) (fs : list lkfn) : Prop := mk_steady_modules {
  sd_stat : forall t p, w_stat w t p = on_disk p;
  sd_glob : forall t p, w_glob w t p = matching p;
  sd_dirs : settled_dirs w rd ls;
  sd_top : w_top w = LkMux;
  sd_mux : w_mux w = Some fs
}.

(** The configuration files that are read in a scope. *)
Definition sites_are (w : world) (on_disk : string -> bool) (matching : string -> list string) (sc : scope) (n : nat)
           (sites : string -> option site) : Prop :=
  forall path si, sites path = Some si -> site_is w on_disk matching sc n path si.

(** The answer to one request, in its own scope. *)
Definition module_answer (w : world) (on_disk : string -> bool) (matching : string -> list string)
           (rd : string -> dir_list) (ls : string -> lstat) (fs : list lkfn) (n : nat) (r : request) (o : option value) : Prop :=
  exists sites, sites_are w on_disk matching (q_scope r) n sites /\
                gives_among w rd ls (q_scope r) sites fs n (q_key r) (q_opts r) o.

Lemma starts_steady w rd ls sites locked sc s : kept_over w rd ls locked s ->
  steady w rd ls sites locked (new_iv sc false) [] (invocation sc false s).
Proof.
  intros [H1 H2 H3]. split; [ reflexivity | ]. split; [ constructor; assumption | ]. split; [ | intros path rc [] ].
  exists []. split; [ constructor | ]. split; [ constructor | ]. split; [ intros p [] | ]. intros path rc E. discriminate E.
Qed.

Lemma starts_kept w rd ls sc x : kept_over w rd ls (fun _ => False) (init_st sc x).
Proof. constructor; [ intros path H; exact H | intros; discriminate | intros; discriminate ]. Qed.

(** A lookup, when some configuration files were found to be broken. *)
Lemma module_request w od mt rd ls fs n N (locked : string -> Prop) r o s : steady_modules w od mt rd ls fs -> 3 * n <= N ->
  (forall path, locked path -> exists x, broken w path x) ->
  module_answer w od mt rd ls fs n r o -> kept_over w rd ls locked s ->
  exists s', run_lookup w (S (S (S (S N)))) (q_key r) (q_opts r) (invocation (q_scope r) false s) = (Ok o, s') /\
    kept_over w rd ls locked s'.
Proof.
  intros [H1 H2 H3 H4 H5] HN Hb (sites & Hs & Hl) Hk.
  destruct (lookup_steady w rd ls od mt H3 H1 H2 (q_scope r) n sites Hs locked Hb fs H5 H4 n N (q_key r) (q_opts r) o
              (invocation (q_scope r) false s)) as (s' & E & Hk'); [ lia | now apply starts_steady | exact Hl | ].
  exists s'. split; [ | exact Hk' ].
  change (run_lookup w (S (S (S (S N)))) (q_key r) (q_opts r))
    with (bind (bind (lookup w (run w (S (S (S N)))) (q_key r) (q_opts r)) (fun v => ret (v, true))) (fun r => ret (fst r))).
  unfold bind. rewrite E. reflexivity.
Qed.

Lemma modules_serve w od mt rd ls fs n N : steady_modules w od mt rd ls fs -> 3 * n <= N ->
  forall rs os, Forall2 (module_answer w od mt rd ls fs n) rs os ->
  forall s, kept_over w rd ls (fun _ => False) s -> fst (serve w (S (S (S (S N)))) false rs s) = map Ok os.
Proof.
  intros Hw HN rs os H.
  induction H as [|r o rs os Hr H IH]; intros s Hk; [ reflexivity | ].
  destruct (module_request w od mt rd ls fs n N (fun _ => False) r o s Hw HN (fun p F => match F with end) Hr Hk) as (s' & R & Hk').
  cbn [serve]. rewrite R. specialize (IH s' Hk').
  destruct (serve w (S (S (S (S N)))) false rs s') as [os' s2]. simpl in *. congruence.
Qed.

(** ** Any number of lookups in one session *)

(** In any scopes, with interpolation, lookup options, nested lookups and keys of
    any modules, explained or not: each gives what the stateless description
    says, whatever was asked before and with any fuel that is enough. *)
Theorem C91_every_lookup_in_a_session : forall w on_disk matching rd ls fs n N rs os,
  steady_modules w on_disk matching rd ls fs -> 3 * n <= N ->
  Forall2 (module_answer w on_disk matching rd ls fs n) rs os ->
  (forall sc, fst (serve w (4 + N) false rs (init_st sc None)) = map Ok os) /\
  (forall sc options only,
     fst (serve w (4 + N) true rs (init_st sc (Some (new_explainer options only)))) = map Ok os).
Proof.
  intros w od mt rd ls fs n N rs os Hw HN H.
  assert (E : forall sc, fst (serve w (4 + N) false rs (init_st sc None)) = map Ok os).
  { intro sc. apply (modules_serve w od mt rd ls fs n N Hw HN rs os H). apply starts_kept. }
  split; [ exact E | ]. intros sc options only. rewrite <- (E sc).
  exact (proj1 (sim_serve w (4 + N) rs (init_st sc (Some (new_explainer options only))) (init_st sc None) eq_refl eq_refl)).
Qed.
Print Assumptions C91_every_lookup_in_a_session.

Lemma one_module_lookup w od mt rd ls fs sc sites n k opts o N : steady_modules w od mt rd ls fs ->
  sites_are w od mt sc n sites -> gives_among w rd ls sc sites fs n k opts o ->
  fst (run_lookup w (4 + 3 * n + N) k opts (init_st sc None)) = Ok o.
Proof.
  intros Hw Hs L.
  destruct (C91_every_lookup_in_a_session w od mt rd ls fs n (3 * n + N) [mk_request sc k opts] [o] Hw) as [E _]; [ lia | | ].
  { constructor; [ | constructor ]. exists sites. split; assumption. }
  specialize (E sc). cbn [serve] in E.
  change (invocation (q_scope (mk_request sc k opts)) false (init_st sc None)) with (init_st sc None) in E.
  cbn [q_key q_opts] in E. change (4 + 3 * n + N) with (4 + (3 * n + N)).
  destruct (run_lookup w (4 + (3 * n + N)) k opts (init_st sc None)) as [x s1]. simpl in E. injection E as ->. reflexivity.
Qed.

(** The description gives at most one answer to a request, with any two numbers of
    nested steps. *)
Theorem C91_one_answer : forall w on_disk matching rd ls fs n m r a b,
  steady_modules w on_disk matching rd ls fs ->
  module_answer w on_disk matching rd ls fs n r a -> module_answer w on_disk matching rd ls fs m r b -> a = b.
Proof.
  intros w od mt rd ls fs n m r a b Hw Ha Hb.
  destruct (C91_every_lookup_in_a_session w od mt rd ls fs n (3 * n + 3 * m) [r] [a] Hw) as [A _]; [ lia | auto | ].
  destruct (C91_every_lookup_in_a_session w od mt rd ls fs m (3 * n + 3 * m) [r] [b] Hw) as [B _]; [ lia | auto | ].
  specialize (A (q_scope r)). rewrite B in A. simpl in A. congruence.
Qed.
Print Assumptions C91_one_answer.

(** ** Data files with nothing to interpolate *)

(** What a function has for a key: what it says when it is asked for options, and
    what it says for data with a strategy. *)
Inductive function_has (w : world) (rd : string -> dir_list) (ls : string -> lstat) (sc : scope)
          (sites : string -> option site) (args : entries) (r : string) : lkfn -> option value -> (strategy -> option value) -> Prop :=
| fh_site : forall f si lo files, reads_site w rd ls sites r f si -> site_options r si lo ->
    Forall2 (level_is w) (si_entries si) files ->
    Forall (fun f => forall v, under r f = Some v -> wf v = true /\ settled v) files ->
    function_has w rd ls sc sites args r f (option_map VMap lo) (fun s => pure_lookup s (map (under r) files))
| fh_other : forall f v, keeps_value w rd ls sc args r f v -> function_has w rd ls sc sites args r f v (fun _ => v).

Lemma consulted_all w rd ls sc sites args r same free s l outs :
  Forall2 (datum_of w rd ls sc sites args r same s) l outs -> consulted w rd ls sc sites args r same free s l outs.
Proof. induction 1; econstructor; eassumption. Qed.

Lemma picked_pure w rd ls sc sites args r same free s l outs :
  Forall2 (datum_of w rd ls sc sites args r same s) l outs ->
  picked w rd ls sc sites args r same free s l (pure_lookup s outs).
Proof.
  intro H. destruct s; try (apply pi_merge; [ discriminate | now apply consulted_all ]). cbn [pure_lookup].
  assert (Q : forall pre none, Forall (fun o => o = None) none ->
            Forall2 (datum_of w rd ls sc sites args r same SFirst) pre none ->
            picked w rd ls sc sites args r same free SFirst (pre ++ l) (first_some outs)).
  { induction H as [|f o l outs Hf H IH]; intros pre none Hn Hp.
    - rewrite app_nil_r. apply (pi_none _ _ _ _ _ _ _ _ _ _ pre none); [ reflexivity | exact Hn | now apply consulted_all ].
    - destruct o as [v|].
      + apply (pi_first _ _ _ _ _ _ _ _ _ _ pre f l none v); [ reflexivity | exact Hn | ].
        apply consulted_all. apply Forall2_app; [ exact Hp | constructor; [ exact Hf | constructor ] ].
      + change (f :: l) with ([f] ++ l). rewrite app_assoc. apply (IH (pre ++ [f]) (none ++ [None])).
        * apply Forall_app. auto.
        * apply Forall2_app; [ exact Hp | constructor; [ exact Hf | constructor ] ]. }
  exact (Q [] [] (Forall_nil _) (Forall2_nil _)).
Qed.

Lemma quiet_among w rd ls sc sites fs n a v : quiet v ->
  value_is (fun t => answers_among w rd ls sc sites fs (S n) a (QStr t)) v (Some v).
Proof. apply quiet_is. intros t Ht. cbn [answers_among]. apply plain_text. exact Ht. Qed.

Lemma settled_among w rd ls fs sc sites has k r ps opts lo mo s cv x o n :
  k_parts k = PStr r :: ps -> r <> "lookup_options" -> plain_key r ->
  Forall2 (fun f a => function_has w rd ls sc sites (match opts with Some m => m | None => [] end) r f (fst a) (snd a)) fs has ->
  map_of (pure_lookup (SDeep []) (map fst has)) lo ->
  merge_option opts lo mo -> strategy_is mo s -> conversion_is lo cv ->
  converted w cv (pure_lookup s (map (fun a => snd a s) has)) x ->
  (forall v, x = Some v -> quiet v) -> digs ps x o ->
  gives_among w rd ls sc sites fs (S n) k opts o.
Proof.
  intros Hk Hr Hp Hf Hlo Hmo Hst Hcv Hx Hxq Hd.
  right. exists r, ps, x. split; [ exact Hk | ]. split; [ exact Hr | ].
  split; [ exact (plain_correct r Hp) | ]. split.
  - exists (map fst has), lo, mo, s, cv, (pure_lookup s (map (fun a => snd a s) has)).
    split.
    { clear - Hf. induction Hf as [|f a fs has H Hf IH]; cbn [map]; constructor; [ | exact IH ].
      destruct H; [ eapply oo_site; eassumption | now apply oo_other ]. }
    split; [ exact Hlo | ]. split; [ exact Hmo | ]. split; [ exact Hst | ]. split; [ exact I | ]. split; [ exact Hcv | ].
    split; [ | exact Hx ].
    apply picked_pure.
    set (vi := value_is (fun t => answers_among w rd ls sc sites fs (S n) (fun g => g = s) (QStr t))).
    assert (Hvi : forall v, quiet v -> vi v (Some v)) by (intro v; apply quiet_among).
    clearbody vi. clear - Hf Hp Hvi.
    induction Hf as [|f a fs has H Hf IH]; cbn [map]; constructor; [ | exact IH ].
    destruct H as [f si lo files H1 H2 H3 H4|f v H1]; [ | now apply do_other ].
    eapply do_site; [ exact H1 | ]. apply levels_pure; assumption.
  - destruct x as [x|]; [ | inversion Hd; reflexivity ]. exists (Some x). split; [ | exact Hd ].
    apply quiet_among. exact (Hxq x eq_refl).
Qed.

(** The options of all functions are merged, the ones of the function that is
    asked first over those of the others.  They say how the data of the functions
    is merged, each configuration having merged its own levels in the same way,
    and what the result is converted to. *)
Theorem C91_settled_files : forall w on_disk matching rd ls fs sc sites has k r ps opts lo mo s cv x o N,
  steady_modules w on_disk matching rd ls fs -> sites_are w on_disk matching sc 1 sites ->
  k_parts k = PStr r :: ps -> r <> "lookup_options" -> plain_key r ->
  Forall2 (fun f a => function_has w rd ls sc sites (match opts with Some m => m | None => [] end) r f (fst a) (snd a)) fs has ->
  map_of (pure_lookup (SDeep []) (map fst has)) lo ->
  merge_option opts lo mo -> strategy_is mo s -> conversion_is lo cv ->
  converted w cv (pure_lookup s (map (fun a => snd a s) has)) x ->
  (forall v, x = Some v -> wf v = true /\ settled v) -> digs ps x o ->
  fst (run_lookup w (7 + N) k opts (init_st sc None)) = Ok o.
Proof.
  intros w od mt rd ls fs sc sites has k r ps opts lo mo s cv x o N Hw Hs Hk Hr Hp Hf Hlo Hmo Hst Hcv Hx Hxq Hd.
  refine (one_module_lookup w od mt rd ls fs sc sites 1 k opts o N Hw Hs _).
  eapply settled_among; eassumption.
Qed.
Print Assumptions C91_settled_files.

(** ** Examples *)

(** A session with the environment and one module.  The options of the module ask
    for a merge, those of the session for a conversion. *)
Definition ms_text : string := "<%{v}:%{lookup('port')}>".
Definition ms_common : entries :=
  [(VStr "port", VStr "443"); (VStr "web::ports", VArr [VStr "443"]);
   (VStr "lookup_options", vmap [("web::ports", vmap [("convert_to", VStr "sensitive")])])].
Definition ms_a : entries :=
  [(VStr "web::ports", VArr [VStr "80"]); (VStr "web::url", VStr ms_text);
   (VStr "lookup_options", vmap [("web::ports", vmap [("merge", VStr "unique")]); ("port", vmap [("merge", VStr "hash")])])].
Definition ms_b : entries := [(VStr "web::ports", VArr [VStr "8080"; VStr "80"])].
Definition ms_data : list (string * value) :=
  [("/h/data/common.yaml", VMap ms_common); ("/mods/Web/data/a.yaml", VMap ms_a); ("/mods/Web/data/b.yaml", VMap ms_b)].
Definition ms_fs : list lkfn := [LkConfig; LkEnv; LkModule].
Definition ms_w : world :=
  with_top LkMux (Some ms_fs)
    (with_modules ["Web"]
      (file_world [("/h/hiera.yaml", levels ["common"]); ("/mods/Web/hiera.yaml", levels ["a"; "b"])] ms_data)).
Definition ms_disk : string -> bool := fun p => match aget p ms_data with Some _ => true | None => false end.
Definition ms_rd (p : string) : dir_list := if String.eqb p "/mods" then DirEntries [("Web", true)] else DirMissing.
Definition ms_ls (p : string) : lstat :=
  if String.eqb p "/h/hiera.yaml" || String.eqb p "/mods/Web/hiera.yaml" then LsFound false else LsMissing.

Example C91_ex_world : steady_modules ms_w ms_disk (fun _ => []) ms_rd ms_ls ms_fs.
Proof.
  constructor; try reflexivity. split; intros t p; [ reflexivity | ].
  unfold ms_ls. cbn [ms_w w_lstat with_top with_modules file_world w_config aget].
  destruct (String.eqb p "/h/hiera.yaml"); [ reflexivity | ]. destruct (String.eqb p "/mods/Web/hiera.yaml"); reflexivity.
Qed.

Definition ms_session : site :=
  mk_site "" (map (level_out ms_disk) ["common"]) (pure_lookup (SDeep []) (map (under "lookup_options") [Some ms_common])).
Definition ms_module : site :=
  mk_site "web" (map (level_at "/mods/Web" ms_disk) ["a"; "b"])
    (pure_lookup (SDeep []) (map (under "lookup_options") [Some ms_a; Some ms_b])).
Definition ms_sites (p : string) : option site :=
  if String.eqb p "/h/hiera.yaml" then Some ms_session
  else if String.eqb p "/mods/Web/hiera.yaml" then Some ms_module else None.

Lemma ms_level_common : level_is ms_w (level_out ms_disk "common") (Some ms_common).
Proof. eapply li_present; reflexivity. Qed.
Lemma ms_level_a : level_is ms_w (level_at "/mods/Web" ms_disk "a") (Some ms_a).
Proof. eapply li_present; reflexivity. Qed.
Lemma ms_level_b : level_is ms_w (level_at "/mods/Web" ms_disk "b") (Some ms_b).
Proof. eapply li_present; reflexivity. Qed.

Example C91_ex_sites : forall sc n, sites_are ms_w ms_disk (fun _ => []) sc (S n) ms_sites.
Proof.
  intros sc n path si. unfold ms_sites.
  destruct (String.eqb_spec path "/h/hiera.yaml") as [->|_]; [ | destruct (String.eqb_spec path "/mods/Web/hiera.yaml") as [->|_] ];
    intro E; try discriminate E; injection E as <-.
  - exists (CfYaml (levels ["common"])), (levels_in ["common"]). split; [ reflexivity | ]. split; [ reflexivity | ].
    split; [ apply levels_resolved; reflexivity | ]. apply (all_options_more ms_w sc _ 1); [ lia | ].
    apply settled_options; [ constructor; [ exact ms_level_common | constructor ] | ].
    repeat (apply Forall_cons; [ intros v E; vm_compute in E; first [ discriminate E
              | injection E as <-; split; [ reflexivity | apply settled_by; reflexivity ] ] | ]). apply Forall_nil.
  - exists (CfYaml (levels ["a"; "b"])), (levels_at "/mods/Web" ["a"; "b"]). split; [ reflexivity | ]. split; [ reflexivity | ].
    split; [ apply levels_at_resolved; reflexivity | ]. apply (all_options_more ms_w sc _ 1); [ lia | ].
    apply settled_options; [ constructor; [ exact ms_level_a | constructor; [ exact ms_level_b | constructor ] ] | ].
    repeat (apply Forall_cons; [ intros v E; vm_compute in E; first [ discriminate E
              | injection E as <-; split; [ reflexivity | apply settled_by; reflexivity ] ] | ]). apply Forall_nil.
Qed.

Lemma ms_in_web : in_path ms_rd ms_ls "web" (module_dirs ms_w) (Some "/mods/Web/hiera.yaml").
Proof.
  apply ip_here. apply (id_here ms_rd ms_ls "web" "/mods" [("Web", true)] "Web"); [ reflexivity | | reflexivity ].
  apply find_module_first. reflexivity.
Qed.

Lemma ms_read rest : namespace ("web::" ++ rest) "web" -> reads_site ms_w ms_rd ms_ls ms_sites ("web::" ++ rest) LkModule ms_module.
Proof.
  intro H. apply (rs_module _ _ _ _ _ "web" "/mods/Web/hiera.yaml"); [ exact H | exact ms_in_web | reflexivity | ].
  apply module_name_lower. reflexivity.
Qed.

Lemma ms_namespace pre rest : pre <> "" -> split_at "::" (pre ++ "::" ++ rest) = Some (pre, rest) -> namespace (pre ++ "::" ++ rest) pre.
Proof. intros H E. apply namespace_split. split; [ exact H | exists rest; exact E ]. Qed.

(** The values of the session come first, then those of the levels of the module. *)
Lemma ms_ports sc n : gives_among ms_w ms_rd ms_ls sc ms_sites ms_fs (S n) (mk_key "web::ports" [PStr "web::ports"]) None
                        (Some (VSens (VArr [VStr "443"; VStr "80"; VStr "8080"]))).
Proof.
  apply (settled_among ms_w ms_rd ms_ls ms_fs sc ms_sites
           [(Some (VMap [(VStr "convert_to", VStr "sensitive")]), fun s => pure_lookup s (map (under "web::ports") [Some ms_common]));
            (None, fun _ => None);
            (Some (VMap [(VStr "merge", VStr "unique")]), fun s => pure_lookup s (map (under "web::ports") [Some ms_a; Some ms_b]))]
           (mk_key "web::ports" [PStr "web::ports"]) "web::ports" [] None
           (Some [(VStr "convert_to", VStr "sensitive"); (VStr "merge", VStr "unique")]) (Some (VStr "unique")) SUnique
           (Some ("sensitive", None)) (Some (VSens (VArr [VStr "443"; VStr "80"; VStr "8080"])))).
  - reflexivity.
  - discriminate.
  - apply plain_key_by. reflexivity.
  - constructor; [ | constructor; [ | constructor; [ | constructor ] ] ].
    + apply (fh_site ms_w ms_rd ms_ls sc ms_sites [] "web::ports" LkConfig ms_session (Some [(VStr "convert_to", VStr "sensitive")]) [Some ms_common]).
      * apply rs_config; reflexivity.
      * apply (so_own "web::ports" ms_session "web::ports"); [ apply plain_root; apply plain_key_by; reflexivity | now left | ].
        eapply of_map; [ vm_compute; reflexivity | reflexivity ].
      * constructor; [ exact ms_level_common | constructor ].
      * repeat (apply Forall_cons; [ intros v E; vm_compute in E; first [ discriminate E
              | injection E as <-; split; [ reflexivity | apply settled_by; reflexivity ] ] | ]). apply Forall_nil.
    + exact (fh_other ms_w ms_rd ms_ls sc ms_sites [] "web::ports" LkEnv None (hv_environment ms_w ms_rd ms_ls sc [] "web::ports")).
    + apply (fh_site ms_w ms_rd ms_ls sc ms_sites [] "web::ports" LkModule ms_module (Some [(VStr "merge", VStr "unique")]) [Some ms_a; Some ms_b]).
      * apply (ms_read "ports"). apply (ms_namespace "web" "ports"); [ discriminate | reflexivity ].
      * apply (so_own "web::ports" ms_module "web::ports"); [ apply plain_root; apply plain_key_by; reflexivity | right; now exists "ports" | ].
        eapply of_map; [ vm_compute; reflexivity | reflexivity ].
      * constructor; [ exact ms_level_a | constructor; [ exact ms_level_b | constructor ] ].
      * repeat (apply Forall_cons; [ intros v E; vm_compute in E; first [ discriminate E
              | injection E as <-; split; [ reflexivity | apply settled_by; reflexivity ] ] | ]). apply Forall_nil.
  - vm_compute. constructor.
  - eapply mo_option; [ discriminate | reflexivity | reflexivity ].
  - apply si_name. constructor.
  - eapply ci_type; [ reflexivity | left; reflexivity ].
  - match goal with |- converted _ _ ?v _ => change v with (Some (VArr [VStr "443"; VStr "80"; VStr "8080"])) end.
    apply cv_sensitive. reflexivity.
  - intros v E. injection E as <-. split; [ reflexivity | apply settled_by; reflexivity ].
  - match goal with |- digs ?ps ?v _ => exact (digs_by ps v) end.
Qed.

Example C91_ex_settled : forall N,
  fst (run_lookup ms_w (7 + N) (mk_key "web::ports" [PStr "web::ports"]) None (init_st (ScMap []) None))
  = Ok (Some (VSens (VArr [VStr "443"; VStr "80"; VStr "8080"]))).
Proof.
  intro N. exact (one_module_lookup ms_w _ _ _ _ _ (ScMap []) ms_sites 1 _ None _ N C91_ex_world (C91_ex_sites (ScMap []) 0) (ms_ports (ScMap []) 0)).
Qed.

(** A key in no module: the options that the module has for it do not count. *)
Lemma ms_no_namespace r : split_at "::" r = None -> forall pre, ~ namespace r pre.
Proof. intros E pre H. apply namespace_split in H as [_ (rest & F)]. congruence. Qed.

Lemma ms_missing : in_path ms_rd ms_ls "db" (module_dirs ms_w) None.
Proof.
  apply ip_next; [ | constructor ]. apply (id_no_entry _ _ _ _ [("Web", true)]); [ reflexivity | ].
  intros x [<-|[]] S; apply same_name_lower in S; discriminate.
Qed.

Lemma ms_other sc n r x : plain_key r -> r <> "lookup_options" -> no_module ms_w ms_rd ms_ls r ->
  environment (w_env ms_w) r = None -> options_for (si_options ms_session) r None ->
  under r (Some ms_common) = x -> (forall v, x = Some v -> quiet v) ->
  gives_among ms_w ms_rd ms_ls sc ms_sites ms_fs (S n) (mk_key r [PStr r]) None x.
Proof.
  intros Hp Hr Hm He Ho Hx Hq.
  apply (settled_among ms_w ms_rd ms_ls ms_fs sc ms_sites
           [(None, fun s => pure_lookup s (map (under r) [Some ms_common])); (None, fun _ => None); (None, fun _ => None)]
           (mk_key r [PStr r]) r [] None None None SFirst None x).
  - reflexivity.
  - exact Hr.
  - exact Hp.
  - constructor; [ | constructor; [ | constructor; [ | constructor ] ] ]; cbn [fst snd].
    + apply (fh_site ms_w ms_rd ms_ls sc ms_sites [] r LkConfig ms_session None [Some ms_common]).
      * apply rs_config; reflexivity.
      * apply (so_own r ms_session r); [ now apply plain_root | now left | exact Ho ].
      * constructor; [ exact ms_level_common | constructor ].
      * constructor; [ | constructor ]. intros v E. apply Hq. congruence.
    + pose proof (hv_environment ms_w ms_rd ms_ls sc [] r) as E. rewrite He in E. exact (fh_other _ _ _ _ _ _ _ _ _ E).
    + apply fh_other. now apply hv_no_module.
  - vm_compute. constructor. discriminate.
  - apply mo_none; discriminate.
  - apply si_none.
  - apply ci_none; discriminate.
  - cbn [map snd pure_lookup first_some]. rewrite Hx. destruct x; apply cv_no_conversion.
  - exact Hq.
  - destruct x as [v|]; [ exact (digs_by [] (Some v)) | exact (digs_by [] None) ].
Qed.

Definition ms_sc : scope := ScMap [(VStr "v", VStr "V")].

Lemma ms_port sc n : gives_among ms_w ms_rd ms_ls sc ms_sites ms_fs (S n) (mk_key "port" [PStr "port"]) None (Some (VStr "443")).
Proof.
  apply ms_other; try reflexivity; try discriminate.
  - apply plain_key_by. reflexivity.
  - apply nm_no_namespace. apply ms_no_namespace. reflexivity.
  - eapply of_other; [ reflexivity | discriminate ].
  - intros v E. injection E as <-. apply ex_quiet_text. reflexivity.
Qed.

Lemma ms_nested n : answers_among ms_w ms_rd ms_ls ms_sc ms_sites ms_fs (S (S (S n))) (fun _ => True) (QStr ms_text) (Some (VStr "<V:443>")).
Proof.
  apply (wi_text ms_w ms_sc (fun t => answers_among ms_w ms_rd ms_ls ms_sc ms_sites ms_fs (S (S n)) (fun _ => True) (QStr t))
           (fun k => answers_among ms_w ms_rd ms_ls ms_sc ms_sites ms_fs (S (S n)) (fun _ => True) (QKey k))
           [("<", "v"); (":", "lookup('port')")] ["V"; "443"] ">").
  { apply cut_by_tokens. reflexivity. }
  constructor; [ | constructor; [ | constructor ] ].
  - change "V" with (text ms_w (Some (VStr "V"))). eapply ei_scope with (x := "v") (ps := []) (arg := "v").
    + cbn. intuition discriminate.
    + right. split; [ reflexivity | ]. apply method_match_none. reflexivity.
    + apply written_by. reflexivity.
    + reflexivity.
    + apply quiet_among. apply ex_quiet_text. reflexivity.
    + exact (digs_by [] (Some (VStr "V"))).
  - change "443" with (text ms_w (Some (VStr "443"))). eapply ei_lookup with (name := "lookup") (arg := "port") (ps := [PStr "port"]).
    + apply ex_calls. reflexivity.
    + left. reflexivity.
    + apply written_by. reflexivity.
    + exact (ms_port ms_sc n).
Qed.

Lemma ms_url n : gives_among ms_w ms_rd ms_ls ms_sc ms_sites ms_fs (S (S (S n))) (mk_key "web::url" [PStr "web::url"]) None
                   (Some (VStr "<V:443>")).
Proof.
  assert (P : plain_key "web::url") by (apply plain_key_by; reflexivity).
  assert (R : reads_site ms_w ms_rd ms_ls ms_sites "web::url" LkModule ms_module).
  { apply (ms_read "url"). apply (ms_namespace "web" "url"); [ discriminate | reflexivity ]. }
  assert (E : keeps_value ms_w ms_rd ms_ls ms_sc [] "web::url" LkEnv None) by exact (hv_environment ms_w ms_rd ms_ls ms_sc [] "web::url").
  right. exists "web::url", [], (Some (VStr "<V:443>")). split; [ reflexivity | ]. split; [ discriminate | ].
  split; [ now apply plain_correct | ]. split.
  - exists [None; None; None], None, None, SFirst, None, (Some (VStr "<V:443>")).
    split.
    { constructor; [ | constructor; [ now apply oo_other | constructor; [ | constructor ] ] ].
      - apply (oo_site ms_w ms_rd ms_ls ms_sc ms_sites [] "web::url" LkConfig ms_session None); [ apply rs_config; reflexivity | ].
        apply (so_own "web::url" ms_session "web::url"); [ now apply plain_root | now left | ]. eapply of_other; [ reflexivity | discriminate ].
      - apply (oo_site ms_w ms_rd ms_ls ms_sc ms_sites [] "web::url" LkModule ms_module None); [ exact R | ].
        apply (so_own "web::url" ms_module "web::url"); [ now apply plain_root | right; now exists "url" | ].
        eapply of_other; [ reflexivity | discriminate ]. }
    split; [ vm_compute; constructor; discriminate | ]. split; [ apply mo_none; discriminate | ]. split; [ apply si_none | ].
    split; [ exact I | ]. split; [ apply ci_none; discriminate | ]. split; [ | apply cv_no_conversion ].
    apply (pi_first _ _ _ _ _ _ _ _ _ _ [LkConfig; LkEnv] LkModule [] [None; None]); [ reflexivity | repeat constructor | ].
    apply cs_more; [ | apply cs_more; [ now apply do_other | apply cs_last; [ | constructor ] ] ].
    + eapply do_site; [ apply rs_config; reflexivity | ]. apply pk_none.
      constructor; [ | constructor ]. eapply level_none; [ exact P | exact ms_level_common | reflexivity ].
    + eapply do_site; [ exact R | ].
      apply (pk_first _ [] (level_at "/mods/Web" ms_disk "a") [level_at "/mods/Web" ms_disk "b"]); [ constructor | ].
      eapply level_value; [ exact P | exact ms_level_a | reflexivity | ]. apply vi_str. exact (ms_nested n).
  - exists (Some (VStr "<V:443>")). split; [ apply quiet_among; apply ex_quiet_text; reflexivity | exact (digs_by [] (Some (VStr "<V:443>"))) ].
Qed.

Lemma ms_gone sc n : gives_among ms_w ms_rd ms_ls sc ms_sites ms_fs (S n) (mk_key "db::x" [PStr "db::x"]) None None.
Proof.
  apply ms_other; try reflexivity; try discriminate.
  - apply plain_key_by. reflexivity.
  - apply (nm_missing _ _ _ _ "db"); [ | exact ms_missing ]. apply (ms_namespace "db" "x"); [ discriminate | reflexivity ].
  - eapply of_other; [ reflexivity | discriminate ].
Qed.

(** One session: a value of the module with a nested lookup, the merge above, a
    module that is missing, twice, and the merge again, from what is cached by
    then. *)
Example C91_ex_session : forall N,
  fst (serve ms_w (13 + N) true
         [mk_request ms_sc (mk_key "web::url" [PStr "web::url"]) None;
          mk_request (ScMap []) (mk_key "web::ports" [PStr "web::ports"]) None;
          mk_request (ScMap []) (mk_key "db::x" [PStr "db::x"]) None;
          mk_request ms_sc (mk_key "db::x" [PStr "db::x"]) None;
          mk_request ms_sc (mk_key "web::ports" [PStr "web::ports"]) None;
          mk_request ms_sc (mk_key "lookup_options.web" [PStr "lookup_options"; PStr "web"]) None]
         (init_st (ScMap []) (Some (new_explainer false false))))
  = [Ok (Some (VStr "<V:443>")); Ok (Some (VSens (VArr [VStr "443"; VStr "80"; VStr "8080"]))); Ok None; Ok None;
     Ok (Some (VSens (VArr [VStr "443"; VStr "80"; VStr "8080"]))); Ok None].
Proof.
  intro N.
  refine (proj2 (C91_every_lookup_in_a_session ms_w ms_disk (fun _ => []) ms_rd ms_ls ms_fs 3 (9 + N) _
           [Some (VStr "<V:443>"); Some (VSens (VArr [VStr "443"; VStr "80"; VStr "8080"])); None; None;
            Some (VSens (VArr [VStr "443"; VStr "80"; VStr "8080"])); None] C91_ex_world ltac:(lia) _) _ _ _).
  repeat apply Forall2_cons; try apply Forall2_nil; exists ms_sites; (split; [ apply C91_ex_sites | ]).
  - exact (ms_url 0).
  - exact (ms_ports (ScMap []) 2).
  - exact (ms_gone (ScMap []) 2).
  - exact (ms_gone ms_sc 2).
  - exact (ms_ports ms_sc 2).
  - left. exists [PStr "web"]. split; reflexivity.
Qed.

(** The value with a nested lookup in two numbers of steps. *)
Example C91_ex_one_answer :
  module_answer ms_w ms_disk (fun _ => []) ms_rd ms_ls ms_fs 3 (mk_request ms_sc (mk_key "web::url" [PStr "web::url"]) None) (Some (VStr "<V:443>")) /\
  module_answer ms_w ms_disk (fun _ => []) ms_rd ms_ls ms_fs 5 (mk_request ms_sc (mk_key "web::url" [PStr "web::url"]) None) (Some (VStr "<V:443>")).
Proof.
  split; exists ms_sites; (split; [ apply C91_ex_sites | ]); [ exact (ms_url 0) | exact (ms_url 2) ].
Qed.
