(** C87: the lookup command and the REST service exactly, whatever is in the files
    and whatever they are asked. *)

From Coq Require Import String Ascii List ZArith Bool Arith Lia.
From Verif Require Import Str Value Outcome Key Merge Fpath Config Ipl Explain State Engine Session Worlds Api Rest Cmd New Args Flags RestArgs Program
  SpecKey SpecKeyErr SpecIpl SpecInterp SpecConfig SpecMerge SpecPath SpecLookup SpecExplain SpecFail SpecMux SpecMany SpecWorld SpecDeep SpecApi SpecArgs SpecPrograms
  KeyFacts KeyErrFacts ValueFacts MergeLookup StrFacts IplFacts InterpFacts IplExact Fuel ResolveFacts LookupTop SettledLookup
  AnswerFacts FailMore FailTop RootFacts Cycles Decided DecidedNested DecidedOptions DecidedTop DeepExact DeepEntry DeepConfig ConfigEnds ManyNested ManyTop
  P_Api P_Command P_Rest P_Lookup P_Cmd P_MuxLookup P_FromFiles P_New P_Program P_Complete P_Deep P_Many ProgramsExact.
From Verif Require SpecFlags P_Flags SpecRestArgs P_RestArgs ExLevels.
Import ListNotations.
Open Scope nat_scope.
Open Scope string_scope.
Open Scope list_scope.

(** ** One name *)
Lemma name_decided name : (exists x, misspelt name x) \/ (exists ps, written_key name (PStr "lookup_options" :: ps)) \/
  exists r ps, written_key name (PStr r :: ps) /\ r <> "lookup_options".
Proof.
  destruct (correct_decided name) as [H|H]; [ | left; exact H ]. right. destruct (correct_new name H) as (r & ps & Hw & _).
  destruct (String.string_dec r "lookup_options") as [->|N]; [ left; eauto | right; eauto ].
Qed.

Lemma ask_misspelt w n mo name x s : misspelt name x -> engine_ask w n mo name s = (Panic x, s).
Proof. intro H. apply new_key_refused in H. unfold engine_ask, bind, lift. rewrite H. reflexivity. Qed.
Lemma ask_key w n mo name ps s : written_key name ps -> engine_ask w n mo name s = run_lookup w n (mk_key name ps) mo s.
Proof. intro H. unfold engine_ask, bind at 1, lift. rewrite (written_key_new name ps H). reflexivity. Qed.
Lemma ask_options w n mo name ps s : written_key name (PStr "lookup_options" :: ps) -> off s -> engine_ask w (S n) mo name s = (Ok None, s).
Proof.
  intros H Ho. rewrite (ask_key w (S n) mo name _ s H). rewrite run_lookup_bind. unfold bind.
  rewrite (options_lookup w n (mk_key name (PStr "lookup_options" :: ps)) mo ps s eq_refl Ho). reflexivity.
Qed.
Lemma ask_mono w n m mo name s : n <= m -> fst (engine_ask w n mo name s) <> NoFuel -> engine_ask w m mo name s = engine_ask w n mo name s.
Proof.
  intros H Hne. unfold engine_ask, bind, lift in *. destruct (new_key name) as [k|x| |]; try reflexivity.
  exact (run_lookup_mono w n m k mo s H Hne).
Qed.

(** The same name with fewer steps. *)
Lemma ask_loosely w n m P Q mo name s o : n <= m -> comes_to False P Q (engine_ask w m mo name) s o -> comes_to True P Q (engine_ask w n mo name) s o.
Proof.
  intros H [[[] _]|(s' & E & HP & HQ)]. destruct (engine_ask w n mo name s) as [r s1] eqn:E1.
  assert (D : r = NoFuel \/ r <> NoFuel) by (destruct r; [ right; discriminate | right; discriminate | right; discriminate | left; reflexivity ]).
  destruct D as [->|D]; [ left; rewrite E1; auto | right ]. exists s'. split; [ | auto ]. rewrite <- E.
  symmetry. apply ask_mono; [ exact H | rewrite E1; exact D ].
Qed.
Lemma ask_out w n m mo name s : n <= m -> fst (engine_ask w m mo name s) = NoFuel -> fst (engine_ask w n mo name s) = NoFuel.
Proof.
  intros H E. destruct (engine_ask w n mo name s) as [r s1] eqn:E1.
  assert (D : r = NoFuel \/ r <> NoFuel) by (destruct r; [ right; discriminate | right; discriminate | right; discriminate | left; reflexivity ]).
  destruct D as [->|D]; [ reflexivity | ]. rewrite (ask_mono w n m mo name s H) in E; rewrite E1 in *; [ exact E | exact D ].
Qed.

Definition is_wf_scope (sc : scope) : Prop := forall x v, scope_get sc x = Some v -> wf v = true.

(** What the names of an invocation need: [Q] holds of its state as long as names
    give values or nothing. *)
Record serves (loose : Prop) (P Q : st -> Prop) (ask : string -> M st (option value)) (other : key -> outcome (option value) -> Prop) (s : st) : Prop := mk_serves {
  se_start : Q s;
  se_after : forall t, Q t -> P t;
  se_one : forall name o t, name_comes other name o -> Q t -> comes_to loose P Q (ask name) t o
}.
Record decides (P : st -> Prop) (ask : string -> M st (option value)) (other : key -> outcome (option value) -> Prop) (s : st) : Prop := mk_decides {
  de_serves : exists Q, serves True P Q ask other s /\ forall name t, Q t -> fst (ask name t) = NoFuel \/ exists o, name_comes other name o;
  de_ends : forall name o, name_comes other name o -> o <> NoFuel
}.

(** Names that need no configuration leave the invocation as it is. *)
Lemma plain_serves w n mo sc s (P : st -> Prop) (other : key -> outcome (option value) -> Prop) : P (invocation sc false s) ->
  (forall name r ps o, written_key name (PStr r :: ps) -> r <> "lookup_options" -> other (mk_key name (PStr r :: ps)) o ->
     exists s', run_lookup w (S n) (mk_key name (PStr r :: ps)) mo (invocation sc false s) = (o, s') /\ P s' /\ forall v, o <> Ok v) ->
  serves False P (eq (invocation sc false s)) (engine_ask w (S n) mo) other (invocation sc false s).
Proof.
  intros HP Hk. constructor; [ reflexivity | intros t <-; exact HP | ].
  intros name o t Hn <-. right. destruct Hn as [x Hx|ps Hps|r ps o Hps Hr Ho].
  - exists (invocation sc false s). split; [ apply ask_misspelt; exact Hx | ]. split; [ exact HP | discriminate ].
  - exists (invocation sc false s). split; [ exact (ask_options w n mo name ps (invocation sc false s) Hps eq_refl) | ]. auto.
  - destruct (Hk name r ps o Hps Hr Ho) as (s' & E & HP' & Hno). exists s'. rewrite (ask_key w (S n) mo name _ _ Hps). split; [ exact E | ].
    split; [ exact HP' | ]. intros v E'. destruct (Hno v E').
Qed.

Lemma serves_loosely w n m P Q mo other s : n <= m -> serves False P Q (engine_ask w m mo) other s -> serves True P Q (engine_ask w n mo) other s.
Proof. intros H [H1 H2 H3]. constructor; auto. intros name o t Hn Ht. exact (ask_loosely w n m P Q mo name t o H (H3 name o t Hn Ht)). Qed.

(** ** With a configuration *)
Section Config.
  Variables (w : world) (od : string -> bool) (mt : string -> list string) (file : cfg_file) (pre post : list lkfn) (c : config).
  Hypothesis Hst : asks w od mt file pre post.
  Hypothesis Hconf : config_new (w_env w) (w_cfgpath w) file = Ok c.
  Hypothesis Hw : dependable w.
  Let fs := pre ++ LkConfig :: post.

  Section Scope.
    Variables (sc : scope) (mo : option entries).
    Hypothesis Hv : is_wf_scope sc.

    Lemma resolved_serves n N es all s : n <= S (S N) -> fresh w c s -> created w (S (S N)) sc c es -> all_options w sc es n all ->
      serves False (fresh w c) (fun t => s_iv t = new_iv sc false /\ ready w c es all t) (engine_ask w (S (S (S (S N)))) mo)
        (fun k o => match o with
          | Ok v => many_answers w sc es all fs n (ALook k mo) v
          | Panic x => many_fails w sc es all fs n (ALook k mo) x
          | _ => False end) (invocation sc false s).
    Proof.
      intros HN Hs Hcr Ha. destruct Hst as [H1 H2 H3 H4 H5 H6 H7 H8]. constructor.
      - split; [ reflexivity | exact (ready_new w c es all (invocation sc false s) eq_refl Hs) ].
      - intros t [_ R]. exact (ready_shared w c es all t R).
      - intros name o t Hn [Ht R]. right. destruct Hn as [x Hx|ps Hps|r ps o Hps Hr Ho].
        + exists t. split; [ apply ask_misspelt; exact Hx | ]. split; [ exact (ready_shared w c es all t R) | discriminate ].
        + exists t. split; [ apply (ask_options w _ mo name ps _ Hps); unfold off; rewrite Ht; reflexivity | ]. split; [ exact (ready_shared w c es all t R) | auto ].
        + rewrite (ask_key w _ mo name _ _ Hps). rewrite run_lookup_bind. destruct o as [v|x| |]; try contradiction.
          * destruct (many_run w pre post H3 H4 H5 H6 Hw sc Hv c file H7 Hconf N es Hcr n all HN Ha t Ht R n _ mo v HN Ho) as (s' & E & I' & R').
            exists s'. unfold bind. rewrite E. split; [ reflexivity | ]. split; [ exact (ready_shared w c es all s' R') | auto ].
          * destruct (many_failing w pre post H3 H4 H5 H6 Hw sc Hv c file H7 Hconf N es Hcr n all HN Ha t Ht R n _ mo x HN Ho) as (s' & E & R').
            exists s'. unfold bind. rewrite E. split; [ reflexivity | ]. split; [ exact R' | discriminate ].
    Qed.

    (** A configuration that ends every lookup. *)
    Lemma stopping_serves N (o : outcome rconfig) s : (forall rc, o <> Ok rc) -> fresh w c s ->
      (forall t, iv_scope (s_iv t) = sc -> off t -> s_configs t = [] -> shared_ok w c t ->
        exists t', get_config w (run w N) (w_cfgpath w) "" t = (o, t') /\ (o = NoFuel \/ aget (w_cfgpath w) (s_shared t') = Some (ShLoaded c))) ->
      forall name r ps, written_key name (PStr r :: ps) -> r <> "lookup_options" ->
      exists s', run_lookup w (S (S N)) (mk_key name (PStr r :: ps)) mo (invocation sc false s) = (recast o, s') /\
        (o = NoFuel \/ aget (w_cfgpath w) (s_shared s') = Some (ShLoaded c)).
    Proof.
      intros Hno Hs Hget name r ps Hps Hr.
      destruct (lookup_ends w od mt file pre post c Hst Hw N (mk_request sc (mk_key name (PStr r :: ps)) mo) r ps o s) as (s' & E & K).
      - split; [ exists r, ps; reflexivity | exact Hv ].
      - reflexivity.
      - exact Hr.
      - exact Hno.
      - exact Hs.
      - exact Hget.
      - exists s'. cbn [q_key q_opts q_scope] in E. rewrite run_lookup_bind. unfold bind. rewrite E. split; [ | exact K ].
        destruct o as [a|x| |]; [ destruct (Hno a eq_refl) | | | ]; reflexivity.
    Qed.

    Lemma keys_serve n N other s : n <= S (S N) -> fresh w c s -> keys_with w od mt fs n c sc mo other ->
      exists Q, serves False (fresh w c) Q (engine_ask w (S (S (S (S N)))) mo) other (invocation sc false s).
    Proof.
      intros HN Hs Hk. pose proof Hst as [H1 H2 H3 H4 H5 H6 H7 H8].
      assert (Made : forall es, hierarchy_in w od mt n sc c es -> created w (S (S N)) sc c es)
        by (intros es Hh; exact (created_more w n (S (S N)) sc c es HN (hierarchy_made w n od mt sc c H1 H2 es Hh))).
      assert (Stop : forall x, (forall t, iv_scope (s_iv t) = sc -> off t -> s_configs t = [] -> shared_ok w c t ->
          exists t', get_config w (run w (S (S N))) (w_cfgpath w) "" t = (Panic x, t') /\ aget (w_cfgpath w) (s_shared t') = Some (ShLoaded c)) ->
        exists Q, serves False (fresh w c) Q (engine_ask w (S (S (S (S N)))) mo) (fun _ o => o = Panic x) (invocation sc false s)).
      { intros x Hget. exists (eq (invocation sc false s)). apply plain_serves; [ exact Hs | ]. intros name r ps o Hps Hr ->.
        destruct (stopping_serves (S (S N)) (Panic x) s ltac:(discriminate) Hs) with (name := name) (r := r) (ps := ps) as (s' & E & K); [ | exact Hps | exact Hr | ].
        - intros t T1 T2 T3 T4. destruct (Hget t T1 T2 T3 T4) as (t' & E & K). exists t'. auto.
        - exists s'. split; [ exact E | ]. split; [ | discriminate ]. destruct K as [K|K]; [ discriminate K | right; exact K ]. }
      destruct Hk as [es all Hh Ha|x Hx|es x Hh Hx|].
      - eexists. exact (resolved_serves n N es all s HN Hs (Made es Hh) Ha).
      - apply Stop. intros t T1 T2 T3 T4. apply (get_refused w (S (S N)) sc file H7 c Hconf x t); try assumption.
        exact (refused_more w n (S (S N)) sc c x HN (hierarchy_refused w n od mt sc c H1 H2 x Hx)).
      - apply Stop. intros t T1 T2 T3 T4. exact (get_options_fail w n N sc c file es x t H7 Hconf HN (Made es Hh) Hx T1 T2 T3 T4).
      - exists (eq (invocation sc false s)). apply plain_serves; [ exact Hs | ]. intros name r ps o _ _ [].
    Qed.

    Lemma keys_decide N s : fresh w c s -> exists other,
      keys_with w od mt fs (S (S (S (S N)))) c sc mo other /\ decides (fresh w c) (engine_ask w N mo) other (invocation sc false s).
    Proof.
      intro Hs. pose proof Hst as [H1 H2 H3 H4 H5 H6 H7 H8].
      assert (Up : S (S N) <= S (S (S (S N)))) by lia. destruct (resolved_more w od mt file pre post c Hst Hconf _ _ sc Hv Up) as [UpIn UpNot].
      assert (N4 : N <= S (S (S (S N)))) by lia. assert (N6 : N <= S (S (S (S (S (S N)))))) by lia.
      (* names that need no configuration always come to something *)
      assert (Tot : forall (other : key -> outcome (option value) -> Prop) t, 
        (forall name r ps, written_key name (PStr r :: ps) -> r <> "lookup_options" ->
           fst (run_lookup w (S (S (S (S N)))) (mk_key name (PStr r :: ps)) mo t) = NoFuel \/ exists o, other (mk_key name (PStr r :: ps)) o) ->
        forall name, fst (engine_ask w N mo name t) = NoFuel \/ exists o, name_comes other name o).
      { intros other t H name. destruct (name_decided name) as [(x & Hx)|[(ps & Hps)|(r & ps & Hps & Hr)]].
        - right. eexists. exact (nc_misspelt _ _ x Hx).
        - right. eexists. exact (nc_options _ _ ps Hps).
        - destruct (H name r ps Hps Hr) as [E|(o & Ho)]; [ left | right; exists o; exact (nc_key _ _ r ps o Hps Hr Ho) ].
          apply (ask_out w N _ mo name t N4). rewrite (ask_key w _ mo name _ _ Hps). exact E. }
      assert (Stop : forall x, keys_with w od mt fs (S (S (S (S N)))) c sc mo (fun _ o => o = Panic x) ->
        exists other, keys_with w od mt fs (S (S (S (S N)))) c sc mo other /\ decides (fresh w c) (engine_ask w N mo) other (invocation sc false s)).
      { intros x Hx. exists (fun _ o => o = Panic x). split; [ exact Hx | ].
        destruct (keys_serve (S (S (S (S N)))) (S (S N)) _ s (le_n _) Hs Hx) as (Q & HQ). constructor.
        - exists Q. split; [ exact (serves_loosely w N _ _ _ _ _ _ N6 HQ) | ]. intros name t _. apply Tot. intros ? ? ? ? ?. right. eauto.
        - intros name o [y Hy|ps Hps|r ps o' Hps Hr ->]; discriminate. }
      assert (Never : (forall t, iv_scope (s_iv t) = sc -> off t -> s_configs t = [] -> shared_ok w c t ->
          fst (get_config w (run w (S (S N))) (w_cfgpath w) "" t) = NoFuel) ->
        exists other, keys_with w od mt fs (S (S (S (S N)))) c sc mo other /\ decides (fresh w c) (engine_ask w N mo) other (invocation sc false s)).
      { intro Hget. exists (fun _ _ => False). split; [ apply kw_unneeded | ]. constructor.
        - exists (eq (invocation sc false s)). split.
          + apply (serves_loosely w N (S (S (S (S N)))) _ _ _ _ _ N4). apply plain_serves; [ exact Hs | ]. intros name r ps o _ _ [].
          + intros name t <-. apply Tot. intros name' r ps Hps Hr. left.
            destruct (stopping_serves (S (S N)) NoFuel s ltac:(discriminate) Hs) with (name := name') (r := r) (ps := ps) as (s' & E & _); [ | exact Hps | exact Hr | rewrite E; reflexivity ].
            intros t T1 T2 T3 T4. specialize (Hget t T1 T2 T3 T4). destruct (get_config w (run w (S (S N))) (w_cfgpath w) "" t) as [o t'].
            cbn [fst] in Hget. subst o. exists t'. auto.
        - intros name o [y Hy|ps Hps|r ps o' Hps Hr []]; discriminate. }
      destruct (hierarchy_settles w (S (S N)) od mt sc c H1 H2 Hv) as [(es & Hh)|[(x & Hx)|Hx]].
      - intros e o He Eo. exact (orderly_config _ _ _ _ H8 Hconf e He o Eo).
      - pose proof (hierarchy_made w (S (S N)) od mt sc c H1 H2 es Hh) as Made.
        destruct (options_settle w pre post H3 H4 H5 H6 Hw sc Hv c file H7 Hconf N es Made (S (S N))) as [[(all & Ha)|(x & Hx)]|Hstv].
        + eexists. split; [ exact (kw_resolved w od mt fs (S (S (S (S N)))) c sc mo es all (UpIn es Hh) (options_more w sc es _ _ all Up Ha)) | ]. constructor.
          * eexists. split.
            -- refine (serves_loosely w N _ _ _ _ _ _ N6 (resolved_serves (S (S (S (S N)))) (S (S N)) es all s (le_n _) Hs _ (options_more w sc es _ _ all Up Ha))).
               exact (created_more w (S (S N)) (S (S (S (S N)))) sc c es Up Made).
            -- intros name t [Ht R]. apply Tot. intros name' r ps Hps Hr.
               destruct (many_settles w pre post H3 H4 H5 H6 Hw sc Hv c file H7 Hconf N es Made (S (S N)) all (le_n _) Ha t Ht R (mk_key name' (PStr r :: ps)) mo r ps eq_refl Hr) as [(o & H)|[(x & H)|H]].
               ++ right. exists (Ok o). exact H.
               ++ right. exists (Panic x). exact H.
               ++ left. rewrite run_lookup_bind. apply fst_bind. apply fst_bind. exact H.
          * intros name o [y Hy|ps Hps|r ps o' Hps Hr Ho]; try discriminate. destruct o'; try contradiction; discriminate.
        + apply (Stop x). exact (kw_options _ _ _ _ _ _ _ _ es x (UpIn es Hh) (options_fail_more w sc es _ _ x Up Hx)).
        + apply Never. intros t T1 T2 T3 T4. apply Hstv; assumption.
      - apply (Stop x). exact (kw_refused _ _ _ _ _ _ _ _ x (UpNot x Hx)).
      - apply Never. intros t T1 T2 T3 T4. destruct (get_endless w (S (S N)) sc file H7 c Hconf t Hx T1 T2 T3 T4) as (t' & E). rewrite E. reflexivity.
    Qed.
  End Scope.
End Config.

(** ** More steps *)
Definition within {A} (m m' : M st A) : Prop := forall s, fst (m s) = NoFuel \/ m' s = m s.
Lemma within_same {A} (m : M st A) : within m m.
Proof. intro s. right. reflexivity. Qed.
Lemma within_bind {A B} (m m' : M st A) (f f' : A -> M st B) : within m m' -> (forall a, within (f a) (f' a)) -> within (bind m f) (bind m' f').
Proof.
  intros H Hf s. destruct (H s) as [E|E]; [ left; exact (ran_out m f s E) | ]. unfold bind. rewrite E.
  destruct (m s) as [[a|x| |] s1]; [ apply Hf | right; reflexivity | right; reflexivity | left; reflexivity ].
Qed.
Lemma within_ask w n m mo name : n <= m -> within (engine_ask w n mo name) (engine_ask w m mo name).
Proof.
  intros H s. destruct (engine_ask w n mo name s) as [r s1] eqn:E.
  assert (D : r = NoFuel \/ r <> NoFuel) by (destruct r; [ right; discriminate | right; discriminate | right; discriminate | left; reflexivity ]).
  destruct D as [D|D]; [ left; exact D | right ]. rewrite <- E. apply ask_mono; [ exact H | rewrite E; exact D ].
Qed.

Section Looks.
  Context {T : Type}.
  Variable inst : T -> option value -> bool.
  Variable conv : T -> option value -> outcome (option value).
  Variable any : T.
  Variable parse_type : string -> outcome T.
  Variable struct_of : T -> option (list (string * T)).
  Variable parse : string -> outcome value.
  Variable file : string -> var_file.
  Variable stdin : var_file.
  Variable render : string -> value -> outcome string.
  Variable render_explainer : string -> M st string.
  Variable session : scope.
  Variable w : world.

  Notation look F := (lookup_and_render inst conv any parse_type struct_of parse file stdin (engine_invoke session) (engine_ask w F) render render_explainer).
  Notation scope_for opts := (create_scope parse file (co_variables opts) (co_var_paths opts) (co_fact_paths opts) stdin).
  Notation looking keys := (looked_up inst conv any parse_type struct_of parse file stdin render keys session).

  Lemma within_each ask ask' names : (forall n : string, within (ask n) (ask' n)) -> within (ask_each ask names) (ask_each ask' names).
  Proof.
    intro H. induction names as [|n r IH]; [ apply within_same | ]. cbn [ask_each]. apply within_bind; [ apply H | ].
    intros [v|]; [ apply within_same | exact IH ].
  Qed.
  Lemma within_all ask ask' types names : (forall n : string, within (ask n) (ask' n)) -> forall resp,
    within (all_of inst conv ask names types None None resp) (all_of inst conv ask' names types None None resp).
  Proof.
    intro H. induction names as [|n r IH]; intro resp; [ apply within_same | ]. cbn [all_of lookup_in_map]. apply within_bind; [ apply H | ].
    intros [v|]; [ | apply IH ]. apply within_bind; [ apply within_same | ]. intro x. apply IH.
  Qed.
  Lemma within_look n m opts args : n <= m -> within (look n opts args) (look m opts args).
  Proof.
    intro H. unfold lookup_and_render. apply within_bind; [ apply within_same | ]. intro t.
    apply within_bind; [ apply within_same | ]. intro dv. apply within_bind; [ apply within_same | ]. intro sc.
    apply within_bind; [ apply within_same | ]. intros _.
    apply within_bind; [ | intro found; apply within_same ].
    set (mo := if (String.eqb (co_merge opts) "" || String.eqb (co_merge opts) "first")%bool then None else Some [(VStr "merge", VStr (co_merge opts))]).
    pose proof (fun name => within_ask w n m mo name H) as Ha.
    destruct (co_lookup_all opts).
    - assert (K : forall types, within (bind (lookup_all inst conv (engine_ask w n mo) args types None None) (fun v => ret (Some v)))
                                       (bind (lookup_all inst conv (engine_ask w m mo) args types None None) (fun v => ret (Some v)))).
      { intro types. apply within_bind; [ | intro v; apply within_same ]. unfold lookup_all. apply within_bind; [ | intro v; apply within_same ].
        apply within_all. exact Ha. }
      destruct (struct_of t) as [l|]; [ apply K | ]. destruct (String.eqb (co_type opts) ""); [ apply K | apply within_same ].
    - unfold lookup2. cbn [lookup_in_map]. apply within_bind; [ apply within_each; exact Ha | ]. intros [v|]; apply within_same.
  Qed.

  Hypothesis Hconv : forall t v, works (conv t v).
  Hypothesis Htypes : forall t, works (parse_type t).
  Hypothesis Hparse : forall t, works (parse t).
  Hypothesis Hrender : forall f v, works (render f v).
  Hypothesis parse_wf : forall t v, parse t = Ok v -> wf v = true.
  Hypothesis file_wf : forall p m, file p = VfMap m -> wfm m.
  Hypothesis stdin_wf : forall m, stdin = VfMap m -> wfm m.
  Hypothesis session_wf : is_wf_scope session.

  Lemma scope_values opts vars : scope_for opts = Ok vars -> is_wf_scope (ScNest session vars).
  Proof.
    intro E.
    assert (W : wfm vars).
    { unfold create_scope in E.
      destruct (add_variables parse (co_variables opts) []) as [m1|e| |] eqn:E1; try discriminate E. cbn [obind] in E.
      destruct (add_var_paths file (co_var_paths opts) stdin m1) as [[m2 s1]|e| |] eqn:E2; try discriminate E. cbn [obind fst snd] in E.
      apply (add_variables_spec parse file) in E1. destruct E1 as (defs & D & E1). apply add_var_paths_spec in E2. destruct E2 as (vs & R & E2).
      destruct (reads_wf file file_wf stdin _ vs s1 stdin_wf R) as [Wv Ws1].
      assert (Wd : Forall (fun d => wf (snd d) = true) defs).
      { clear - D parse_wf. induction D as [|e d vars defs (k & t & v & _ & C & ->) D IH]; constructor; [ | exact IH ]. cbn [snd].
        destruct C as [t' H|t' c r v' H H0 H1]; [ reflexivity | eauto ]. }
      assert (W1 : wfm m1) by (subst m1; apply defs_wf; [ exact wfm_nil | exact Wd ]).
      assert (W2 : wfm m2) by (subst m2; apply fold_mputall_wf; assumption).
      destruct (co_fact_paths opts) as [|f0 fp]; [ injection E as <-; exact W2 | ].
      destruct (add_var_paths file (f0 :: fp) s1 []) as [[fm s2]|e| |] eqn:E3; try discriminate E. cbn [obind fst] in E. injection E as <-.
      apply add_var_paths_spec in E3. destruct E3 as (fs & R3 & E3). destruct (reads_wf file file_wf s1 _ fs s2 Ws1 R3) as [Wf _].
      assert (W3 : wfm fm) by (subst fm; apply fold_mputall_wf; [ exact wfm_nil | exact Wf ]).
      apply mput_wf; [ apply mputall_wf; assumption | reflexivity | exact W3 ]. }
    intros x v H. cbn [scope_get] in H. destruct (mgets x vars) as [u|] eqn:G; [ | exact (session_wf x v H) ].
    injection H as <-. exact (mget_wf (VStr x) vars u W G).
  Qed.

  Definition silent (opts : command_options) : Prop := co_explain_data opts = false /\ co_explain_options opts = false.

  (** What is described ends. *)
  Lemma found_ends other opts args t dv o : found_comes inst conv struct_of other opts args t dv o -> o <> NoFuel.
  Proof.
    assert (Ty : forall ty v r, of_type inst conv ty v r -> r <> NoFuel).
    { intros ty v r [v0|t0 v0 E|t0 v0 r0 E C]; [ discriminate | discriminate | ]. subst. destruct (Hconv t0 v0) as [(a & ->)|(x & ->)]; discriminate. }
    intros [v r L Hf Ho|v r L Hf -> Ho|L Hf ->|o1 o' L Hf Hsf|o1 L Hc Ha|L N E]; try discriminate.
    - exact (Ty _ _ _ Ho).
    - exact (Ty _ _ _ Ho).
    - destruct Hsf; discriminate.
    - destruct Ha as [shown He|pre n post o2 o' _ _ _ Hf]; [ discriminate | destruct Hf; discriminate ].
  Qed.
  Lemma looking_ends keys opts args r : looking keys opts args r -> r <> NoFuel.
  Proof.
    intros [x N E|t x Ht Hx|t dv x Ht Hd Hx|t dv vars mo other o r' Ht Hd Hv Hm Hk Hf Hw]; try discriminate.
    destruct Hw as [|v out E|v o r1 E Hsf|o r1 Hsf]; try discriminate; destruct Hsf; discriminate.
  Qed.

  Section One.
    Variables (F : nat) (P : st -> Prop) (keys : scope -> option entries -> (key -> outcome (option value) -> Prop) -> Prop) (s : st).
    Hypothesis HP : P s.

    Lemma look_sound opts args r :
      (forall sc mo other, is_wf_scope sc -> keys sc mo other -> exists Q, serves False P Q (engine_ask w F mo) other (invocation sc false s)) ->
      silent opts -> looking keys opts args r -> exists s', look F opts args s = (r, s') /\ P s'.
    Proof.
      intros HK [X1 X2] [x N E|t x Ht Hx|t dv x Ht Hd Hx|t dv vars mo other o r' Ht Hd Hv Hm Hk Hf Hw].
      - exists s. split; [ apply look_early; left; auto | exact HP ].
      - exists s. split; [ apply look_early; right; left; eauto | exact HP ].
      - exists s. split; [ apply look_early; right; right; eauto | exact HP ].
      - destruct (HK _ mo other (scope_values opts vars Hv) Hk) as (Q & [Q1 Q2 Q3]).
        rewrite (look_late inst conv any parse_type struct_of parse file stdin render render_explainer session (engine_ask w F) opts args t dv vars mo s X1 X2 Ht Hd Hv Hm).
        destruct (written_run inst conv struct_of render (engine_ask w F) False P Q mo other Q2 Q3 opts args t dv o r' _ Hf Hw Q1) as [[[] _]|(s' & E & HP' & _)].
        exists s'. auto.
    Qed.

    Lemma look_total opts args :
      (forall sc mo, is_wf_scope sc -> exists other, keys sc mo other /\ decides P (engine_ask w F mo) other (invocation sc false s)) ->
      silent opts -> fst (look F opts args s) = NoFuel \/ exists r s', looking keys opts args r /\ look F opts args s = (r, s') /\ P s'.
    Proof.
      intros HT [X1 X2].
      destruct (look_cases inst conv any parse_type struct_of parse file stdin render render_explainer session (engine_ask w F) Htypes Hparse opts args)
        as [(x & E & D)|(t & dv & vars & mo & Ht & Hd & Hv & Hm)]; [ right; exists (Panic x), s; auto | ].
      destruct (HT _ mo (scope_values opts vars Hv)) as (other & Hk & [(Q & [Q1 Q2 Q3] & Q4) Q5]).
      rewrite (look_late inst conv any parse_type struct_of parse file stdin render render_explainer session (engine_ask w F) opts args t dv vars mo s X1 X2 Ht Hd Hv Hm).
      destruct (found_total inst conv struct_of (engine_ask w F) Hconv P Q mo other Q3 Q5 Q4 opts args t dv _ Q1) as [E|(o & Ho & Ne)]; [ left; exact (ran_out _ _ _ E) | ].
      destruct (written_total render Hrender (format_of opts) o Ne) as (r & Hr).
      destruct (written_run inst conv struct_of render (engine_ask w F) True P Q mo other Q2 Q3 opts args t dv o r _ Ho Hr Q1) as [[_ E]|(s' & E & HP' & _)]; [ left; exact E | ].
      right. exists r, s'. split; [ | auto ]. exact (lu_found _ _ _ _ _ _ _ _ _ _ _ _ _ t dv vars mo other o r Ht Hd Hv Hm Hk Ho Hr).
    Qed.
  End One.

  (** *** Requests *)
  Variable clean : string -> string.
  Variable server : command_options.
  Hypothesis server_silent : silent server.
  Notation responding keys := (responds clean server (looking keys)).
  Notation handled F q := (route (look F) server clean (fst q) (snd q)).

  Lemma requested_is p o : requested server p o -> o = request_options server p.
  Proof.
    intros [R1 R2 R3 R4 R5 R6 R7 (R8 & R9 & R10)]. destruct o as [ty me de fa vp va re ed eo al]. cbn in *. unfold request_options. subst.
    assert (First : forall l t, first_value l t -> t = first_or_empty l) by (intros l t [(-> & ->)|(r & ->)]; reflexivity).
    apply First in R1, R2. subst. f_equal. destruct (pa_default p) as [|d r].
    - destruct de as [d|]; [ | destruct (co_default server) as [d|]; [ | reflexivity ] ].
      + destruct (proj1 (R3 d) eq_refl) as [(r & E)|(_ & E)]; [ discriminate E | congruence ].
      + exact (proj2 (R3 d) (or_intror (conj eq_refl eq_refl))).
    - exact (proj2 (R3 d) (or_introl (ex_intro _ r eq_refl))).
  Qed.
  Lemma requested_options p : requested server p (request_options server p).
  Proof.
    constructor; cbn; auto.
    - destruct (pa_type p) as [|t r]; [ left; auto | right; exists r; reflexivity ].
    - destruct (pa_merge p) as [|t r]; [ left; auto | right; exists r; reflexivity ].
    - intro d. destruct (pa_default p) as [|d' r].
      + split; [ intro E; right; auto | intros [(r & E)|(_ & E)]; [ discriminate E | exact E ] ].
      + split; [ intro E; injection E as ->; left; eauto | intros [(r' & E)|(E & _)]; [ congruence | discriminate E ] ].
  Qed.
  Lemma request_silent p : silent (request_options server p).
  Proof. exact server_silent. Qed.

  Lemma at_key path key p F s : clean path = path -> lookup_path path key ->
    handled F (path, p) s =
    (let (o, s1) := look F (request_options server p) [key] s in
     (match o with
      | Ok (true, out) => Ok (Respond 200 out)
      | Ok (false, _) => Ok (http_error "404 value not found" 404)
      | Panic (EErr m) => Ok (http_error m 500)
      | Panic (EStr m) => Ok (http_error m 500)
      | Panic EOther => Panic EOther
      | Hang => Hang
      | NoFuel => NoFuel
      end, s1)).
  Proof.
    intros Hc Hk. unfold route. cbn [fst snd]. rewrite Hc. pose proof Hk as [Ep _].
    destruct (String.eqb_spec path "/lookup") as [Y|_]; [ rewrite Ep in Y; discriminate Y | ]. rewrite String.eqb_refl. cbn [negb].
    rewrite (proj2 (has_prefix_app "/lookup/" path) (ex_intro _ key Ep)).
    unfold do_lookup. rewrite (proj2 (key_of_path_spec path key) Hk). reflexivity.
  Qed.

  (** A path for which nothing is looked up, or a key. *)
  Lemma path_cases path p : (exists r, (forall F s, handled F (path, p) s = (r, s)) /\ r <> NoFuel /\ forall keys, responding keys (path, p) r) \/
    clean path = path /\ exists key, lookup_path path key.
  Proof.
    destruct (String.eqb_spec (clean path) "/lookup") as [E|N].
    { left. eexists. split; [ | split; [ | intro keys; exact (rs_no_key _ _ _ path p E) ] ]; [ | discriminate ].
      intros F s. unfold route. cbn [fst]. rewrite E. reflexivity. }
    destruct (String.eqb_spec (clean path) path) as [E|N2].
    2: { left. eexists. split; [ | split; [ | intro keys; exact (rs_unclean _ _ _ path p N N2) ] ]; [ | discriminate ].
         intros F s. unfold route. cbn [fst]. apply String.eqb_neq in N, N2. rewrite N, N2. reflexivity. }
    destruct (key_of_path path) as [key|] eqn:K; [ right; split; [ exact E | exists key; apply key_of_path_spec; exact K ] | left ].
    assert (No : forall key, ~ lookup_path path key) by (intros key H; apply key_of_path_spec in H; congruence).
    eexists. split; [ | split; [ | intro keys; exact (rs_elsewhere _ _ _ path p E ltac:(congruence) No) ] ]; [ | discriminate ].
    intros F s. unfold route. cbn [fst snd]. apply String.eqb_neq in N. rewrite N. rewrite E, String.eqb_refl. cbn [negb].
    unfold do_lookup. rewrite K. destruct (has_prefix "/lookup/" path); reflexivity.
  Qed.

  (** What is answered when LookupAndRender comes to this. *)
  Lemma answer_described keys path key p r : clean path = path -> lookup_path path key -> looking keys (request_options server p) [key] r ->
    responding keys (path, p)
     (match r with
      | Ok (true, out) => Ok (Respond 200 out)
      | Ok (false, _) => Ok (http_error "404 value not found" 404)
      | Panic (EErr m) => Ok (http_error m 500)
      | Panic (EStr m) => Ok (http_error m 500)
      | Panic EOther => Panic EOther
      | Hang => Hang
      | NoFuel => NoFuel
      end).
  Proof.
    intros Hc Hk Hl. pose proof (requested_options p) as Hr. destruct r as [[[|] out]|[m|m|]| |].
    - exact (rs_value _ _ _ path p key _ out Hc Hk Hr Hl).
    - exact (rs_nothing _ _ _ path p key _ out Hc Hk Hr Hl).
    - exact (rs_error _ _ _ path p key _ _ m Hc Hk Hr Hl (or_introl eq_refl)).
    - exact (rs_error _ _ _ path p key _ _ m Hc Hk Hr Hl (or_intror eq_refl)).
    - exact (rs_crash _ _ _ path p key _ Hc Hk Hr Hl).
    - exact (rs_never _ _ _ path p key _ Hc Hk Hr Hl).
    - destruct (looking_ends _ _ _ _ Hl eq_refl).
  Qed.

  Lemma responding_ends keys q r : responding keys q r -> r <> NoFuel.
  Proof. intros []; discriminate. Qed.

  Lemma request_sound F (P : st -> Prop) (keys : scope -> option entries -> (key -> outcome (option value) -> Prop) -> Prop) q r s : P s ->
    (forall sc mo other, is_wf_scope sc -> keys sc mo other -> exists Q, serves False P Q (engine_ask w F mo) other (invocation sc false s)) ->
    responding keys q r -> exists s', handled F q s = (r, s') /\ P s'.
  Proof.
    intros HP HK H.
    assert (K : forall path p key o a, clean path = path -> lookup_path path key -> requested server p o -> looking keys o [key] a ->
      exists s', look F (request_options server p) [key] s = (a, s') /\ P s').
    { intros path p key o a Hc Hk Hr Hl. rewrite (requested_is p o Hr) in Hl. exact (look_sound F P keys s HP _ [key] a HK (request_silent p) Hl). }
    destruct H as [path p E|path p N N2|path p E N No|path p key o out Hc Hk Hr Hl|path p key o out Hc Hk Hr Hl|path p key o x m Hc Hk Hr Hl Hx|path p key o Hc Hk Hr Hl|path p key o Hc Hk Hr Hl];
      try (destruct (K path p key o _ Hc Hk Hr Hl) as (s' & E & HP'); exists s'; rewrite (at_key path key p F s Hc Hk); rewrite E).
    - exists s. split; [ | exact HP ]. unfold route. cbn [fst]. rewrite E. reflexivity.
    - exists s. split; [ | exact HP ]. unfold route. cbn [fst]. apply String.eqb_neq in N, N2. rewrite N, N2. reflexivity.
    - exists s. split; [ | exact HP ]. unfold route. cbn [fst snd]. rewrite E. apply String.eqb_neq in N. rewrite N, String.eqb_refl. cbn [negb].
      unfold do_lookup. destruct (key_of_path path) as [key|] eqn:Ek; [ destruct (No key); apply key_of_path_spec; exact Ek | ].
      destruct (has_prefix "/lookup/" path); reflexivity.
    - auto.
    - auto.
    - split; [ | exact HP' ]. destruct Hx as [-> | ->]; reflexivity.
    - auto.
    - auto.
  Qed.

  Lemma request_total F (P : st -> Prop) (keys : scope -> option entries -> (key -> outcome (option value) -> Prop) -> Prop) q s : P s ->
    (forall sc mo, is_wf_scope sc -> exists other, keys sc mo other /\ decides P (engine_ask w F mo) other (invocation sc false s)) ->
    fst (handled F q s) = NoFuel \/ exists r s', responding keys q r /\ handled F q s = (r, s') /\ P s'.
  Proof.
    intros HP HT. destruct q as [path p]. destruct (path_cases path p) as [(r & E & _ & D)|(Hc & key & Hk)]; [ right; exists r, s; auto | ].
    rewrite (at_key path key p F s Hc Hk).
    destruct (look_total F P keys s HP (request_options server p) [key] HT (request_silent p)) as [E|(r & s' & Hl & E & HP')].
    - left. destruct (look F (request_options server p) [key] s) as [a s']. cbn [fst] in *. subst a. reflexivity.
    - right. rewrite E. eexists. exists s'. split; [ exact (answer_described keys path key p r Hc Hk Hl) | auto ].
  Qed.

  Lemma within_request n m q : n <= m -> within (handled n q) (handled m q).
  Proof.
    intros H s. destruct q as [path p]. destruct (path_cases path p) as [(r & E & _)|(Hc & key & Hk)]; [ right; rewrite !E; reflexivity | ].
    rewrite !(at_key path key p _ s Hc Hk). destruct (within_look n m (request_options server p) [key] H s) as [E|E].
    - left. destruct (look n (request_options server p) [key] s) as [a s']. cbn [fst] in *. subst a. reflexivity.
    - right. rewrite E. reflexivity.
  Qed.

  Notation all_handled F rs s := (respond (route (look F) server clean) rs s).
  Lemma responds_more n m : n <= m -> forall rs s, Forall (fun o => o <> NoFuel) (all_handled n rs s) -> all_handled m rs s = all_handled n rs s.
  Proof.
    intros H rs. induction rs as [|[path p] rs IH]; intros s Hf; [ reflexivity | ]. cbn [respond] in *.
    destruct (within_request n m (path, p) H s) as [E|E]; cbn [fst snd] in E.
    - destruct (route (look n) server clean path p s) as [o s1]. cbn [fst] in E. subst o. inversion Hf; congruence.
    - rewrite E. destruct (route (look n) server clean path p s) as [o s1]. inversion Hf; subst. f_equal. apply IH. assumption.
  Qed.

  (** *** With a configuration *)
  Section With.
    Variables (od : string -> bool) (mt : string -> list string) (cfg : cfg_file) (pre post : list lkfn) (c : config).
    Hypothesis Hst : asks w od mt cfg pre post.
    Hypothesis Hconf : config_new (w_env w) (w_cfgpath w) cfg = Ok c.
    Hypothesis Hw : dependable w.
    Let fs := pre ++ LkConfig :: post.

    Lemma with_sound n N rs os : n <= S (S N) -> Forall2 (responding (keys_with w od mt fs n c)) rs os -> forall s, fresh w c s ->
      all_handled (S (S (S (S N)))) rs s = os.
    Proof.
      intros HN H. induction H as [|[path p] r rs os Hq _ IH]; intros s Hs; [ reflexivity | ]. cbn [respond].
      destruct (request_sound (S (S (S (S N)))) (fresh w c) (keys_with w od mt fs n c) (path, p) r s Hs) as (s' & E & Hs'); [ | exact Hq | ].
      - intros sc mo other Hv Hk. exact (keys_serve w od mt cfg pre post c Hst Hconf Hw sc mo Hv n N other s HN Hs Hk).
      - cbn [fst snd] in E. rewrite E. f_equal. exact (IH s' Hs').
    Qed.
    Lemma with_total N : forall rs s, fresh w c s -> Forall (fun o => o <> NoFuel) (all_handled N rs s) ->
      Forall2 (responding (keys_with w od mt fs (S (S (S (S N)))) c)) rs (all_handled N rs s).
    Proof.
      induction rs as [|[path p] rs IH]; intros s Hs Hf; [ constructor | ]. cbn [respond] in *.
      destruct (request_total N (fresh w c) (keys_with w od mt fs (S (S (S (S N)))) c) (path, p) s Hs) as [E|(r & s' & Hr & E & Hs')].
      - intros sc mo Hv. exact (keys_decide w od mt cfg pre post c Hst Hconf Hw sc mo Hv N s Hs).
      - cbn [fst snd] in E. destruct (route (look N) server clean path p s) as [o s1]. cbn [fst] in E. subst o. inversion Hf; congruence.
      - cbn [fst snd] in E. rewrite E in *. inversion Hf; subst. constructor; [ exact Hr | apply IH; assumption ].
    Qed.
  End With.

  (** *** Without *)
  (** The answer to a request whose key ends in this failure. *)
  Definition refused_with (first : outcome (option value)) : outcome response :=
    match first with
    | Panic (EErr m) => Ok (http_error m 500)
    | Panic (EStr m) => Ok (http_error m 500)
    | Panic EOther => Panic EOther
    | Hang => Hang
    | _ => NoFuel
    end.
  Section Without.
    Variables (od : string -> bool) (mt : string -> list string) (cfg : cfg_file) (pre post : list lkfn) (x : err).
    Hypothesis Hst : asks w od mt cfg pre post.
    Hypothesis Hconf : config_new (w_env w) (w_cfgpath w) cfg = Panic x.
    Hypothesis Hw : dependable w.

    Lemma locked_fails first s : locked w x first s -> forall v, first <> Ok v.
    Proof. intros [[-> _]|[-> _]]; discriminate. Qed.
    Lemma locked_same first s : locked w x first s -> @same_failure (option value) (option value) first first.
    Proof. intros [[-> _]|[-> _]]; constructor. Qed.

    Lemma key_locked N mo sc name r ps first s : is_wf_scope sc -> locked w x first s -> written_key name (PStr r :: ps) -> r <> "lookup_options" ->
      exists s', run_lookup w (S (S N)) (mk_key name (PStr r :: ps)) mo (invocation sc false s) = (first, s') /\ locked w x Hang s'.
    Proof.
      intros Hv Hs Hps Hr. apply (locked_among w od mt cfg pre post x Hst Hconf Hw N (mk_request sc (mk_key name (PStr r :: ps)) mo) r ps first s); auto.
      split; [ exists r, ps; reflexivity | exact Hv ].
    Qed.

    Lemma without_serves N first s sc mo : is_wf_scope sc -> locked w x first s ->
      serves False (fun t => locked w x first t \/ locked w x Hang t) (eq (invocation sc false s)) (engine_ask w (S (S N)) mo) (fun _ o => o = first) (invocation sc false s).
    Proof.
      intros Hv Hs. apply plain_serves; [ left; exact Hs | ]. intros name r ps o Hps Hr ->.
      destruct (key_locked N mo sc name r ps first s Hv Hs Hps Hr) as (s' & E & Hs'). exists s'. split; [ exact E | ]. split; [ right; exact Hs' | exact (locked_fails _ _ Hs) ].
    Qed.
    Lemma nothing_serves N (P : st -> Prop) s sc mo : P (invocation sc false s) ->
      serves False P (eq (invocation sc false s)) (engine_ask w (S N) mo) (fun _ _ => False) (invocation sc false s).
    Proof. intro Hs. apply plain_serves; [ exact Hs | ]. intros name r ps o _ _ []. Qed.

    Hypothesis one_name : co_lookup_all server = false.

    (** A request that needs no configuration. *)
    Lemma unneeded_run N q r first s : locked w x first s -> responding no_keys q r ->
      exists s', handled (S (S N)) q s = (r, s') /\ locked w x first s'.
    Proof.
      intros Hs H. apply (request_sound (S (S N)) (locked w x first) no_keys q r s Hs); [ | exact H ].
      intros sc mo other _ ->. exists (eq (invocation sc false s)). apply nothing_serves. exact Hs.
    Qed.

    (** A request for a key that needs one, when everything else is in order. *)
    Lemma key_needed N path p key r ps t dv vars mo : clean path = path -> lookup_path path key -> written_key key (PStr r :: ps) -> r <> "lookup_options" ->
      asked_type any parse_type (request_options server p) t -> asked_default parse (request_options server p) dv ->
      scope_for (request_options server p) = Ok vars -> asked_merge (request_options server p) mo ->
      forall first s, locked w x first s -> exists s', responding (keys_without first) (path, p) (refused_with first) /\
        handled (S (S N)) (path, p) s = (refused_with first, s') /\ locked w x Hang s'.
    Proof.
      intros Hc Hk Hps Hr Ht Hd Hv Hm first s Hs. assert (One : co_lookup_all (request_options server p) = false) by exact one_name.
      assert (Hf : first_comes (fun _ o => o = first) [key] first) by (apply fc_fails with (o := first); [ exact (nc_key _ _ r ps first Hps Hr eq_refl) | exact (locked_same _ _ Hs) ]).
      assert (G : exists a, @same_failure (option value) (bool * string) first a /\ refused_with first = match a with
        | Ok (true, out) => Ok (Respond 200 out) | Ok (false, _) => Ok (http_error "404 value not found" 404)
        | Panic (EErr m) => Ok (http_error m 500) | Panic (EStr m) => Ok (http_error m 500) | Panic EOther => Panic EOther
        | Hang => Hang | NoFuel => NoFuel end).
      { destruct Hs as [[-> _]|[-> _]]; [ exists (Panic x) | exists Hang ]; (split; [ constructor | ]); [ destruct x | ]; reflexivity. }
      destruct G as (a & G & ->).
      assert (Hl : looking (keys_without first) (request_options server p) [key] a).
      { refine (lu_found _ _ _ _ _ _ _ _ _ _ _ _ _ t dv vars mo (fun _ o => o = first) first a Ht Hd Hv Hm eq_refl _ _).
        - exact (fo_fails _ _ _ _ _ _ _ _ first first One Hf (locked_same _ _ Hs)).
        - exact (wn_failed _ _ _ _ G). }
      destruct (key_locked N mo (ScNest session vars) key r ps first s (scope_values _ vars Hv) Hs Hps Hr) as (s' & E & Hs').
      assert (L : look (S (S N)) (request_options server p) [key] s = (a, s')).
      { rewrite (look_late inst conv any parse_type struct_of parse file stdin render render_explainer session (engine_ask w (S (S N))) (request_options server p) [key] t dv vars mo s
                   (proj1 (request_silent p)) (proj2 (request_silent p)) Ht Hd Hv Hm).
        rewrite <- (ask_key w (S (S N)) mo key _ _ Hps) in E. unfold find_step. rewrite One. unfold lookup2. cbn [lookup_in_map ask_each].
        apply (same_failure_bind _ _ _ first); [ | exact G ].
        apply (same_failure_bind _ _ _ first); [ | exact (locked_same _ _ Hs) ]. apply (same_failure_bind _ _ _ first); [ exact E | exact (locked_same _ _ Hs) ]. }
      exists s'. split; [ exact (answer_described _ path key p a Hc Hk Hl) | ]. split; [ | exact Hs' ].
      rewrite (at_key path key p _ s Hc Hk). rewrite L. reflexivity.
    Qed.

    (** Either it needs none, or it ends as the first one that does. *)
    Lemma request_needs N q : (exists r, responding no_keys q r) \/
      forall first s, locked w x first s -> exists r s', responding (keys_without first) q r /\ handled (S (S N)) q s = (r, s') /\ locked w x Hang s'.
    Proof.
      destruct q as [path p]. destruct (path_cases path p) as [(r & _ & _ & D)|(Hc & key & Hk)]; [ left; exists r; apply D | ].
      destruct (look_cases inst conv any parse_type struct_of parse file stdin render render_explainer session (engine_ask w (S (S N))) Htypes Hparse (request_options server p) [key])
        as [(y & _ & D)|(t & dv & vars & mo & Ht & Hd & Hv & Hm)]; [ left; eexists; exact (answer_described no_keys path key p _ Hc Hk (D no_keys)) | ].
      assert (Found : forall (keys : scope -> option entries -> (Key.key -> outcome (option value) -> Prop) -> Prop) other o, keys (ScNest session vars) mo other -> found_comes inst conv struct_of other (request_options server p) [key] t dv o ->
        exists r, looking keys (request_options server p) [key] r /\ (forall r', same_failure o r' -> r = r')).
      { intros keys other o Hko Hf. destruct (written_total render Hrender (format_of (request_options server p)) o (found_ends _ _ _ _ _ _ Hf)) as (r & Hr).
        exists r. split; [ exact (lu_found _ _ _ _ _ _ _ _ _ _ _ _ _ t dv vars mo other o r Ht Hd Hv Hm Hko Hf Hr) | ].
        intros r' Hsf. inversion Hr; subst; inversion Hsf; subst; try reflexivity; match goal with H : same_failure _ _ |- _ => inversion H; subst; reflexivity end. }
      assert (One : co_lookup_all (request_options server p) = false) by exact one_name.
      destruct (name_decided key) as [(y & Hy)|[(ps & Hps)|(r & ps & Hps & Hr)]].
      - left. destruct (Found no_keys (fun _ _ => False) (Panic y) eq_refl) as (r & Hl & _).
        { apply fo_fails with (o := Panic y); [ exact One | | constructor ]. apply fc_fails with (o := Panic y); [ exact (nc_misspelt _ _ y Hy) | constructor ]. }
        eexists. exact (answer_described no_keys path key p r Hc Hk Hl).
      - left. assert (Hf : first_comes (fun _ _ => False) [key] (Ok None)) by (apply fc_next; [ exact (nc_options _ _ ps Hps) | apply fc_none ]).
        assert (Hex : exists o, found_comes inst conv struct_of (fun _ _ => False) (request_options server p) [key] t dv o).
        { destruct dv as [v|]; [ | eexists; exact (fo_nothing _ _ _ _ _ _ _ _ One Hf eq_refl) ].
          destruct (typed_works inst conv Hconv (Some t) (Some v)) as (o & Ho & _). exists o. exact (fo_default _ _ _ _ _ _ _ _ v o One Hf eq_refl Ho). }
        destruct Hex as (o & Ho). destruct (Found no_keys _ o eq_refl Ho) as (r & Hl & _).
        eexists. exact (answer_described no_keys path key p r Hc Hk Hl).
      - right. intros first s Hs. exists (refused_with first). exact (key_needed N path p key r ps t dv vars mo Hc Hk Hps Hr Ht Hd Hv Hm first s Hs).
    Qed.

    Lemma needed_not N q : (forall first s, locked w x first s -> exists r s', responding (keys_without first) q r /\ handled (S (S N)) q s = (r, s') /\ locked w x Hang s') ->
      forall r, ~ responding no_keys q r.
    Proof.
      intros H r Hr. assert (L : locked w x (Panic x) (init_st session None)) by (left; auto).
      destruct (H _ _ L) as (r1 & s1 & _ & E & L1). destruct (unneeded_run N q r _ _ L Hr) as (s2 & E2 & L2). rewrite E in E2. injection E2 as _ <-.
      destruct L1 as [[C _]|[_ L1]]; [ discriminate C | ]. destruct L2 as [[_ L2]|[C _]]; [ congruence | discriminate C ].
    Qed.

    Lemma without_run N first rs os : responses_without inst conv any parse_type struct_of parse file stdin render clean session server first rs os ->
      forall s, locked w x first s -> all_handled (S (S N)) rs s = os.
    Proof.
      induction 1 as [first|first [path p] r rs os Hr H IH|first [path p] r rs os Hno Hr H IH]; intros s Hs; [ reflexivity | | ]; cbn [respond].
      - destruct (unneeded_run N (path, p) r first s Hs Hr) as (s' & E & Hs'). cbn [fst snd] in E. rewrite E. f_equal. exact (IH s' Hs').
      - destruct (request_needs N (path, p)) as [(r' & C)|K]; [ destruct (Hno r' C) | ].
        destruct (K first s Hs) as (r' & s' & _ & E & Hs').
        destruct (request_sound (S (S N)) (fun t => locked w x first t \/ locked w x Hang t) (keys_without first) (path, p) r s (or_introl Hs)) as (s2 & E2 & _); [ | exact Hr | ].
        + intros sc mo other Hv ->. eexists. exact (without_serves N first s sc mo Hv Hs).
        + rewrite E in E2. injection E2 as -> _. cbn [fst snd] in E. rewrite E. f_equal. exact (IH s' Hs').
    Qed.
    Lemma without_all : forall rs first s, locked w x first s ->
      exists os, responses_without inst conv any parse_type struct_of parse file stdin render clean session server first rs os.
    Proof.
      induction rs as [|q rs IH]; intros first s Hs; [ exists []; constructor | ].
      destruct (request_needs 0 q) as [(r & Hr)|K].
      - destruct (IH first s Hs) as (os & Ho). exists (r :: os). exact (rw_unneeded _ _ _ _ _ _ _ _ _ _ _ _ _ q r rs os Hr Ho).
      - destruct (K first s Hs) as (r & s' & Hr & _ & Hs'). destruct (IH Hang s' Hs') as (os & Ho). exists (r :: os).
        exact (rw_needed _ _ _ _ _ _ _ _ _ _ _ _ _ q r rs os (needed_not 0 q K) Hr Ho).
    Qed.
    Lemma without_end first rs os : responses_without inst conv any parse_type struct_of parse file stdin render clean session server first rs os ->
      Forall (fun o => o <> NoFuel) os.
    Proof. induction 1 as [first|first q r rs os Hr H IH|first q r rs os Hno Hr H IH]; constructor; try assumption; exact (responding_ends _ _ _ Hr). Qed.
  End Without.
End Looks.

(** ** The programs *)

(** Types, values and conversions give results or errors, texts and files are read
    as maps in which no key is there twice. *)
Record usable {T : Type} (conv : T -> option value -> outcome (option value)) (parse_type : string -> outcome T) (parse : string -> outcome value)
  (file : string -> var_file) (stdin : var_file) (render : string -> value -> outcome string) : Prop := mk_usable {
  us_conv : forall t v, works (conv t v);
  us_types : forall t, works (parse_type t);
  us_parse : forall t, works (parse t);
  us_render : forall f v, works (render f v);
  us_values : forall t v, parse t = Ok v -> wf v = true;
  us_files : forall p m, file p = VfMap m -> wfm m;
  us_stdin : forall m, stdin = VfMap m -> wfm m
}.

Lemma empty_wf : is_wf_scope (ScMap []).
Proof. intros x v H. discriminate H. Qed.
Section Looked.
  Context {T : Type}.
  Variable inst : T -> option value -> bool.
  Variable conv : T -> option value -> outcome (option value).
  Variable any : T.
  Variable parse_type : string -> outcome T.
  Variable struct_of : T -> option (list (string * T)).
  Variable parse : string -> outcome value.
  Variable file : string -> var_file.
  Variable stdin : var_file.
  Variable render : string -> value -> outcome string.
  Variable render_explainer : string -> M st string.
  Variable w : world.
  Variables (od : string -> bool) (mt : string -> list string) (cfg : cfg_file) (pre post : list lkfn).
  Hypothesis Hst : asks w od mt cfg pre post.
  Hypothesis Hw : dependable w.
  Hypothesis Hu : usable conv parse_type parse file stdin render.
  Let fs := pre ++ LkConfig :: post.
  Notation look F := (lookup_and_render inst conv any parse_type struct_of parse file stdin (engine_invoke (ScMap [])) (engine_ask w F) render render_explainer).
  Notation coming := (look_comes inst conv any parse_type struct_of parse file stdin render (ScMap []) w od mt cfg fs).

  Lemma coming_run n N opts args r : n <= S (S N) -> silent opts -> coming n opts args r ->
    fst (look (S (S (S (S N)))) opts args (init_st (ScMap []) None)) = r.
  Proof.
    intros HN Hs H. destruct Hu as [U1 U2 U3 U4 U5 U6 U7].
    assert (K : exists s', look (S (S (S (S N)))) opts args (init_st (ScMap []) None) = (r, s') /\ True); [ | destruct K as (s' & -> & _); reflexivity ].
    destruct H as [c Hc H|x Hx H].
    - eapply (look_sound inst conv any parse_type struct_of parse file stdin render render_explainer (ScMap []) w U5 U6 U7 empty_wf _ (fun _ => True)); [ exact I | | exact Hs | exact H ].
      intros sc mo other Hv Hk. destruct (keys_serve w od mt cfg pre post c Hst Hc Hw sc mo Hv n N other (init_st (ScMap []) None) HN (or_introl eq_refl) Hk) as (Q & [Q1 Q2 Q3]).
      exists Q. constructor; [ exact Q1 | auto | ]. intros name o t Hn Ht. destruct (Q3 name o t Hn Ht) as [[[] _]|(s' & E & _ & G)]. right. exists s'. auto.
    - assert (L : locked w x (Panic x) (init_st (ScMap []) None)) by (left; auto).
      eapply (look_sound inst conv any parse_type struct_of parse file stdin render render_explainer (ScMap []) w U5 U6 U7 empty_wf _ (fun _ => True)); [ exact I | | exact Hs | exact H ].
      intros sc mo other Hv ->. pose proof (without_serves w od mt cfg pre post x Hst Hx Hw (S (S N)) (Panic x) _ sc mo Hv L) as [Q1 Q2 Q3].
      eexists. constructor; [ exact Q1 | auto | ]. intros name o t Hn Ht. destruct (Q3 name o t Hn Ht) as [[[] _]|(s' & E & _ & G)]. right. exists s'. auto.
  Qed.

  Lemma coming_total N opts args : silent opts -> fst (look N opts args (init_st (ScMap []) None)) = NoFuel \/
    coming (S (S (S (S N)))) opts args (fst (look N opts args (init_st (ScMap []) None))).
  Proof.
    intro Hs. destruct Hu as [U1 U2 U3 U4 U5 U6 U7].
    destruct (ends_config (w_env w) (w_cfgpath w) cfg) as [(c & Hc)|(x & Hx)].
    - destruct (look_total inst conv any parse_type struct_of parse file stdin render render_explainer (ScMap []) w U1 U2 U3 U4 U5 U6 U7 empty_wf
                  N (fresh w c) (keys_with w od mt fs (S (S (S (S N)))) c) (init_st (ScMap []) None) (or_introl eq_refl) opts args) as [E|(r & s' & H & E & _)].
      + intros sc mo Hv. exact (keys_decide w od mt cfg pre post c Hst Hc Hw sc mo Hv N (init_st (ScMap []) None) (or_introl eq_refl)).
      + exact Hs.
      + left. exact E.
      + right. rewrite E. exact (lc_config _ _ _ _ _ _ _ _ _ _ _ _ _ _ _ _ _ _ _ c Hc H).
    - assert (L : locked w x (Panic x) (init_st (ScMap []) None)) by (left; auto).
      destruct (look_total inst conv any parse_type struct_of parse file stdin render render_explainer (ScMap []) w U1 U2 U3 U4 U5 U6 U7 empty_wf
                  N (fun t => locked w x (Panic x) t \/ locked w x Hang t) (keys_without (Panic x)) (init_st (ScMap []) None) (or_introl L) opts args) as [E|(r & s' & H & E & _)].
      + intros sc mo Hv. eexists. split; [ reflexivity | ]. constructor.
        * eexists. split; [ refine (serves_loosely w N (S (S N)) _ _ _ _ _ _ (without_serves w od mt cfg pre post x Hst Hx Hw N (Panic x) _ sc mo Hv L)); lia | ].
          intros name t _. right. destruct (name_decided name) as [(y & Hy)|[(ps & Hps)|(r & ps & Hps & Hr)]];
            eexists; [ exact (nc_misspelt _ _ y Hy) | exact (nc_options _ _ ps Hps) | exact (nc_key _ _ r ps _ Hps Hr eq_refl) ].
        * intros name o [y Hy|ps Hps|r ps o' Hps Hr ->]; discriminate.
      + exact Hs.
      + left. exact E.
      + right. rewrite E. exact (lc_no_config _ _ _ _ _ _ _ _ _ _ _ _ _ _ _ _ _ _ _ x Hx H).
  Qed.

  Lemma coming_ends n opts args r : coming n opts args r -> r <> NoFuel.
  Proof. destruct Hu as [U1 _ _ _ _ _ _]. intros [c Hc H|x Hx H]; exact (looking_ends inst conv any parse_type struct_of parse file stdin render (ScMap []) _ _ _ _ H). Qed.

  (** The command waits for nothing. *)
  Lemma coming_no_hang n opts args r : coming n opts args r -> r <> Hang.
  Proof.
    destruct Hu as [U1 U2 U3 U4 U5 U6 U7].
    assert (G : forall keys : scope -> option entries -> (key -> outcome (option value) -> Prop) -> Prop,
      (forall sc mo other, keys sc mo other -> forall k, ~ other k Hang) ->
      looked_up inst conv any parse_type struct_of parse file stdin render keys (ScMap []) opts args r -> r <> Hang).
    { intros keys Hk H. destruct H as [x N E|t x Ht Hx|t dv x Ht Hd Hx|t dv vars mo other o r Ht Hd Hv Hm Ho Hf Hwr]; try discriminate.
      assert (Nn : forall name, ~ name_comes other name Hang).
      { intros name Hn. remember Hang as h eqn:Eh. destruct Hn as [y Hy|ps Hps|r0 ps o0 Hps Hr Ho0]; try discriminate Eh. subst. exact (Hk _ _ _ Ho _ Ho0). }
      assert (N1 : forall names o0, first_comes other names o0 -> o0 <> Hang).
      { intros names o0 Hc. induction Hc as [|n0 l v Hn|n0 l o0 Hn _ IH|n0 l o0 o' Hn Hsf]; try discriminate; [ exact IH | ].
        destruct Hsf as [y|]; [ discriminate | destruct (Nn _ Hn) ]. }
      assert (Ty : forall ty v q, of_type inst conv ty v q -> q <> Hang).
      { intros ty v q [v0|t0 v0 E|t0 v0 r0 E C]; [ discriminate | discriminate | ]. subst. destruct (U1 t0 v0) as [(a & ->)|(x & ->)]; discriminate. }
      assert (N2 : forall types name o0, entry_comes other inst conv types name o0 -> o0 <> Hang).
      { intros types name o0 [Hn|o1 o' Hn Hsf|v t0 q Hn Ht0 Hq|v t0 q o1 Hn Ht0 Hq Hsf|v l Hn El Hin]; try discriminate.
        - destruct Hsf as [y|]; [ discriminate | destruct (Nn _ Hn) ].
        - destruct Hsf as [y|]; [ discriminate | destruct (Ty _ _ _ Hq eq_refl) ]. }
      assert (No : o <> Hang).
      { destruct Hf as [v q L Hf Hq|v q L Hf -> Hq|L Hf ->|o1 o' L Hf Hsf|o1 L Hc Ha|L N E]; try discriminate.
        - exact (Ty _ _ _ Hq).
        - exact (Ty _ _ _ Hq).
        - destruct Hsf as [y|]; [ discriminate | destruct (N1 _ _ Hf eq_refl) ].
        - destruct Ha as [shown He|pr nm po o2 o' _ _ He Hsf]; [ discriminate | ]. destruct Hsf as [y|]; [ discriminate | destruct (N2 _ _ _ He eq_refl) ]. }
      destruct Hwr as [|v out E|v o1 r1 E Hsf|o1 r1 Hsf]; try discriminate.
      - destruct Hsf as [y|]; [ discriminate | ]. destruct (U4 (format_of opts) v) as [(a & E2)|(y & E2)]; unfold format_of in E2; congruence.
      - destruct Hsf as [y|]; [ discriminate | destruct (No eq_refl) ]. }
    intros [c Hc H|x Hx H]; refine (G _ _ H).
    - intros sc mo other [es all Hh Ha|y Hy|es y Hh Hy|] k; cbn; try discriminate; tauto.
    - intros sc mo other -> k. discriminate.
  Qed.

  Lemma coming_one n n' opts args r r' : silent opts -> coming n opts args r -> coming n' opts args r' -> r = r'.
  Proof.
    intros Hs H H'.
    assert (A : forall m q, coming m opts args q -> forall M, m <= M -> fst (look (S (S (S (S M)))) opts args (init_st (ScMap []) None)) = q)
      by (intros m q Hq M HM; apply (coming_run m M opts args q); [ lia | exact Hs | exact Hq ]).
    rewrite <- (A n r H (n + n') ltac:(lia)). exact (A n' r' H' (n + n') ltac:(lia)).
  Qed.
End Looked.

Section Programs.
  Context {T : Type}.
  Variable inst : T -> option value -> bool.
  Variable conv : T -> option value -> outcome (option value).
  Variable any : T.
  Variable parse_type : dialect -> string -> outcome T.
  Variable struct_of : T -> option (list (string * T)).
  Variable parse : dialect -> string -> outcome value.
  Variable file : string -> var_file.
  Variable stdin : var_file.
  Variable render : string -> value -> outcome string.
  Variable render_explainer : string -> M st string.
  Variable outside : dialect -> world.
  Variable show : value -> string.
  Hypothesis show_text : forall t, show (VStr t) = t.
  Variable env : environ.
  Variable cwd : string.
  Variable kill : M process unit.
  Hypothesis kill_quiet : forall q, exists q', kill q = (Ok tt, q') /\ pr_out q' = pr_out q.
  Variable usage version : string.

  Notation prog fuel := (program inst conv any parse_type struct_of parse file stdin render render_explainer outside show env (Ok cwd) kill fuel usage version).
  Notation world_for d path := (session_world (outside d) LkMux path [LkConfig; LkEnv]).
  Notation look d path F := (lookup_and_render inst conv any (parse_type d) struct_of (parse d) file stdin (engine_invoke (ScMap []))
                               (engine_ask (world_for d path) F) render render_explainer).

  (** A command line whose settings and names are these, that asks for no help, no
      version and no explanation. *)
  Record asks_for (args : list string) (o : command_options) (d : dialect) (path : string) (names : list string) : Prop := mk_asks_for {
    af_read : exists ss dialect config, SpecFlags.reads args ss names /\ SpecFlags.sensible ss /\ ~ switched "help" ss /\ ~ switched "version" ss /\
      ~ switched "explain" ss /\ ~ switched "explain-options" ss /\ P_Flags.options_from ss o dialect config /\
      dialect_named dialect d /\ used_config env cwd config path;
    af_names : names <> []
  }.

  Lemma asked_silent args o d path names : asks_for args o d path names -> silent o.
  Proof.
    intros [(ss & dialect & config & _ & _ & _ & _ & He & Heo & Ho & _) _]. split.
    - destruct (co_explain_data o) eqn:X; [|reflexivity]. elim He. apply (P_Flags.of_explain _ _ _ _ Ho). exact X.
    - destruct (co_explain_options o) eqn:X; [|reflexivity]. elim Heo. apply (P_Flags.of_options _ _ _ _ Ho). exact X.
  Qed.

  (** How the command ends, from what LookupAndRender comes to. *)
  Lemma command_run args o d path names F p : asks_for args o d path names ->
    exists q, prog F args p =
      (match fst (look d path F o names (init_st (ScMap []) None)) with
       | Ok _ => Ok 0
       | Panic EOther => Panic EOther
       | Panic _ => Ok 1
       | Hang => Hang
       | NoFuel => NoFuel
       end, q) /\
      pr_out q = (pr_out p ++ match fst (look d path F o names (init_st (ScMap []) None)) with Ok (_, out) => out | _ => "" end)%string.
  Proof.
    intros [(ss & dialect & config & Hr & Hs & Hh & Hv & He & Heo & Ho & Hd & Hu) Hn].
    assert (E : snd (execute first_flags args) = AcLookup o dialect config names).
    { rewrite (P_Flags.C77_program first_flags args). apply (proj2 (P_Flags.C77_lookup first_flags args o dialect config names)).
      exists ss. auto 10. }
    unfold program. rewrite E. unfold main, cmd_lookup. destruct names as [|x names]; [ contradiction | ].
    set (cfg := (VStr "Hiera::Dialect", VStr dialect) :: (if String.eqb config "" then [] else [(VStr "Hiera::Config", VStr config)])).
    assert (Hc : session_options dialect config cfg).
    { unfold cfg. destruct (String.eqb_spec config "") as [Y|Y]; [ rewrite Y; apply so_default; reflexivity | apply so_config; exact Y ]. }
    unfold bind at 1, try_with_parent, catch. unfold bind at 1. rewrite (session_made outside show show_text env cwd dialect config cfg d path p Hd Hu Hc).
    unfold deferred, render_in. unfold bind at 1. unfold bind at 1. unfold in_session at 1. cbn [pr_session pr_out].
    destruct (look d path F o (x :: names) (init_st (ScMap []) None)) as [[[b out]|[m|m|]| |] s']; cbn [fst snd].
    - unfold bind, to_output. cbn [pr_out pr_session ret]. destruct (kill_quiet (mk_process_state (pr_out p ++ out) s')) as (q & K & Kq).
      unfold ret. cbn. rewrite K. exists q. split; [ reflexivity | exact Kq ].
    - destruct (kill_quiet (mk_process_state (pr_out p) s')) as (q & K & Kq). rewrite K. exists q. split; [ reflexivity | ]. rewrite Kq. symmetry. apply KeyFacts.app_nil_s.
    - destruct (kill_quiet (mk_process_state (pr_out p) s')) as (q & K & Kq). rewrite K. exists q. split; [ reflexivity | ]. rewrite Kq. symmetry. apply KeyFacts.app_nil_s.
    - destruct (kill_quiet (mk_process_state (pr_out p) s')) as (q & K & Kq). rewrite K. exists q. split; [ reflexivity | ]. rewrite Kq. symmetry. apply KeyFacts.app_nil_s.
    - eexists. split; [ reflexivity | ]. cbn. symmetry. apply KeyFacts.app_nil_s.
    - eexists. split; [ reflexivity | ]. cbn. symmetry. apply KeyFacts.app_nil_s.
  Qed.

  Lemma exits_as (r : outcome (bool * string)) o out : r <> Hang -> r <> NoFuel ->
    (exits r o out <-> match r with Ok _ => Ok 0 | Panic EOther => Panic EOther | Panic _ => Ok 1 | Hang => Hang | NoFuel => NoFuel end = o /\
                       match r with Ok (_, t) => t | _ => "" end = out).
  Proof.
    intros N1 N2. destruct r as [[b t]|[m|m|]| |]; try contradiction; split;
      try (intro H; inversion H; subst; auto; match goal with K : _ \/ _ |- _ => destruct K; discriminate end);
      intros [<- <-]; try (apply ex_written); try (apply ex_crash); eapply ex_error; [ left; reflexivity | right; reflexivity ].
  Qed.

  (** ** C87, the command

      How a command ends and what it writes is exactly what the description says,
      whatever is in its files, on its command line and in the values: there is a
      number of steps after which it has ended like this if and only if the
      description has this exit status and this text. *)
  Theorem C87_command : forall args o d path names on_disk matching cfg status out p,
    asks_for args o d path names -> asks (world_for d path) on_disk matching cfg [] [LkEnv] -> dependable (world_for d path) ->
    usable conv (parse_type d) (parse d) file stdin render ->
    ((exists N q, prog N args p = (status, q) /\ status <> NoFuel /\ pr_out q = (pr_out p ++ out)%string) <->
     exists n r, look_comes inst conv any (parse_type d) struct_of (parse d) file stdin render (ScMap []) (world_for d path) on_disk matching cfg
                   ([] ++ LkConfig :: [LkEnv]) n o names r /\ exits r status out).
  Proof.
    intros args o d path names od mt cfg status out p Ha Hst Hw Hu. pose proof (asked_silent _ _ _ _ _ Ha) as Hs. split.
    - intros (N & q & E & Ne & Eo). destruct (command_run args o d path names N p Ha) as (q' & E' & Eo'). rewrite E' in E. injection E as Est <-.
      rewrite Eo' in Eo. apply app_inj_l in Eo.
      destruct (coming_total inst conv any (parse_type d) struct_of (parse d) file stdin render render_explainer (world_for d path) od mt cfg [] [LkEnv] Hst Hw Hu N o names Hs) as [C|C].
      + rewrite C in Est. congruence.
      + exists (S (S (S (S N)))), (fst (look d path N o names (init_st (ScMap []) None))). split; [ exact C | ].
        apply exits_as; [ | | split; [ exact Est | exact Eo ] ].
        * exact (coming_no_hang inst conv any (parse_type d) struct_of (parse d) file stdin render (world_for d path) od mt cfg [] [LkEnv] Hu _ _ _ _ C).
        * intro Z. rewrite Z in Est. congruence.
    - intros (n & r & C & X).
      pose proof (coming_run inst conv any (parse_type d) struct_of (parse d) file stdin render render_explainer (world_for d path) od mt cfg [] [LkEnv] Hst Hw Hu n n o names r ltac:(lia) Hs C) as R.
      apply exits_as in X.
      + destruct X as [X1 X2]. exists (S (S (S (S n)))). destruct (command_run args o d path names (S (S (S (S n)))) p Ha) as (q & E & Eo).
        rewrite R, X1 in E. rewrite R, X2 in Eo. exists q. split; [ exact E | ]. split; [ | exact Eo ].
        intros ->. destruct r as [[b t]|[m|m|]| |]; try discriminate X1. exact (coming_ends inst conv any (parse_type d) struct_of (parse d) file stdin render (world_for d path) od mt cfg [] [LkEnv] Hu _ _ _ _ C eq_refl).
      + exact (coming_no_hang inst conv any (parse_type d) struct_of (parse d) file stdin render (world_for d path) od mt cfg [] [LkEnv] Hu _ _ _ _ C).
      + exact (coming_ends inst conv any (parse_type d) struct_of (parse d) file stdin render (world_for d path) od mt cfg [] [LkEnv] Hu _ _ _ _ C).
  Qed.

  (** A command never ends exactly if the description has nothing for it. *)
  Theorem C87_command_endless : forall args o d path names on_disk matching cfg p,
    asks_for args o d path names -> asks (world_for d path) on_disk matching cfg [] [LkEnv] -> dependable (world_for d path) ->
    usable conv (parse_type d) (parse d) file stdin render ->
    ((forall N, fst (prog N args p) = NoFuel) <->
     ~ exists n r, look_comes inst conv any (parse_type d) struct_of (parse d) file stdin render (ScMap []) (world_for d path) on_disk matching cfg
                     ([] ++ LkConfig :: [LkEnv]) n o names r).
  Proof.
    intros args o d path names od mt cfg p Ha Hst Hw Hu. pose proof (asked_silent _ _ _ _ _ Ha) as Hs. split.
    - intros H (n & r & C). specialize (H (S (S (S (S n))))). destruct (command_run args o d path names (S (S (S (S n)))) p Ha) as (q & E & _). rewrite E in H. cbn [fst] in H.
      rewrite (coming_run inst conv any (parse_type d) struct_of (parse d) file stdin render render_explainer (world_for d path) od mt cfg [] [LkEnv] Hst Hw Hu n n o names r ltac:(lia) Hs C) in H.
      destruct r as [[b t]|[m|m|]| |]; try discriminate H. exact (coming_ends inst conv any (parse_type d) struct_of (parse d) file stdin render (world_for d path) od mt cfg [] [LkEnv] Hu _ _ _ _ C eq_refl).
    - intros H N. destruct (command_run args o d path names N p Ha) as (q & E & _). rewrite E. cbn [fst].
      destruct (coming_total inst conv any (parse_type d) struct_of (parse d) file stdin render render_explainer (world_for d path) od mt cfg [] [LkEnv] Hst Hw Hu N o names Hs) as [C|C].
      + rewrite C. reflexivity.
      + elim H. eauto.
  Qed.

  (** The description has one outcome at most. *)
  Theorem C87_one_outcome : forall o d path names on_disk matching cfg n n' r r',
    silent o -> asks (world_for d path) on_disk matching cfg [] [LkEnv] -> dependable (world_for d path) ->
    usable conv (parse_type d) (parse d) file stdin render ->
    look_comes inst conv any (parse_type d) struct_of (parse d) file stdin render (ScMap []) (world_for d path) on_disk matching cfg
      ([] ++ LkConfig :: [LkEnv]) n o names r ->
    look_comes inst conv any (parse_type d) struct_of (parse d) file stdin render (ScMap []) (world_for d path) on_disk matching cfg
      ([] ++ LkConfig :: [LkEnv]) n' o names r' -> r = r'.
  Proof.
    intros o d path names od mt cfg n n' r r' Hs Hst Hw Hu.
    exact (coming_one inst conv any (parse_type d) struct_of (parse d) file stdin render render_explainer (world_for d path) od mt cfg [] [LkEnv] Hst Hw Hu n n' o names r r' Hs).
  Qed.

  (** ** C87, the service *)
  Variable clean : string -> string.
  Variable parse_int : string -> option Z.
  Variable load_pair : string -> string -> bool.
  Variable load_pool : string -> bool.
  Notation serves fuel := (service inst conv any parse_type struct_of parse file stdin render render_explainer outside show env (Ok cwd) fuel
                             clean parse_int load_pair load_pool).

  (** A command line of the service that lets it serve, with this configuration
      and these options for all requests. *)
  Definition starts (args : list string) (config : string) (opts : command_options) (address : string) (l : listening) : Prop :=
    exists ss, SpecRestArgs.reads args ss [] /\ SpecRestArgs.acceptable parse_int ss /\ ~ switched "help" ss /\
      P_RestArgs.started_from parse_int load_pair load_pool ss config opts address (Ok l).

  Lemma service_run args config opts address l : starts args config opts address l ->
    silent opts /\ co_lookup_all opts = false /\ exists address', forall F rs, serves F args rs =
      Some (address', l, respond (route (look DDgo config F) opts clean) rs (init_st (ScMap []) None)).
  Proof.
    intros (ss & Hr & Ha & Hh & Hst).
    destruct (proj2 (P_RestArgs.C78_started parse_int load_pair load_pool args) ss Hr Ha Hh) as (c' & o' & address' & l' & E & S).
    destruct (started_same inst conv any struct_of file render render_explainer cwd clean parse_int load_pair load_pool _ _ _ _ _ _ _ _ _ Hst S) as (-> & -> & ->).
    destruct (P_RestArgs.st_options _ _ _ _ _ _ _ _ Hst) as (vars & var & _ & _ & Eo).
    split; [ rewrite Eo; split; reflexivity | ]. split; [ rewrite Eo; reflexivity | ]. exists address'. intros F rs.
    unfold service. rewrite E.
    assert (M : fst (make_session outside show env (Ok cwd) [(VStr "Hiera::Config", VStr config)] LkMux [LkConfig; LkEnv]
                       (mk_process_state "" (init_st (ScMap []) None))) =
                Ok (DDgo, session_world (outside DDgo) LkMux config [LkConfig; LkEnv], ScMap [])).
    { unfold make_session, new_session, config_path. cbn. rewrite show_text. reflexivity. }
    rewrite M. reflexivity.
  Qed.

  (** Any number of requests, one after the other: the responses, if all of them
      are answered or wait for ever, are exactly those of the description. *)
  Theorem C87_service : forall args config opts address l on_disk matching cfg rs os,
    starts args config opts address l -> asks (world_for DDgo config) on_disk matching cfg [] [LkEnv] -> dependable (world_for DDgo config) ->
    usable conv (parse_type DDgo) (parse DDgo) file stdin render ->
    ((exists N a, serves N args rs = Some (a, l, os) /\ Forall (fun r => r <> NoFuel) os) <->
     exists n, service_comes inst conv any (parse_type DDgo) struct_of (parse DDgo) file stdin render clean (ScMap []) opts (world_for DDgo config)
                 on_disk matching cfg ([] ++ LkConfig :: [LkEnv]) n rs os).
  Proof.
    intros args config opts address l od mt cfg rs os Hargs Hst Hw [U1 U2 U3 U4 U5 U6 U7].
    destruct (service_run args config opts address l Hargs) as (Hs & Hl & a & Run).
    destruct (ends_config (w_env (world_for DDgo config)) (w_cfgpath (world_for DDgo config)) cfg) as [(c & Hc)|(x & Hx)].
    - assert (Fr : fresh (world_for DDgo config) c (init_st (ScMap []) None)) by (left; reflexivity). split.
      + intros (N & a' & E & Hf). rewrite Run in E. injection E as _ <-. exists (S (S (S (S N)))). apply sv_config with (c := c); [ exact Hc | ].
        exact (with_total inst conv any (parse_type DDgo) struct_of (parse DDgo) file stdin render render_explainer (ScMap []) (world_for DDgo config)
                 U1 U2 U3 U4 U5 U6 U7 empty_wf clean opts Hs od mt cfg [] [LkEnv] c Hst Hc Hw N rs _ Fr Hf).
      + intros (n & [c' Hc' H|y Hy _]); [ | congruence ]. rewrite Hc in Hc'. injection Hc' as <-. exists (S (S (S (S n)))), a. rewrite Run.
        rewrite (with_sound inst conv any (parse_type DDgo) struct_of (parse DDgo) file stdin render render_explainer (ScMap []) (world_for DDgo config)
                   U5 U6 U7 empty_wf clean opts Hs od mt cfg [] [LkEnv] c Hst Hc Hw n n rs os ltac:(lia) H _ Fr).
        split; [ reflexivity | ]. clear - H U1. induction H as [|q r rs os Hr _ IH]; constructor; [ exact (responding_ends _ _ _ _ _ _ _ _ _ _ _ _ _ _ _ Hr) | exact IH ].
    - assert (L : locked (world_for DDgo config) x (Panic x) (init_st (ScMap []) None)) by (left; auto). split.
      + intros (N & a' & E & Hf). rewrite Run in E. injection E as _ <-. exists 0. apply sv_no_config with (x := x); [ exact Hx | ].
        rewrite <- (responds_more inst conv any (parse_type DDgo) struct_of (parse DDgo) file stdin render render_explainer (ScMap []) (world_for DDgo config) clean opts N (S (S N)) ltac:(lia) rs _ Hf).
        destruct (without_all inst conv any (parse_type DDgo) struct_of (parse DDgo) file stdin render render_explainer (ScMap []) (world_for DDgo config)
                    U1 U2 U3 U4 U5 U6 U7 empty_wf clean opts Hs od mt cfg [] [LkEnv] x Hst Hx Hw Hl rs _ _ L) as (os & Ho).
        rewrite (without_run inst conv any (parse_type DDgo) struct_of (parse DDgo) file stdin render render_explainer (ScMap []) (world_for DDgo config)
                   U1 U2 U3 U4 U5 U6 U7 empty_wf clean opts Hs od mt cfg [] [LkEnv] x Hst Hx Hw Hl N _ rs os Ho _ L). exact Ho.
      + intros (n & [c' Hc' _|y Hy H]); [ congruence | ]. rewrite Hx in Hy. injection Hy as <-. exists 2, a. rewrite Run.
        rewrite (without_run inst conv any (parse_type DDgo) struct_of (parse DDgo) file stdin render render_explainer (ScMap []) (world_for DDgo config)
                   U1 U2 U3 U4 U5 U6 U7 empty_wf clean opts Hs od mt cfg [] [LkEnv] x Hst Hx Hw Hl 0 _ rs os H _ L).
        split; [ reflexivity | exact (without_end _ _ _ _ _ _ _ _ _ _ _ _ _ _ _ H) ].
  Qed.

  (** A request for a key, with parameters that can be used. *)
  Definition asks_key (opts : command_options) (q : string * params) : Prop :=
    exists key r ps o t dv vars, clean (fst q) = fst q /\ lookup_path (fst q) key /\ written_key key (PStr r :: ps) /\ r <> "lookup_options" /\
      requested opts (snd q) o /\ asked_type any (parse_type DDgo) o t /\ asked_default (parse DDgo) o dv /\
      create_scope (parse DDgo) file (co_variables o) (co_var_paths o) (co_fact_paths o) stdin = Ok vars.

  (** A configuration that cannot be used stops the service: the first request for
      a key is answered with the error, and no later one ever is. *)
  Theorem C87_unreadable : forall args config opts address l on_disk matching cfg x m q rs,
    starts args config opts address l -> asks (world_for DDgo config) on_disk matching cfg [] [LkEnv] -> dependable (world_for DDgo config) ->
    usable conv (parse_type DDgo) (parse DDgo) file stdin render ->
    config_new (w_env (outside DDgo)) config cfg = Panic x -> x = EErr m \/ x = EStr m -> Forall (asks_key opts) (q :: rs) ->
    exists a, forall N, serves (2 + N) args (q :: rs) = Some (a, l, Ok (Respond 500 (m ++ str1 c_nl)) :: map (fun _ => Hang) rs).
  Proof.
    intros args config opts address l od mt cfg x m q rs Hargs Hst Hw [U1 U2 U3 U4 U5 U6 U7] Hx Hm Hq.
    destruct (service_run args config opts address l Hargs) as (Hs & Hl & a & Run). exists a. intro N. rewrite Run. f_equal. f_equal.
    assert (L : locked (world_for DDgo config) x (Panic x) (init_st (ScMap []) None)) by (left; auto).
    assert (One : forall q0 first s, asks_key opts q0 -> locked (world_for DDgo config) x first s ->
      exists s', route (look DDgo config (2 + N)) opts clean (fst q0) (snd q0) s = (refused_with first, s') /\ locked (world_for DDgo config) x Hang s').
    { intros [path p] first s (key & r & ps & o & t & dv & vars & Hc & Hk & Hps & Hr & Ho & Ht & Hd & Hv) L0. cbn [fst snd] in *.
      rewrite (requested_is opts p o Ho) in *. destruct (merge_total (request_options opts p)) as (mo & Hmo).
      destruct (key_needed inst conv any (parse_type DDgo) struct_of (parse DDgo) file stdin render render_explainer (ScMap []) (world_for DDgo config)
        U5 U6 U7 empty_wf clean opts Hs od mt cfg [] [LkEnv] x Hst Hx Hw Hl N path p key r ps t dv vars mo Hc Hk Hps Hr Ht Hd Hv Hmo first s L0) as (s' & _ & E & L1).
      exists s'. split; [ exact E | exact L1 ]. }
    assert (Rest : forall rs0 s, Forall (asks_key opts) rs0 -> locked (world_for DDgo config) x Hang s ->
      respond (route (look DDgo config (2 + N)) opts clean) rs0 s = map (fun _ => Hang) rs0).
    { induction rs0 as [|[path p] rs0 IH]; intros s Hf L0; [ reflexivity | ]. inversion Hf as [|? ? Hq0 Hf']; subst. cbn [respond map].
      destruct (One (path, p) Hang s Hq0 L0) as (s' & E & L1). cbn [fst snd] in E. rewrite E. f_equal. exact (IH s' Hf' L1). }
    inversion Hq as [|? ? Hq0 Hf']; subst. destruct q as [path p]. cbn [respond]. destruct (One (path, p) (Panic x) _ Hq0 L) as (s' & E & L1). cbn [fst snd] in E. rewrite E.
    f_equal; [ | exact (Rest rs s' Hf' L1) ]. destruct Hm as [-> | ->]; reflexivity.
  Qed.
End Programs.
Print Assumptions C87_command.
Print Assumptions C87_command_endless.
Print Assumptions C87_one_outcome.
Print Assumptions C87_service.
Print Assumptions C87_unreadable.

(** ** Examples *)
Import ExLevels.

(** The files of C86 for the programs, whose configuration has a level named by a
    variable. *)
Definition files_here (cfg : value) (d : dialect) : world := with_env [("A", "x")] (file_world [("/h/hiera.yaml", cfg)] many_files).
Definition rendered (f : string) (v : value) : outcome string :=
  match v with
  | VStr t => Ok t
  | VArr l => Ok (String.concat "," (map shown l))
  | _ => Panic (EErr ("no " ++ f))
  end.

Lemma here_asks cfg d : wf cfg = true ->
  asks (session_world (files_here cfg d) LkMux "/h/hiera.yaml" [LkConfig; LkEnv]) many_disk (fun _ => []) (CfYaml cfg) [] [LkEnv].
Proof.
  intro H. constructor; try reflexivity.
  - constructor.
  - constructor; [ constructor | constructor ].
  - intros v E. injection E as <-. exact H.
Qed.
Lemma here_dependable cfg d : dependable (session_world (files_here cfg d) LkMux "/h/hiera.yaml" [LkConfig; LkEnv]).
Proof. destruct (file_world_dependable [("/h/hiera.yaml", cfg)] many_files eq_refl) as [D1 D2 D3 D4 D5 D6 D7 D8 D9]. constructor; assumption. Qed.
Lemma here_usable types : (forall t, works (types t)) -> usable (T := unit) (fun _ v => Ok v) types ex_parse ex_file VfEmpty rendered.
Proof.
  intro H. constructor.
  - intros t v. left. eauto.
  - exact H.
  - intro t. unfold ex_parse. destruct (String.eqb t "[1]"); [ left | right ]; eauto.
  - intros f v. destruct v; first [ left; eexists; reflexivity | right; eexists; reflexivity ].
  - intros t v E. unfold ex_parse in E. destruct (String.eqb t "[1]"); [ injection E as <-; reflexivity | discriminate E ].
  - intros p m E. unfold ex_file in E.
    destruct (String.eqb p "v.yaml"); [ injection E as <-; reflexivity | ]. destruct (String.eqb p "f.yaml"); [ injection E as <-; reflexivity | ].
    destruct (String.eqb p "empty"); discriminate E.
  - intros m E. discriminate E.
Qed.

Notation prog_here cfg := (program (T := unit) (fun _ _ => true) (fun _ v => Ok v) tt (fun _ _ => Ok tt) (fun _ => None) (fun _ => ex_parse) ex_file VfEmpty
  rendered (fun _ => ret "") (files_here cfg) shown [] (Ok "/h") (ret tt)).
Notation coming_here cfg := (look_comes (T := unit) (fun _ _ => true) (fun _ v => Ok v) tt (fun _ => Ok tt) (fun _ => None) ex_parse ex_file VfEmpty rendered (ScMap [])
  (session_world (files_here cfg DPcore) LkMux "/h/hiera.yaml" [LkConfig; LkEnv]) many_disk (fun _ => []) (CfYaml cfg) ([] ++ LkConfig :: [LkEnv])).

Definition line (name : string) (vars : list string) : list string := name :: "--render-as=json" :: flat_map (fun v => ["--var"; v]) vars.
Definition chain : list string := ["env=%{cc}-x"; "cc=se"].
Definition ring : list string := ["env=%{env}"].
Lemma line_asks name vars : In name ["a"; "bad"] -> In vars [chain; ring] ->
  asks_for [] "/h" (line name vars) (plain_command "first" "json" vars) DPcore "/h/hiera.yaml" [name].
Proof.
  intros Hn Hv. constructor; [ | discriminate ].
  exists (("render-as", "json") :: map (fun v => ("var", v)) vars), "pcore", "".
  split. { destruct Hn as [<-|[<-|[]]], Hv as [<-|[<-|[]]];
    (apply rd_name; [right; intros t H; discriminate|]; apply (rd_equals "render-as" "json"); [left; cbn; tauto|];
     repeat (apply (rd_value "var"); [cbn; tauto|]); constructor). }
  split. { apply no_switches. intros n v H. destruct Hv as [<-|[<-|[]]]; cbn in H; repeat (destruct H as [H|H]; [ injection H as <- <-; absent | ]); destruct H. }
  do 4 (split; [ apply not_switched; destruct Hv as [<-|[<-|[]]]; absent | ]).
  split. { destruct Hv as [<-|[<-|[]]]; from_sets; off. }
  split; [ right; split; reflexivity | apply (uc_default [] "/h" ""); reflexivity ].
Qed.

Example C87_command_ex : forall name status out, In (name, status, out) [("a", Ok 0, "one,x,two"); ("bad", Ok 1, "")] ->
  exists n r, coming_here deep_cfg n (plain_command "first" "json" chain) [name] r /\ exits r status out.
Proof.
  intros name status out H.
  assert (Hn : In name ["a"; "bad"]) by (destruct H as [H|[H|[]]]; injection H as <- <- <-; cbn; tauto).
  apply (C87_command (T := unit) (fun _ _ => true) (fun _ v => Ok v) tt (fun _ _ => Ok tt) (fun _ => None) (fun _ => ex_parse) ex_file VfEmpty
           rendered (fun _ => ret "") (files_here deep_cfg) shown (fun t => eq_refl) [] "/h" (ret tt) (fun q => ex_intro _ q (conj eq_refl eq_refl)) "usage" "version"
           (line name chain) (plain_command "first" "json" chain) DPcore "/h/hiera.yaml" [name] many_disk (fun _ => []) (CfYaml deep_cfg) status out
           (mk_process_state "" (init_st (ScMap []) None))).
  - apply line_asks; [ exact Hn | left; reflexivity ].
  - exact (here_asks deep_cfg DPcore eq_refl).
  - exact (here_dependable deep_cfg DPcore).
  - apply here_usable. intro t. left. eauto.
  - exists 12. match goal with |- exists q, ?e = _ /\ _ => exists (snd e) end.
    assert (E : forall (A B : Type) (e : A * B) a, fst e = a -> e = (a, snd e)) by (intros A B [x y] a E; cbn in E; subst; reflexivity).
    destruct H as [H|[H|[]]]; injection H as <- <- <-; (split; [ apply E; vm_compute; reflexivity | split; [ discriminate | vm_compute; reflexivity ] ]).
Qed.

(** The variable that is itself: the level named by it is asked for, and that
    never ends. *)
Example C87_command_endless_ex : forall N p, fst (prog_here deep_cfg N "usage" "version" (line "a" ring) p) = NoFuel.
Proof.
  intros N p. revert N.
  apply (C87_command_endless (T := unit) (fun _ _ => true) (fun _ v => Ok v) tt (fun _ _ => Ok tt) (fun _ => None) (fun _ => ex_parse) ex_file VfEmpty
           rendered (fun _ => ret "") (files_here deep_cfg) shown (fun t => eq_refl) [] "/h" (ret tt) (fun q => ex_intro _ q (conj eq_refl eq_refl)) "usage" "version"
           (line "a" ring) (plain_command "first" "json" ring) DPcore "/h/hiera.yaml" ["a"] many_disk (fun _ => []) (CfYaml deep_cfg) p).
  - apply line_asks; [ left; reflexivity | right; left; reflexivity ].
  - exact (here_asks deep_cfg DPcore eq_refl).
  - exact (here_dependable deep_cfg DPcore).
  - apply here_usable. intro t. left. eauto.
  - intros (n & r & [c Hc H|x Hx _]); [ | vm_compute in Hx; discriminate Hx ].
    assert (c = levels_in ["%{env}"; "common"]) as -> by (vm_compute in Hc; injection Hc as <-; reflexivity). clear Hc.
    destruct H as [x N _|t x _ (d & c & r0 & E & _)|t dv x _ _ Hs|t dv vars mo other o r _ Hd Hs _ Hk Hf _]; try discriminate.
    + elim N. reflexivity.
    + assert (vars = [(VStr "env", VStr "%{env}")]) as -> by (vm_compute in Hs; injection Hs as <-; reflexivity). clear Hs.
      assert (Ring : in_ring (ScNest (ScMap []) [(VStr "env", VStr "%{env}")])) by reflexivity.
      destruct Hk as [es all Hh _|x Hx|es x Hh _|];
        [ exact (ring_no_hierarchy _ _ _ _ _ Ring es Hh) | exact (ring_no_error _ _ _ _ _ Ring x Hx) | exact (ring_no_hierarchy _ _ _ _ _ Ring es Hh) | ].
      assert (W : written_key "a" [PStr "a"]) by (apply plain_key_by; reflexivity).
      assert (Na : forall o, ~ name_comes (fun _ _ => False) "a" o).
      { intros o' [x M|ps W'|r' ps o'' _ _ []].
        - apply new_key_refused in M. vm_compute in M. discriminate M.
        - discriminate (written_det _ _ _ W W'). }
      assert (Nf : forall o, ~ first_comes (fun _ _ => False) ["a"] o).
      { intros o' Hc. inversion Hc; subst; eapply Na; eassumption. }
      inversion Hf; subst; try discriminate; eapply Nf; eassumption.
Qed.

Example C87_one_outcome_ex : forall n r, coming_here deep_cfg n (plain_command "first" "json" chain) ["a"] r -> exists b, r = Ok (b, "one,x,two").
Proof.
  intros n r H. destruct (C87_command_ex "a" (Ok 0) "one,x,two") as (n' & r' & H' & X); [ left; reflexivity | ].
  assert (r = r') as ->.
  { apply (C87_one_outcome (T := unit) (fun _ _ => true) (fun _ v => Ok v) tt (fun _ _ => Ok tt) (fun _ => None) (fun _ => ex_parse) ex_file VfEmpty
             rendered (fun _ => ret "") (files_here deep_cfg) (plain_command "first" "json" chain) DPcore "/h/hiera.yaml" ["a"] many_disk (fun _ => []) (CfYaml deep_cfg) n n' r r').
    - split; reflexivity.
    - exact (here_asks deep_cfg DPcore eq_refl).
    - exact (here_dependable deep_cfg DPcore).
    - apply here_usable. intro t. left. eauto.
    - exact H.
    - exact H'. }
  inversion X; subst. eauto.
Qed.

(** The service: the variables of a request are for that request; a key that is not
    in the files; one that is not looked up; one whose value cannot be had; a key
    that is misspelt; a path that is not for lookups. *)
Definition with_vars (vars : list string) : params := mk_params [] [] [] vars.
Definition here_rs : list (string * params) :=
  [("/lookup/a", with_vars chain); ("/lookup/a", no_params); ("/lookup/none", mk_params ["d"] [] [] []); ("/lookup/none", no_params);
   ("/lookup/lookup_options", no_params); ("/lookup/bad", no_params); ("/lookup/a..b", no_params); ("/other", no_params); ("/lookup/a", in_pcore)].
Definition here_os : list (outcome response) :=
  [Ok (Respond 200 "one,x,two"); Ok (Respond 200 "two"); Ok (Respond 200 "d"); Ok (Respond 404 ("404 value not found" ++ str1 c_nl)%string);
   Ok (Respond 404 ("404 value not found" ++ str1 c_nl)%string); Ok (Respond 500 ("unknown interpolation method 'nope'" ++ str1 c_nl)%string);
   Ok (Respond 500 ("key 'a..b' contains an empty segment" ++ str1 c_nl)%string); Ok (Respond 404 ("404 page not found" ++ str1 c_nl)%string);
   Ok (Respond 500 ("not a type" ++ str1 c_nl)%string)].
Lemma svc_starts : starts P_RestArgs.ex_port (fun _ _ => true) (fun _ => true) svc_args "/h/hiera.yaml"
  (mk_command "" "" None [] [] [] "" false false false) ":9000" Rest.Plain.
Proof. exists svc_sets. split; [ exact (proj1 svc_reads) | ]. split; [ exact (proj2 svc_reads) | ]. split; [ apply not_switched; absent | exact svc_from ]. Qed.
Definition service_here (cfg : value) (N : nat) := service (T := unit) (fun _ _ => true) (fun _ v => Ok v) tt two_types (fun _ => None) (fun _ => ex_parse) ex_file VfEmpty
  rendered (fun _ => ret "") (files_here cfg) shown [] (Ok "/h") N (fun p => p) P_RestArgs.ex_port (fun _ _ => true) (fun _ => true) svc_args.

Lemma two_types_work t : works (two_types DDgo t).
Proof. right. eexists. reflexivity. Qed.
Lemma here_runs : service_here deep_cfg 12 here_rs = Some (":9000", Rest.Plain, here_os).
Proof. vm_compute. reflexivity. Qed.
Example C87_service_ex : exists n, service_comes (T := unit) (fun _ _ => true) (fun _ v => Ok v) tt (two_types DDgo) (fun _ => None) ex_parse ex_file VfEmpty rendered
  (fun p => p) (ScMap []) (mk_command "" "" None [] [] [] "" false false false)
  (session_world (files_here deep_cfg DDgo) LkMux "/h/hiera.yaml" [LkConfig; LkEnv]) many_disk (fun _ => []) (CfYaml deep_cfg) ([] ++ LkConfig :: [LkEnv]) n here_rs here_os.
Proof.
  apply (C87_service (T := unit) (fun _ _ => true) (fun _ v => Ok v) tt two_types (fun _ => None) (fun _ => ex_parse) ex_file VfEmpty
           rendered (fun _ => ret "") (files_here deep_cfg) shown (fun t => eq_refl) [] "/h" (fun p => p) P_RestArgs.ex_port (fun _ _ => true) (fun _ => true)
           svc_args "/h/hiera.yaml" (mk_command "" "" None [] [] [] "" false false false) ":9000" Rest.Plain many_disk (fun _ => []) (CfYaml deep_cfg) here_rs here_os svc_starts).
  - exact (here_asks deep_cfg DDgo eq_refl).
  - exact (here_dependable deep_cfg DDgo).
  - exact (here_usable _ two_types_work).
  - exists 12, ":9000". split; [ exact here_runs | ]. repeat constructor; discriminate.
Qed.


Lemma plain_asks_key name vars : In name ["a"; "none"] -> In vars [chain; []] ->
  asks_key (T := unit) tt two_types (fun _ => ex_parse) ex_file VfEmpty (fun p => p) (mk_command "" "" None [] [] [] "" false false false) ("/lookup/" ++ name, with_vars vars)%string.
Proof.
  intros Hn Hv.
  assert (Hs : exists vs, create_scope ex_parse ex_file vars [] [] VfEmpty = Ok vs).
  { destruct Hv as [<-|[<-|[]]]; eexists; vm_compute; reflexivity. }
  destruct Hs as (vs & Hs).
  exists name, name, [], (mk_command "" "" None [] [] vars "json" false false false), tt, None, vs.
  split; [ reflexivity | ]. split; [ apply key_of_path_spec; destruct Hn as [<-|[<-|[]]]; reflexivity | ].
  split; [ destruct Hn as [<-|[<-|[]]]; apply plain_key_by; reflexivity | ]. split; [ destruct Hn as [<-|[<-|[]]]; discriminate | ].
  split. { constructor; try reflexivity; [ left; auto | left; auto | | auto ].
    intro d. cbn. split; [ discriminate | intros [(r & E)|[_ E]]; discriminate ]. }
  split; [ left; auto | ]. split; [ reflexivity | exact Hs ].
Qed.

Example C87_unreadable_ex : exists a, forall N, service_here old_cfg (2 + N) [("/lookup/a", with_vars chain); ("/lookup/none", with_vars []); ("/lookup/a", with_vars [])] =
  Some (a, Rest.Plain, [Ok (Respond 500 ("the configuration does not match the schema" ++ str1 c_nl)%string); Hang; Hang]).
Proof.
  apply (C87_unreadable (T := unit) (fun _ _ => true) (fun _ v => Ok v) tt two_types (fun _ => None) (fun _ => ex_parse) ex_file VfEmpty
           rendered (fun _ => ret "") (files_here old_cfg) shown (fun t => eq_refl) [] "/h" (fun p => p) P_RestArgs.ex_port (fun _ _ => true) (fun _ => true)
           svc_args "/h/hiera.yaml" (mk_command "" "" None [] [] [] "" false false false) ":9000" Rest.Plain many_disk (fun _ => []) (CfYaml old_cfg) old_err "the configuration does not match the schema"
           ("/lookup/a", with_vars chain) [("/lookup/none", with_vars []); ("/lookup/a", with_vars [])] svc_starts).
  - exact (here_asks old_cfg DDgo eq_refl).
  - exact (here_dependable old_cfg DDgo).
  - exact (here_usable _ two_types_work).
  - vm_compute. reflexivity.
  - left. vm_compute. reflexivity.
  - constructor; [ apply (plain_asks_key "a" chain); cbn; tauto | ].
    constructor; [ apply (plain_asks_key "none" []); cbn; tauto | constructor; [ apply (plain_asks_key "a" []); cbn; tauto | constructor ] ].
Qed.
