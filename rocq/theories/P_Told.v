(** What an explanation says about interpolation, nested lookups, lookup
    options, functions, modules and keys that may not be looked up: C90. *)

From Coq Require Import String List ZArith Bool Arith Lia.
From Verif Require Import SpecPlace PlaceFacts.
From Verif Require Import Str Value Outcome Key Merge Fpath Config Ipl Explain State Loader Engine Worlds Meta Kept Session SpecExplain Transparent.
From Verif Require Import SpecKey KeyFacts SpecIpl IplFacts StrFacts SpecInterp InterpFacts SpecMerge MergeLookup P_Merge P_Truth P_Resolve.
From Verif Require P_Modes P_Modules.
Import ListNotations.
Open Scope string_scope.
Open Scope list_scope.
Open Scope bool_scope.
Open Scope monad_scope.

(** ** What a true explanation is *)

(** Digging with a key into what was found, if anything was. *)
Inductive dug_told (k : key) : option value -> list node -> Prop :=
| dug_not : forall o, tl (k_parts k) = [] -> dug_told k o []
| dug_into : forall v p ps r segs, tl (k_parts k) = p :: ps -> parts_told (p :: ps) v r segs ->
    dug_told k (Some v) [Node (NSubLookup k) segs [] "" None ""]
| dug_nothing : forall p ps, tl (k_parts k) = p :: ps ->
    dug_told k None [Node (NSubLookup k) [Node (NSegment p) [] [] "not_found" None (match p with PStr t => t | PInt i => show_int i end)] [] "" None ""].

(** What can be said in the current node. *)
Definition missed (k : string) (f : frame) : frame := mk_frame (fr_bs f) (fr_ts f) "not_found" (fr_v f) k.
Definition got (k : string) (v : value) (f : frame) : frame := mk_frame (fr_bs f) (fr_ts f) "found" (Some v) k.
Definition says (t : string) (f : frame) : frame := mk_frame (fr_bs f) (fr_ts f ++ [t]) (fr_e f) (fr_v f) (fr_k f).
Definition answered (k : string) (r : option value) (f : frame) : frame := match r with Some v => got k v f | None => missed k f end.

(** Loading the function of an entry: a function that is not found is told. *)
Inductive load_told (fd : fdef) : loaded -> frame -> frame -> Prop :=
| load_kept : forall l f, load_told fd l f f
| load_lost : forall f, load_told fd LdNone f (says ("unresolved function '" ++ f_name fd ++ "'") f).

Definition options_key : key := mk_key "lookup_options" [PStr "lookup_options"].

(** The keys and the values of a map, in order. *)
Definition all_in (m : entries) : list value := flat_map (fun e => [fst e; snd e]) m.

Section Told.
  (** The scope of the invocation, and whether lookup options are explained. *)
  Variables (w : world) (sc : scope) (shown : bool).

  (** What interpolating a value gives. *)
  Definition comes_of (allow : bool) (v : value) (o : option value) : Prop :=
    exists n s1 s2 b, do_interp (run w n) allow v s1 = (Ok (o, b), s2).
  (** The data of a data_hash function. *)
  Definition hash_is (p : provider) (f : fdef) (loc : option location) (h : entries) : Prop :=
    exists n s1 s2, data_hash w (run w n) (p_id p) (p_entry p) f loc s1 = (Ok h, s2).
  (** The configuration at a path. *)
  Definition config_at (path module : string) (cfg : rconfig) : Prop :=
    exists n s1 s2, get_config w (run w n) path module s1 = (Ok cfg, s2).
  (** Where the configuration of a module is. *)
  Definition module_at (name : string) (path : option string) : Prop :=
    exists s1 s2, module_config w name s1 = (Ok path, s2).

  (** All below is said for an invocation in some mode: of its own, on behalf of
      a search for lookup options, or for data. *)

  (** The nodes for interpolating a value: one for each text with an expression
      in it, in the order of the texts; in it what is told about its
      expressions, in their order.  Only variables and lookups have anything to
      tell. *)
  Inductive value_told : imode -> bool -> value -> list node -> Prop :=
  | value_plain : forall md allow t, ~ has "%{" t -> value_told md allow (VStr t) []
  | value_text : forall md allow t cut last f, has "%{" t -> well_cut cut last -> t = assembled cut last ->
      exprs_told md allow (map snd cut) (new_frame "") f -> value_told md allow (VStr t) [close (NInterpolate t) f]
  | value_array : forall md allow l ns, values_told md allow l ns -> value_told md allow (VArr l) ns
  | value_map : forall md allow m ns, values_told md allow (all_in m) ns -> value_told md allow (VMap m) ns
  | value_other : forall md allow v, match v with VStr _ | VArr _ | VMap _ => False | _ => True end -> value_told md allow v []
  with values_told : imode -> bool -> list value -> list node -> Prop :=
  | values_none : forall md allow, values_told md allow [] []
  | values_next : forall md allow v vs ns ms, value_told md allow v ns -> values_told md allow vs ms -> values_told md allow (v :: vs) (ns ++ ms)
  with exprs_told : imode -> bool -> list string -> frame -> frame -> Prop :=
  | exprs_none : forall md allow f, exprs_told md allow [] f f
  | exprs_next : forall md allow e es f g h, expr_told md allow e f g -> exprs_told md allow es g h -> exprs_told md allow (e :: es) f h
  with expr_told : imode -> bool -> string -> frame -> frame -> Prop :=
  | expr_empty : forall md allow e f, In (trim_space e) [""; "::"; """"""; "''"; """::"""; "'::'"] -> expr_told md allow e f f
  | expr_literal : forall md e arg f, calls (trim_space e) "literal" arg -> expr_told md true e f f
  | expr_unset : forall md allow e arg x ps f, ~ In (trim_space e) [""; "::"; """"""; "''"; """::"""; "'::'"] ->
      asks_scope allow (trim_space e) arg -> written_key arg (PStr x :: ps) -> scope_get sc x = None -> expr_told md allow e f f
  | expr_variable : forall md allow e arg x ps f v ns o ms, ~ In (trim_space e) [""; "::"; """"""; "''"; """::"""; "'::'"] ->
      asks_scope allow (trim_space e) arg -> written_key arg (PStr x :: ps) -> scope_get sc x = Some v ->
      value_told md allow v ns -> comes_of allow v o -> dug_told (mk_key arg (PStr x :: ps)) o ms ->
      expr_told md allow e f (add_branches (ns ++ ms) f)
  | expr_lookup : forall md e name arg ps f g, calls (trim_space e) name arg -> In name ["lookup"; "hiera"; "alias"; "strict_alias"] ->
      written_key arg ps -> asked_told md [] (mk_key arg ps) f g -> expr_told md true e f g
  (** A lookup: that the key may not be looked up, or else what the top provider
      tells, followed by interpolating the value and digging into it. *)
  with asked_told : imode -> entries -> key -> frame -> frame -> Prop :=
  | asked_refused : forall md opts k ps f, k_parts k = PStr "lookup_options" :: ps ->
      asked_told md opts k f (add_branches [Node NInvalid [] [] "not_found" None (k_source k)] f)
  | asked_nothing : forall md opts k x ps f g, k_parts k = PStr x :: ps -> x <> "lookup_options" ->
      fn_told md opts (w_top w) x None f g -> asked_told md opts k f g
  | asked_found : forall md opts k x ps f g v vs o ms, k_parts k = PStr x :: ps -> x <> "lookup_options" ->
      fn_told md opts (w_top w) x (Some v) f g -> value_told MdData true v vs -> comes_of true v o -> dug_told k o ms ->
      asked_told md opts k f (add_branches (vs ++ ms) g)
  (** The function of the top provider, and the functions that are asked by the
      one that asks several. *)
  with fn_told : imode -> entries -> lkfn -> string -> option value -> frame -> frame -> Prop :=
  | fn_env : forall md opts key f, fn_told md opts LkEnv key (environment (w_env w) key) f f
  | fn_scope : forall md opts key f, fn_told md opts LkScope key (scope_get sc key) f f
  | fn_yaml : forall md opts key r f, fn_told md opts LkYaml key r f f
  | fn_none : forall md opts key f, fn_told md opts LkNotFun key None f f
  | fn_user : forall md opts n key t r f g, prog_told md (w_call w t (FnTop n) (ALookupKey opts key)) r f g ->
      fn_told md opts (LkUser n) key r f g
  | fn_config : forall md opts key r f g, looked_told md opts (w_cfgpath w) key "" r f g -> fn_told md opts LkConfig key r f g
  | fn_no_module : forall md opts key f, (forall m, ~ P_Modules.namespace key m) -> fn_told md opts LkModule key None f f
  | fn_module_missing : forall md opts key m f, P_Modules.namespace key m -> module_at (to_lower m) None ->
      fn_told md opts LkModule key None f (add_branches [Node (NModule (to_lower m)) [] [] "module_not_found" None ""] f)
  | fn_module : forall md opts key m path r f g, P_Modules.namespace key m -> module_at (to_lower m) (Some path) ->
      looked_told md opts path key (to_lower m) r (new_frame "") g ->
      fn_told md opts LkModule key r f (add_branches [close (NModule (to_lower m)) g] f)
  | fn_mux : forall md opts key r f g, mux_told md opts key r f g -> fn_told md opts LkMux key r f g
  (** Asking several functions: the search for lookup options, when it is told,
      and a node with where the strategy comes from and what the functions tell
      when they are asked for data. *)
  with mux_told : imode -> entries -> string -> option value -> frame -> frame -> Prop :=
  | mux_nothing : forall md opts key f, w_mux w = None -> mux_told md opts key None f f
  | mux_shown : forall md opts key fs lo src st r0 r f g h, w_mux w = Some fs -> md = MdLookup \/ shown = true ->
      merged_told MdLookup opts (SDeep []) fs key lo f g -> source_told (mgets "merge" opts) (as_map lo) src ->
      merged_told MdData opts st fs key r0 (add_branches src (new_frame key)) h -> (r0 = None <-> r = None) ->
      mux_told md opts key r f (add_branches [close NLookup h] g)
  | mux_hidden : forall md opts key fs lo src st r0 r f h, w_mux w = Some fs -> md <> MdLookup -> shown = false ->
      source_told (mgets "merge" opts) (as_map lo) src ->
      merged_told MdData opts st fs key r0 (add_branches src (new_frame key)) h -> (r0 = None <-> r = None) ->
      mux_told md opts key r f (add_branches [close NLookup h] f)
  (** Functions asked and merged. *)
  with merged_told : imode -> entries -> strategy -> list lkfn -> string -> option value -> frame -> frame -> Prop :=
  | merged_none : forall md opts st key f, merged_told md opts st [] key None f f
  | merged_one : forall md opts st x key r r' f g, fn_told md opts x key r f g -> lookup_of st [r] = Ok r' ->
      merged_told md opts st [x] key r' f g
  | merged_first : forall md opts x y xs key r f g, first_fn md opts (x :: y :: xs) key r f g ->
      merged_told md opts SFirst (x :: y :: xs) key r f (mark r g)
  | merged_all : forall md opts st x y xs key rs r f g, st <> SFirst -> all_fns md opts (x :: y :: xs) key rs (new_frame "") g ->
      lookup_of st rs = Ok r -> merged_told md opts st (x :: y :: xs) key r f (add_branches [close (NMerge st) (mark r g)] f)
  with first_fn : imode -> entries -> list lkfn -> string -> option value -> frame -> frame -> Prop :=
  | first_none : forall md opts key f, first_fn md opts [] key None f f
  | first_this : forall md opts x xs key v f g, fn_told md opts x key (Some v) f g -> first_fn md opts (x :: xs) key (Some v) f g
  | first_later : forall md opts x xs key r f g h, fn_told md opts x key None f g -> first_fn md opts xs key r g h ->
      first_fn md opts (x :: xs) key r f h
  with all_fns : imode -> entries -> list lkfn -> string -> list (option value) -> frame -> frame -> Prop :=
  | all_none : forall md opts key f, all_fns md opts [] key [] f f
  | all_next : forall md opts x xs key r rs f g h, fn_told md opts x key r f g -> all_fns md opts xs key rs g h ->
      all_fns md opts (x :: xs) key (r :: rs) f h
  (** A lookup in the configuration at a path.  A lookup of its own has a node,
      with where the strategy comes from and what the hierarchy had to say; a
      lookup made on behalf of another adds to the node it finds; a search for
      lookup options tells no more than that the configuration was read. *)
  with looked_told : imode -> entries -> string -> string -> string -> option value -> frame -> frame -> Prop :=
  | looked_top : forall opts path key module cfg qs lo st os src ns r0 r' r f, config_at path module cfg ->
      options_told MdTop cfg os -> written_key key qs -> lookup_options cfg (mk_key key qs) = Ok lo -> source_told (mgets "merge" opts) lo src ->
      merge_told (entry_told MdData (mk_key key qs) st) st (rc_providers cfg) r0 ns r' -> (r0 = None <-> r = None) ->
      looked_told MdTop opts path key module r f
        (add_branches (os ++ [Node NLookup (src ++ ns) [] (match r' with Some _ => "result" | None => "" end) r' key]) f)
  | looked_data : forall opts path key module cfg qs st os ns r r' f, config_at path module cfg ->
      options_told MdData cfg os -> written_key key qs -> merge_told (entry_told MdData (mk_key key qs) st) st (rc_providers cfg) r ns r' ->
      looked_told MdData opts path key module r f (mark r' (add_branches (os ++ ns) f))
  | looked_options : forall opts path key module cfg qs lo os f, config_at path module cfg ->
      options_told MdLookup cfg os -> written_key key qs -> lookup_options cfg (mk_key key qs) = Ok lo ->
      looked_told MdLookup opts path key module (option_map VMap lo) f (add_branches os f)
  (** The search for the lookup options of a configuration: told, when options
      are explained, at the time when the configuration is read. *)
  with options_told : imode -> rconfig -> list node -> Prop :=
  | options_untold : forall md cfg, options_told md cfg []
  | options_searched : forall md cfg r ns r', md = MdLookup \/ shown = true ->
      merge_told (entry_told MdLookup options_key (SDeep [])) (SDeep []) (rc_providers cfg) r ns r' -> rc_luopts cfg = as_map r ->
      options_told md cfg [Node NLookup ns [] (match r' with Some _ => "result" | None => "" end) r' "lookup_options"]
  (** An entry of the hierarchy, a location of it, and the answer of its
      function. *)
  with entry_told : imode -> key -> strategy -> provider -> option value -> node -> Prop :=
  | entry_whole : forall md k st p fd t r g, e_function (p_entry p) = Some fd -> called fd t -> e_locations (p_entry p) = None ->
      reply_told md k p fd None r (new_frame "") g -> entry_told md k st p r (close (NProvider t) g)
  | entry_places : forall md k st p fd t ls r r' bs, e_function (p_entry p) = Some fd -> called fd t -> e_locations (p_entry p) = Some ls ->
      merge_told (place_told md k p fd) (match ls with [_] => SFirst | _ => st end) ls r bs r' ->
      entry_told md k st p r (Node (NProvider t) bs [] (match r' with Some _ => "result" | None => "" end) r' "")
  with place_told : imode -> key -> provider -> fdef -> location -> option value -> node -> Prop :=
  | place_absent : forall md k p fd l, ~ there l ->
      place_told md k p fd l None (Node (NLocation l) [] [] "location_not_found" None "")
  | place_there : forall md k p fd l r g, there l -> reply_told md k p fd (Some l) r (new_frame "") g ->
      place_told md k p fd l r (close (NLocation l) g)
  with reply_told : imode -> key -> provider -> fdef -> option location -> option value -> frame -> frame -> Prop :=
  | reply_none : forall md k p fd loc x ps h f g, f_kind fd = KDataHash -> k_parts k = PStr x :: ps ->
      hash_told md fd f g -> hash_is p fd loc h -> mgets x h = None -> reply_told md k p fd loc None f (missed x g)
  | reply_hash : forall md k p fd loc x ps h f g y vs r, f_kind fd = KDataHash -> k_parts k = PStr x :: ps ->
      hash_told md fd f g -> hash_is p fd loc h -> mgets x h = Some y -> value_told md true y vs -> comes_of true y r ->
      reply_told md k p fd loc r f (answered x r (add_branches vs g))
  | reply_key : forall md k p fd loc x ps opts l r f g h, f_kind fd = KLookupKey -> k_parts k = PStr x :: ps ->
      load_told fd l f g -> call_told md l opts x r g h -> reply_told md k p fd loc r f (answered x r h)
  | reply_missed : forall md k p fd loc l f g, f_kind fd = KDataDig -> load_told fd l f g ->
      reply_told md k p fd loc None f (missed (k_source k) g)
  | reply_dug : forall md k p fd loc l x f g, f_kind fd = KDataDig -> load_told fd l f g ->
      reply_told md k p fd loc (Some (bury k x)) f (got (k_source k) x g)
  (** The functions of entries: only those that are programs of a user have
      something to tell. *)
  with hash_told : imode -> fdef -> frame -> frame -> Prop :=
  | hash_known : forall md fd f, hash_told md fd f f
  | hash_loaded : forall md fd l f g, load_told fd l f g -> hash_told md fd f g
  | hash_called : forall md fd fn t opts r f g h, load_told fd (LdFn fn) f g ->
      prog_told md (w_call w t fn (ADataHash opts)) r g h -> hash_told md fd f h
  with call_told : imode -> loaded -> entries -> string -> option value -> frame -> frame -> Prop :=
  | call_env : forall md opts x f, call_told md LdEnv opts x (environment (w_env w) x) f f
  | call_scope : forall md opts x f, call_told md LdScope opts x (scope_get sc x) f f
  | call_user : forall md fn opts x t r f g, prog_told md (w_call w t fn (ALookupKey opts x)) r f g -> call_told md (LdFn fn) opts x r f g
  | call_nothing : forall md l opts x f, match l with LdNone | LdYaml | LdJson => True | _ => False end -> call_told md l opts x None f f
  (** Programs of users. *)
  with prog_told : imode -> prog -> option value -> frame -> frame -> Prop :=
  | prog_ret : forall md v f, prog_told md (PRet v) v f f
  | prog_interpolate : forall md v k o ns r f g, value_told md true v ns -> comes_of true v o ->
      prog_told md (k o) r (add_branches ns f) g -> prog_told md (PInterpolate v k) r f g
  | prog_lookup : forall md key o k ps x r f g h, written_key key ps ->
      asked_told md (match o with Some o => o | None => [] end) (mk_key key ps) f g -> prog_told md (k x) r g h ->
      prog_told md (PLookup key o k) r f h
  | prog_cache : forall md key v k old r f g, prog_told md (k old) r f g -> prog_told md (PCache key v k) r f g
  | prog_cached : forall md key k x r f g, prog_told md (k x) r f g -> prog_told md (PCached key k) r f g
  | prog_scope : forall md key k r f g, prog_told md (k (scope_get sc key)) r f g -> prog_told md (PScope key k) r f g
  | prog_mode : forall md k r f g, prog_told md (k md) r f g -> prog_told md (PMode k) r f g
  | prog_explain : forall md t k r f g, prog_told md k r (says t f) g -> prog_told md (PExplain t k) r f g.
End Told.

(** ** Code that is run while explaining *)

Lemma closed_and w R R' : closed w R -> closed w R' -> closed w (fun A m m' => R A m m' /\ R' A m m').
Proof.
  intros [a1 a2 a3 a4 a5 a6 a7 a8 a9] [b1 b2 b3 b4 b5 b6 b7 b8 b9]. constructor; intros; split; auto;
    repeat match goal with H : _ /\ _ |- _ => destruct H end; auto.
  - apply a2; [ assumption | ]. intro a. exact (proj1 (H0 a)).
  - apply b2; [ assumption | ]. intro a. exact (proj2 (H0 a)).
Qed.

Definition fine : rel := fun A m m' => sim_run A m m' /\ steps kept A m m' /\ scope_back A m m'.
Lemma fine_closed w : closed w fine.
Proof.
  pose proof (closed_and w _ _ (sim_closed w) (closed_and w _ _ (kept_closed w) (full_closed w _ scope_back_full))) as H. exact H.
Qed.

(** The current node put in place of another. *)
Definition set_here (f : frame) (x : explainer) : explainer := with_here (fun _ => f) x.

Lemma placed_here x y : same_place x y -> y = set_here (here y) x.
Proof.
  intros (P1 & P2 & P3 & P4). unfold set_here, with_here, here. destruct x as [a b c o d], y as [a' b' c' o' d'].
  cbn [x_options x_only x_nil x_open x_root] in *. subst a' b' d'. destruct o as [|[k f] o].
  - destruct P4 as [-> _]. reflexivity.
  - destruct P4 as (-> & f' & -> & _). reflexivity.
Qed.

Lemma set_with g x : set_here (g (here x)) x = with_here g x.
Proof. unfold set_here, with_here, here. destruct (x_open x) as [|[k f] o]; reflexivity. Qed.

Lemma interp_same w n allow v s o s' : do_interp (run w n) allow v s = (Ok (o, false), s') -> o = Some v.
Proof.
  intro E. destruct v as [|b|z|z|t|l|m|v]; try (injection E as <- _; reflexivity).
  - cbn [do_interp] in E. exact (run_unchanged _ _ _ _ _ _ _ E).
  - rewrite do_interp_arr in E. apply bind_ok in E as ([l' c] & s1 & _ & E). cbn [fst snd] in E. injection E as <- -> _. reflexivity.
  - rewrite do_interp_map in E. apply bind_ok in E as ([l' c] & s1 & _ & E). cbn [fst snd] in E. injection E as <- -> _. reflexivity.
Qed.

Lemma interpolate_comes w n allow v s o s' : interpolate (run w n) allow v s = (Ok o, s') ->
  exists b, do_interp (run w n) allow v s = (Ok (o, b), s').
Proof.
  intro E. unfold interpolate in E. apply bind_ok in E as ([o' b] & s1 & E1 & E). cbn [fst snd] in E. injection E as <- <-.
  exists b. rewrite E1. destruct b; [ reflexivity | ]. rewrite (interp_same _ _ _ _ _ _ _ E1). reflexivity.
Qed.

Section Proofs.
  Variables (w : world) (sc : scope) (shown : bool).

  (** What is known of the state. *)
  Definition in_mode (md : imode) (s : st) : Prop :=
    iv_mode (s_iv s) = md /\ iv_scope (s_iv s) = sc /\ x_only (s_ex s) = false /\ x_options (s_ex s) = shown.
  Definition telling (md : imode) (s : st) : Prop := on s /\ in_mode md s.

  Lemma steady_mode md : steady (in_mode md).
  Proof. intros s s' A B C (D1 & D2 & D3 & D4). unfold in_mode. rewrite A, B, C. auto. Qed.

  Lemma fine_keeps A (m : M st A) md s r s' : fine A m m -> telling md s -> m s = (Ok r, s') ->
    telling md s' /\ same_place (s_ex s) (s_ex s').
  Proof.
    intros (H1 & H2 & H3) (O & M & C & X1 & X2) E. destruct (sim_moves _ _ H1 s r s' O E) as [O' P]. split; [ | exact P ].
    split; [ exact O' | ]. split; [ | split; [ rewrite (H3 _ _ _ E); exact C | ] ].
    - specialize (H2 s). rewrite E in H2. cbn [snd] in H2. rewrite (kp_mode _ _ H2). exact M.
    - destruct P as (P1 & P2 & _). split; congruence.
  Qed.

  (** What code that returns makes of the current node. *)
  Definition tells (md : imode) {A} (m : M st A) (P : A -> frame -> frame -> Prop) : Prop :=
    forall s r s', telling md s -> m s = (Ok r, s') -> P r (here (s_ex s)) (here (s_ex s')).

  Lemma tells_imp md A (m : M st A) (P Q : A -> frame -> frame -> Prop) : tells md m P -> (forall r f f', P r f f' -> Q r f f') -> tells md m Q.
  Proof. intros H I s r s' T E. apply I. exact (H _ _ _ T E). Qed.

  Lemma tells_node md A k i (m : M st A) P : fine A m m -> tells md m P ->
    tells md (run_scoped (SNode k i) m) (fun r f f' => exists g, P r (new_frame i) g /\ f' = add_branches [close k g] f).
  Proof.
    intros Fm Hm s r s' (O & J) E.
    destruct (node_when (in_mode md) A k i m s r s' (steady_mode md) O J) as (s0 & s1 & O0 & F0 & E1 & O1 & O2 & X); [ | exact E | ].
    - intros t q t' Ot Jt Et. exact (fine_keeps _ _ _ _ _ _ Fm (conj Ot Jt) Et).
    - exists (here (s_ex s1)). split.
      + rewrite <- F0. exact (Hm s0 r s1 O0 E1).
      + rewrite X, with_here_here. reflexivity.
  Qed.

  Lemma tells_report md q : tells md (run_op (OReport q)) (fun _ f f' => f' = report_frame q f).
  Proof. intros s [] s' (O & _) E. exact (proj1 (proj2 (report_here _ _ _ O E))). Qed.

  Lemma tells_locked md A id (m : M st A) P : tells md m P -> tells md (run_scoped (SLocked id) m) P.
  Proof.
    intros Hm s r s' T E. unfold run_scoped in E. destruct (ps_locked (s_provs s id)); [ discriminate E | ].
    match type of E with (let (o, s'0) := m ?x in _) = _ => destruct (m x) as [o s1] eqn:Em; injection E as -> <-; exact (Hm x r s1 T Em) end.
  Qed.

  Lemma fine_run n q : fine _ (run w n q) (run w n q).
  Proof. exact (c_run w _ (fine_closed w) n q). Qed.
  Lemma fine_rec n : forall q, fine _ (run w n q) (run w n q).
  Proof. exact (fine_run n). Qed.
  Lemma fine_ret A (a : A) : fine _ (ret a) (ret a).
  Proof. exact (c_lift w _ (fine_closed w) A (Ok a)). Qed.
  Lemma fine_op A (o : op A) : free_op o = true -> fine _ (run_op o) (run_op o).
  Proof. exact (c_op w _ (fine_closed w) A o). Qed.
  Lemma fine_interp n allow v : fine _ (do_interp (run w n) allow v) (do_interp (run w n) allow v).
  Proof. apply (c_do_interp w _ (fine_closed w)). exact (fine_rec n). Qed.
  Lemma fine_get_config n p md : fine _ (get_config w (run w n) p md) (get_config w (run w n) p md).
  Proof. apply (c_get_config w _ (fine_closed w)); try exact (fine_rec n); try (intro; apply quiet_run). Qed.

  (** *** Digging *)
  Lemma dig_tells md k o : tells md (dig_in k o) (fun _ f f' => exists ns, dug_told k o ns /\ f' = add_branches ns f).
  Proof.
    intros s r s' (O & J) E. destruct o as [v|].
    - pose proof (C66_dig k v s r s' (proj1 O) (proj2 O) E) as H. destruct (tl (k_parts k)) as [|p ps] eqn:Et.
      + destruct H as [_ ->]. exists []. split; [ apply dug_not; exact Et | symmetry; apply add_branches_nil ].
      + destruct H as (ns & Hp & X). eexists. split; [ exact (dug_into k v p ps r ns Et Hp) | ].
        rewrite X, with_here_here. reflexivity.
    - unfold dig_in in E. destruct (tl (k_parts k)) as [|p ps] eqn:Et.
      + injection E as _ <-. exists []. split; [ apply dug_not; exact Et | symmetry; apply add_branches_nil ].
      + eexists. split; [ exact (dug_nothing k p ps Et) | ]. cbn [dig_loop] in E. unfold dig_step in E.
        unfold run_scoped, xpush, bind, run_op, ret, xaccept in E. destruct O as [O1 O2]. rewrite O1, O2 in E.
        cbn [with_ex s_iv s_ex x_nil x_open x_root x_options x_only] in E. rewrite O1 in E.
        cbn [with_ex s_iv s_ex x_nil x_open x_root x_options x_only xpop] in E. injection E as _ <-.
        unfold here. cbn [s_ex with_ex xpop x_open]. destruct (x_open (s_ex s)) as [|[kd g] rest]; destruct p; reflexivity.
  Qed.

  (** *** Texts and values *)
  Definition text_at (n : nat) : Prop := forall md allow t,
    tells md (run w n (RStr t allow)) (fun _ f f' => exists ns, value_told w sc shown md allow (VStr t) ns /\ f' = add_branches ns f).
  Definition lookup_at (n : nat) : Prop := forall md k opts,
    tells md (run w n (RLookup k opts)) (fun _ f f' => asked_told w sc shown md (match opts with Some o => o | None => [] end) k f f').
  Definition mux_at (n : nat) : Prop := forall md opts key,
    tells md (run w n (RMux opts key)) (fun r f f' => mux_told w sc shown md opts key (fst r) f f').

  Lemma value_tells n : text_at n -> forall md allow v,
    tells md (do_interp (run w n) allow v) (fun _ f f' => exists ns, value_told w sc shown md allow v ns /\ f' = add_branches ns f).
  Proof.
    intros Hn md allow. fix IH 1. intros v s r s' T E.
    destruct v as [|b|z|z|t|l|m|v];
      try (injection E as _ <-; exists []; split; [ apply value_other; exact I | symmetry; apply add_branches_nil ]).
    - exact (Hn md allow t s r s' T E).
    - rewrite do_interp_arr in E. apply bind_ok in E as (x & s1 & E & E2). injection E2 as _ <-.
      assert (G : exists ns, values_told w sc shown md allow l ns /\ here (s_ex s1) = add_branches ns (here (s_ex s))).
      { revert s x s1 T E. induction l as [|y l IHl]; intros s x s1 T E.
        - injection E as _ <-. exists []. split; [ constructor | symmetry; apply add_branches_nil ].
        - cbn [each_arr] in E. apply bind_ok in E as (p & s2 & E1 & E). apply bind_ok in E as (q & s3 & E2 & E3). injection E3 as _ <-.
          destruct (IH y s p s2 T E1) as (ns & N1 & X1). destruct (fine_keeps _ _ _ _ _ _ (fine_interp n allow y) T E1) as [T2 _].
          destruct (IHl s2 q s3 T2 E2) as (ms & N2 & X2). exists (ns ++ ms). split; [ constructor; assumption | ].
          rewrite X2, X1. apply add_branches_twice. }
      destruct G as (ns & N & X). exists ns. split; [ apply value_array; exact N | exact X ].
    - rewrite do_interp_map in E. apply bind_ok in E as (x & s1 & E & E2). injection E2 as _ <-.
      assert (G : forall cp, each_map (run w n) allow m cp s = (Ok x, s1) ->
                  exists ns, values_told w sc shown md allow (all_in m) ns /\ here (s_ex s1) = add_branches ns (here (s_ex s))).
      { clear E. revert s x s1 T. induction m as [|[k v] m IHm]; intros s x s1 T cp E.
        - injection E as _ <-. exists []. split; [ constructor | symmetry; apply add_branches_nil ].
        - cbn [each_map] in E. apply bind_ok in E as (p & s2 & E1 & E). apply bind_ok in E as (q & s3 & E2 & E).
          apply bind_ok in E as (y & s4 & E3 & E4). injection E4 as _ <-.
          destruct (IH k s p s2 T E1) as (ns & N1 & X1). destruct (fine_keeps _ _ _ _ _ _ (fine_interp n allow k) T E1) as [T2 _].
          destruct (IH v s2 q s3 T2 E2) as (ms & N2 & X2). destruct (fine_keeps _ _ _ _ _ _ (fine_interp n allow v) T2 E2) as [T3 _].
          destruct (IHm s3 y s4 T3 _ E3) as (os & N3 & X3). exists (ns ++ ms ++ os). split.
          + change (all_in ((k, v) :: m)) with (k :: v :: all_in m). constructor; [ exact N1 | ]. constructor; assumption.
          + rewrite X3, X2, X1, !add_branches_twice, app_assoc. reflexivity. }
      destruct (G _ E) as (ns & N & X). exists ns. split; [ apply value_map; exact N | exact X ].
  Qed.

  Lemma interpolate_tells n : text_at n -> forall md allow v s o s', telling md s -> interpolate (run w n) allow v s = (Ok o, s') ->
    (exists ns, value_told w sc shown md allow v ns /\ here (s_ex s') = add_branches ns (here (s_ex s))) /\ comes_of w allow v o /\ telling md s'.
  Proof.
    intros Hn md allow v s o s' T E. destruct (interpolate_comes w n allow v s o s' E) as (b & E').
    split; [ exact (value_tells n Hn md allow v s _ s' T E') | ]. split; [ exists n, s, s', b; exact E' | ].
    exact (proj1 (fine_keeps _ _ _ _ _ _ (fine_interp n allow v) T E')).
  Qed.

  Lemma loop_tells n md str allow : text_at n -> lookup_at n -> forall cut last acc m result,
    tells md (istr_loop w (run w n) str allow (toks cut last) acc m result) (fun _ f f' => exprs_told w sc shown md allow (map snd cut) f f').
  Proof.
    intros Ht Hl. induction cut as [|[t e] cut IH]; intros last acc m result s r s' T E.
    - injection E as _ <-. constructor.
    - cbn [toks istr_loop] in E. cbn [map snd]. destruct (empty_interpolation (trim_space e)) eqn:Ee.
      + apply exprs_next with (here (s_ex s)); [ apply expr_empty; apply empty_interpolation_in; exact Ee | exact (IH _ _ _ _ _ _ _ T E) ].
      + apply empty_interpolation_not_in in Ee. apply bind_ok in E as ([me d] & s1 & E1 & E). unfold lift in E1. injection E1 as Em <-.
        apply method_and_data_ok in Em. cbn [fst snd] in E.
        destruct (is_alias me && negb ("%{" ++ e ++ "}" =? str)%string); [ discriminate E | ].
        assert (L : forall name, In name ["lookup"; "hiera"; "alias"; "strict_alias"] -> allow = true -> calls (trim_space e) name d ->
                  forall k s1 v, new_key d = Ok k -> run w n (RLookup k None) s = (Ok v, s1) ->
                  expr_told w sc shown md allow e (here (s_ex s)) (here (s_ex s1)) /\ telling md s1).
        { intros name In_ -> C k s1 v Ek Es. split; [ | exact (proj1 (fine_keeps _ _ _ _ _ _ (fine_run n _) T Es)) ].
          apply new_key_written in Ek as (ps & -> & Wk). apply (expr_lookup w sc shown md e name d ps _ _ C In_ Wk). exact (Hl _ _ _ _ _ _ T Es). }
        destruct me; cbv iota in E.
        * apply bind_ok in E as (v & s1 & Es & E).
          assert (As : asks_scope allow (trim_space e) d).
          { destruct Em as [(_ & -> & Hc)|[Ha Hc]]; [ right; auto | left; auto ]. }
          destruct (fine_keeps _ _ _ _ _ _ (c_in_scope w _ (fine_closed w) (run w n) (run w n) (fine_rec n) allow d) T Es) as [T1 _].
          apply exprs_next with (here (s_ex s1)); [ | exact (IH _ _ _ _ _ _ _ T1 E) ].
          unfold in_scope in Es. apply bind_ok in Es as (k & s2 & E1 & Es). unfold lift in E1. injection E1 as Ek <-.
          apply bind_ok in Es as (x & s2 & E1 & Es). unfold lift in E1. injection E1 as Ex <-.
          apply bind_ok in Es as (sc' & s2 & E1 & Es). unfold run_op in E1. injection E1 as <- <-.
          rewrite (proj1 (proj2 (proj2 T))) in Es. apply new_key_written in Ek as (ps & -> & Wk).
          unfold root in Ex. cbn [k_parts] in Ex. destruct ps as [|[z|x'] ps]; try discriminate Ex. injection Ex as ->.
          destruct (scope_get sc x) as [v'|] eqn:Eg.
          -- apply bind_ok in Es as ([o b] & s2 & E1 & Es). cbn [fst] in Es.
             destruct (value_tells n Ht md allow v' s _ s2 T E1) as (ns & N1 & X1).
             destruct (fine_keeps _ _ _ _ _ _ (fine_interp n allow v') T E1) as [T2 _].
             destruct (dig_tells md _ _ s2 v s1 T2 Es) as (ms & N2 & X2).
             rewrite X2, X1, add_branches_twice.
             apply (expr_variable w sc shown md allow e d x ps _ v' ns o ms Ee As Wk Eg N1); [ | exact N2 ]. exists n, s, s2, b. exact E1.
          -- injection Es as _ <-. exact (expr_unset w sc shown md allow e d x ps _ Ee As Wk Eg).
        * destruct Em as [(C & _)|[Ha C]]; [ discriminate | ].
          apply bind_ok in E as (k & s1 & E1 & E). unfold lift in E1. injection E1 as Ek <-. apply bind_ok in E as (v & s1 & Es & E).
          destruct (L "alias" ltac:(cbn; tauto) Ha C k s1 v Ek Es) as [G T1].
          apply exprs_next with (here (s_ex s1)); [ exact G | exact (IH _ _ _ _ _ _ _ T1 E) ].
        * destruct Em as [(C & _)|[Ha C]]; [ discriminate | ].
          apply bind_ok in E as (k & s1 & E1 & E). unfold lift in E1. injection E1 as Ek <-. apply bind_ok in E as (v & s1 & Es & E).
          destruct (L "strict_alias" ltac:(cbn; tauto) Ha C k s1 v Ek Es) as [G T1].
          apply exprs_next with (here (s_ex s1)); [ exact G | exact (IH _ _ _ _ _ _ _ T1 E) ].
        * destruct Em as [(C & _)|[Ha C]]; [ discriminate | ].
          apply bind_ok in E as (k & s1 & E1 & E). unfold lift in E1. injection E1 as Ek <-. apply bind_ok in E as (v & s1 & Es & E).
          assert (G : expr_told w sc shown md allow e (here (s_ex s)) (here (s_ex s1)) /\ telling md s1).
          { destruct C as [C|C]; [ apply (L "lookup" ltac:(cbn; tauto) Ha C k s1 v Ek Es) | apply (L "hiera" ltac:(cbn; tauto) Ha C k s1 v Ek Es) ]. }
          destruct G as [G T1]. apply exprs_next with (here (s_ex s1)); [ exact G | exact (IH _ _ _ _ _ _ _ T1 E) ].
        * destruct Em as [(C & _)|[Ha C]]; [ discriminate | ]. subst allow.
          apply exprs_next with (here (s_ex s)); [ exact (expr_literal w sc shown md e d _ C) | exact (IH _ _ _ _ _ _ _ T E) ].
  Qed.

  Lemma istr_tells n md allow t : text_at n -> lookup_at n ->
    tells md (istr w (run w n) t allow) (fun _ f f' => exists ns, value_told w sc shown md allow (VStr t) ns /\ f' = add_branches ns f).
  Proof.
    intros Ht Hl s r s' T E. unfold istr in E. destruct (contains "%{" t) eqn:Ec; cbn [negb] in E.
    - apply bind_ok in E as (v & s1 & E1 & E). injection E as _ <-.
      destruct (cut_exists t) as (cut & last & Hw & Et). rewrite <- Et in E1 at 3. rewrite (tokens_cut _ _ Hw) in E1.
      match type of E1 with run_scoped (SNode ?k ?i) ?m _ = _ => assert (Fm : fine _ m m) end.
      { apply (c_bind w _ (fine_closed w)).
        - apply (c_istr_loop w _ (fine_closed w)). exact (fine_rec n).
        - intros [[acc m] res]. apply fine_ret. }
      pose proof (fun H => tells_node md _ _ _ _ (fun _ f f' => exprs_told w sc shown md allow (map snd cut) f f') Fm H s v s1 T E1) as G.
      destruct G as (g & G & X).
      { intros s2 x s3 T2 E2. apply bind_ok in E2 as ([[acc m] res] & s4 & E2 & E3). injection E3 as _ <-.
        exact (loop_tells n md t allow Ht Hl _ _ _ _ _ _ _ _ T2 E2). }
      eexists. split; [ | exact X ]. apply (value_text w sc shown md allow t cut last g); auto. apply contains_has. exact Ec.
    - injection E as _ <-. exists []. split; [ | symmetry; apply add_branches_nil ]. apply value_plain. apply contains_not. exact Ec.
  Qed.

  (** *** Programs of users *)
  Lemma ask_there {A} e (o : list event -> A) s x s' : ask e o s = (Ok x, s') -> s_ex s' = s_ex s /\ s_iv s' = s_iv s /\ x = o (s_trace s).
  Proof. unfold ask, bind, run_op, ret. intro E. injection E as <- <-. auto. Qed.

  Lemma telling_same md s s' : telling md s -> s_ex s' = s_ex s -> s_iv s' = s_iv s -> telling md s'.
  Proof. intros (O & J) X I. unfold telling, on, in_mode. rewrite X, I. exact (conj O J). Qed.

  Lemma prog_tells n md : text_at n -> lookup_at n -> forall p,
    tells md (run_prog (run w n) p) (fun r f f' => prog_told w sc shown md p r f f').
  Proof.
    intros Ht Hl. induction p as [v|e|v k IH|key o k IH|key v k IH|key k IH|key k IH|k IH|t k IH];
      intros s r s' T E; cbn [run_prog] in E.
    - injection E as <- <-. apply prog_ret.
    - discriminate E.
    - apply bind_ok in E as (x & s1 & E1 & E). destruct (interpolate_tells n Ht md true v s x s1 T E1) as ((ns & N & X) & C & T1).
      apply (prog_interpolate w sc shown md v k x ns r _ _ N C). rewrite <- X. exact (IH x s1 r s' T1 E).
    - apply bind_ok in E as (ky & s1 & E1 & E). unfold lift in E1. injection E1 as Ek <-. apply new_key_written in Ek as (ps & -> & Wk).
      apply bind_ok in E as (x & s1 & E1 & E). destruct (fine_keeps _ _ _ _ _ _ (fine_run n _) T E1) as [T1 _].
      exact (prog_lookup w sc shown md key o k ps (fst x) r _ _ _ Wk (Hl md _ o s x s1 T E1) (IH _ s1 r s' T1 E)).
    - apply bind_ok in E as (old & s1 & E1 & E). unfold run_op in E1. injection E1 as <- <-.
      apply bind_ok in E as ([] & s1 & E1 & E). unfold run_op in E1. injection E1 as <-.
      refine (prog_cache w sc shown md key v k _ r _ _ (IH _ _ r s' _ E)). exact T.
    - apply bind_ok in E as (x & s1 & E1 & E). unfold run_op in E1. injection E1 as <- <-.
      exact (prog_cached w sc shown md key k _ r _ _ (IH _ _ r s' T E)).
    - apply bind_ok in E as (x & s1 & E1 & E). unfold run_op in E1. injection E1 as <- <-.
      rewrite (proj1 (proj2 (proj2 T))) in E. apply prog_scope. exact (IH _ _ r s' T E).
    - apply bind_ok in E as (x & s1 & E1 & E). unfold run_op in E1. injection E1 as <- <-.
      rewrite (proj1 (proj2 T)) in E. apply prog_mode. exact (IH _ _ r s' T E).
    - apply bind_ok in E as ([] & s1 & E1 & E). destruct (fine_keeps _ _ _ _ _ _ (fine_op _ (OReport (RText t)) eq_refl) T E1) as [T1 _].
      apply prog_explain. pose proof (tells_report md (RText t) s tt s1 T E1) as X. unfold says. cbn [report_frame] in X. rewrite <- X.
      exact (IH s1 r s' T1 E).
  Qed.

  Lemma fn_tells n md fn a : text_at n -> lookup_at n ->
    tells md (call_fn w (run w n) fn a) (fun r f f' => exists t, prog_told w sc shown md (w_call w t fn a) r f f').
  Proof.
    intros Ht Hl s r s' T E. unfold call_fn in E. apply bind_ok in E as (p & s1 & E1 & E). apply ask_there in E1 as (X & I & ->).
    exists (s_trace s). rewrite <- X. exact (prog_tells n md Ht Hl _ s1 r s' (telling_same md s s1 T X I) E).
  Qed.

  (** *** Functions of entries *)
  Lemma load_function_there e nm s x s' : load_function w e nm s = (Ok x, s') -> s_ex s' = s_ex s /\ s_iv s' = s_iv s.
  Proof.
    intro E. unfold load_function in E. apply bind_ok in E as (h & s1 & E1 & E). apply ask_there in E1 as (X & I & _).
    destruct h; [ injection E as _ <-; auto | ]. destruct (loader_path (plugin_path (w_cwd w) e nm)) as [q|]; [ | injection E as _ <-; auto ].
    apply bind_ok in E as (o & s2 & E2 & E). apply ask_there in E2 as (X2 & I2 & _).
    apply bind_ok in E as (b & s3 & E3 & E). unfold lift in E3. injection E3 as _ <-. injection E as _ <-. split; congruence.
  Qed.

  Lemma load_other_on e fd s l s' : on s -> (x <- load_function w e (f_name fd) ;;
      match x with
      | Some r => ret (LdFn r)
      | None => run_op (OReport (RText ("unresolved function '" ++ f_name fd ++ "'"))) ;;; ret LdNone
      end) s = (Ok l, s') ->
    match l with LdNone => here (s_ex s') = says ("unresolved function '" ++ f_name fd ++ "'") (here (s_ex s)) | _ => here (s_ex s') = here (s_ex s) end.
  Proof.
    intros T E. apply bind_ok in E as (x & s1 & E1 & E). apply load_function_there in E1 as (X & I).
    destruct x as [q|]; [ injection E as <- <-; rewrite X; reflexivity | ].
    apply bind_ok in E as ([] & s2 & E2 & E). injection E as <- <-.
    assert (T1 : on s1) by (split; [ rewrite I; exact (proj1 T) | rewrite X; exact (proj2 T) ]).
    rewrite (proj1 (proj2 (report_here _ _ _ T1 E2))), X. reflexivity.
  Qed.

  Lemma load_on e fd s l s' : on s -> load_provider w e fd s = (Ok l, s') ->
    match l with LdNone => here (s_ex s') = says ("unresolved function '" ++ f_name fd ++ "'") (here (s_ex s)) | _ => here (s_ex s') = here (s_ex s) end.
  Proof.
    intros T E. pose proof (fun E => load_other_on e fd s l s' T E) as G.
    unfold load_provider in E. destruct (f_kind fd); [ exact (G E) | | ];
      repeat match type of E with (if ?b then _ else _) _ = _ => destruct b; [ injection E as <- <-; reflexivity | ] end; exact (G E).
  Qed.

  Lemma function_tells md id e fd : tells md (provider_function w id e fd) (fun l f f' => load_told fd l f f').
  Proof.
    intros s l s' T E. unfold provider_function in E. apply bind_ok in E as (x & s1 & E1 & E). unfold run_op in E1. injection E1 as <- <-.
    destruct (ps_fn (s_provs s id)); [ injection E as <- <-; apply load_kept | ].
    apply bind_ok in E as (l' & s1 & E1 & E). apply bind_ok in E as ([] & s2 & E2 & E). injection E as <- <-.
    unfold run_op in E2. injection E2 as <-. cbn [s_ex with_prov]. pose proof (load_on e fd s l' s1 (proj1 T) E1) as X.
    destruct l'; rewrite X; first [ apply load_kept | apply load_lost ].
  Qed.

  Lemma options_there e loc s os s' : provider_options e loc s = (Ok os, s') -> s_ex s' = s_ex s /\ s_iv s' = s_iv s.
  Proof.
    intro E. unfold provider_options in E. destruct loc as [l|]; [ | injection E as _ <-; auto ].
    apply bind_ok in E as (x & s2 & E2 & E). unfold lift in E2. injection E2 as _ <-. injection E as _ <-. auto.
  Qed.

  Lemma file_there json opts s h s' : file_data w json opts s = (Ok h, s') -> s_ex s' = s_ex s /\ s_iv s' = s_iv s.
  Proof.
    intro E. unfold file_data in E. destruct (mgets "path" opts) as [pv|]; [ | discriminate E ].
    apply bind_ok in E as (c & s1 & E1 & E).
    assert (X : s_ex s1 = s_ex s /\ s_iv s1 = s_iv s) by (destruct json; apply ask_there in E1; tauto).
    destruct c as [|e|[]]; try discriminate E; injection E as _ <-; exact X.
  Qed.

  Lemma key_tells n md l opts x : text_at n -> lookup_at n ->
    tells md (call_key w (run w n) l opts x) (fun r f f' => call_told w sc shown md l opts x r f f').
  Proof.
    intros Ht Hl s r s' T E. destruct l; cbn [call_key] in E; try (injection E as <- <-; apply call_nothing; exact I).
    - injection E as <- <-. apply call_env.
    - unfold scope_lookup in E. apply bind_ok in E as (y & s1 & E1 & E). unfold run_op in E1. injection E1 as <- <-.
      injection E as <- <-. rewrite (proj1 (proj2 (proj2 T))). apply call_scope.
    - destruct (fn_tells n md _ _ Ht Hl s r s' T E) as (t & P). exact (call_user w sc shown md _ opts x t r _ _ P).
  Qed.

  Lemma fine_function id e fd : fine _ (provider_function w id e fd) (provider_function w id e fd).
  Proof. apply (c_provider_function w _ (fine_closed w)). Qed.

  Lemma hash_tells n md p fd loc : text_at n -> lookup_at n ->
    tells md (data_hash w (run w n) (p_id p) (p_entry p) fd loc) (fun _ f f' => hash_told w sc shown md fd f f').
  Proof.
    intros Ht Hl s r s' T E. unfold data_hash in E. apply bind_ok in E as (k & s1 & E1 & E).
    assert (X1 : s_ex s1 = s_ex s /\ s_iv s1 = s_iv s).
    { destruct loc; [ unfold lift in E1 | ]; injection E1 as _ <-; auto. }
    apply bind_ok in E as (os & s2 & E2 & E). apply options_there in E2 as X2.
    apply bind_ok in E as (h & s3 & E3 & E).
    assert (X3 : s_ex s3 = s_ex s2 /\ s_iv s3 = s_iv s2).
    { unfold run_scoped, run_op in E3. destruct (ps_locked (s_provs s2 (p_id p))); [ discriminate E3 | ]. injection E3 as _ <-. auto. }
    assert (Y : s_ex s3 = s_ex s /\ s_iv s3 = s_iv s) by (destruct X1, X2, X3; split; congruence).
    destruct Y as [Y1 Y2]. pose proof (telling_same md s s3 T Y1 Y2) as T3. rewrite <- Y1. clear X1 X2 X3 E1 E2 E3.
    destruct h as [m|]; [ injection E as _ <-; apply hash_known | ].
    unfold fill in E. clear Y1 Y2. revert s3 r s' T3 E. clear s T.
    cut (tells md (h <- run_op (OHash (p_id p) k) ;;
       match h with
       | Some m => ret m
       | None => x <- (l <- provider_function w (p_id p) (p_entry p) fd ;; call_hash w (run w n) l os) ;; run_op (OPutHash (p_id p) k x) ;;; ret x
       end) (fun _ f f' => hash_told w sc shown md fd f f')).
    { intros H s3 r s' T3 E. exact (tells_locked md _ _ _ _ H s3 r s' T3 E). }
    clear s1 s2. intros s r s' T E. apply bind_ok in E as (h & s1 & E1 & E). unfold run_op in E1. injection E1 as <- <-.
    destruct (aget k (ps_hashes (s_provs s (p_id p)))) as [m|]; [ injection E as _ <-; apply hash_known | ].
    apply bind_ok in E as (x & s1 & E1 & E). apply bind_ok in E as ([] & s2 & E2 & E). injection E as _ <-.
    unfold run_op in E2. injection E2 as <-. cbn [s_ex with_prov].
    apply bind_ok in E1 as (l & s2 & E2 & E1). pose proof (function_tells md _ _ _ s l s2 T E2) as L.
    destruct (fine_keeps _ _ _ _ _ _ (fine_function _ _ _) T E2) as [T2 _].
    destruct l; cbn [call_hash] in E1; try (injection E1 as _ <-; exact (hash_loaded w sc shown md fd _ _ _ L)).
    - apply file_there in E1 as [-> _]. exact (hash_loaded w sc shown md fd _ _ _ L).
    - apply file_there in E1 as [-> _]. exact (hash_loaded w sc shown md fd _ _ _ L).
    - apply bind_ok in E1 as (v & s3 & E3 & E1). injection E1 as _ <-.
      destruct (fn_tells n md _ _ Ht Hl s2 v s3 T2 E3) as (t & P). exact (hash_called w sc shown md fd _ t os v _ _ _ L P).
  Qed.

  Lemma found_tells md q v (o : option value) : tells md (report_found q v ;;; ret o) (fun r f f' => r = o /\ f' = answered q v f).
  Proof.
    intros s r s' T E. apply bind_ok in E as ([] & s1 & E1 & E). injection E as <- <-. unfold report_found in E1.
    split; [ reflexivity | ]. destruct v as [x|]; rewrite (tells_report md _ _ _ _ T E1); reflexivity.
  Qed.

  Lemma fine_hash n p fd loc : fine _ (data_hash w (run w n) (p_id p) (p_entry p) fd loc) (data_hash w (run w n) (p_id p) (p_entry p) fd loc).
  Proof. apply (c_data_hash w _ (fine_closed w)). exact (fine_rec n). Qed.

  Lemma reply_tells n md k p fd loc : text_at n -> lookup_at n -> e_function (p_entry p) = Some fd ->
    tells md (provider_lookup w (run w n) k p loc) (fun r f f' => reply_told w sc shown md k p fd loc r f f').
  Proof.
    intros Ht Hl Hf s r s' T E. unfold provider_lookup in E. rewrite Hf in E. destruct (f_kind fd) eqn:Ek.
    - apply bind_ok in E as (os & s1 & E1 & E). apply options_there in E1 as [X1 I1]. pose proof (telling_same md s s1 T X1 I1) as T1.
      apply bind_ok in E as (l & s2 & E2 & E). pose proof (function_tells md _ _ _ s1 l s2 T1 E2) as L.
      destruct (fine_keeps _ _ _ _ _ _ (fine_function _ _ _) T1 E2) as [T2 _]. rewrite X1 in L.
      apply bind_ok in E as (v & s3 & E3 & E).
      assert (X3 : s_ex s3 = s_ex s2 /\ s_iv s3 = s_iv s2) by (unfold call_dig in E3; destruct l; injection E3 as _ <-; auto).
      destruct X3 as [X3 I3]. pose proof (telling_same md s2 s3 T2 X3 I3) as T3.
      destruct v as [x|]; destruct (found_tells md _ _ _ s3 r s' T3 E) as [-> ->]; rewrite X3.
      + exact (reply_dug w sc shown md k p fd loc l x _ _ Ek L).
      + exact (reply_missed w sc shown md k p fd loc l _ _ Ek L).
    - apply bind_ok in E as (x & s1 & E1 & E). unfold lift in E1. injection E1 as Ex <-.
      unfold root in Ex. destruct (k_parts k) as [|[z|x'] ps] eqn:Ep; try discriminate Ex. injection Ex as ->.
      apply bind_ok in E as (h & s1 & E1 & E). pose proof (hash_tells n md p fd loc Ht Hl s h s1 T E1) as Hh.
      assert (Hi : hash_is w p fd loc h) by (exists n, s, s1; exact E1).
      destruct (fine_keeps _ _ _ _ _ _ (fine_hash n p fd loc) T E1) as [T1 _].
      apply bind_ok in E as (v & s2 & E2 & E). destruct (mgets x h) as [y|] eqn:Ey.
      + destruct (interpolate_tells n Ht md true y s1 v s2 T1 E2) as ((vs & N & X) & C & T2).
        destruct (found_tells md _ _ _ s2 r s' T2 E) as [-> ->]. rewrite X.
        exact (reply_hash w sc shown md k p fd loc x ps h _ _ y vs v Ek Ep Hh Hi Ey N C).
      + injection E2 as <- <-. destruct (found_tells md _ _ _ s1 r s' T1 E) as [-> ->].
        exact (reply_none w sc shown md k p fd loc x ps h _ _ Ek Ep Hh Hi Ey).
    - apply bind_ok in E as (x & s1 & E1 & E). unfold lift in E1. injection E1 as Ex <-.
      unfold root in Ex. destruct (k_parts k) as [|[z|x'] ps] eqn:Ep; try discriminate Ex. injection Ex as ->.
      apply bind_ok in E as (os & s1 & E1 & E). apply options_there in E1 as [X1 I1]. pose proof (telling_same md s s1 T X1 I1) as T1.
      apply bind_ok in E as (l & s2 & E2 & E). pose proof (function_tells md _ _ _ s1 l s2 T1 E2) as L.
      destruct (fine_keeps _ _ _ _ _ _ (fine_function _ _ _) T1 E2) as [T2 _]. rewrite X1 in L.
      apply bind_ok in E as (v & s3 & E3 & E). pose proof (key_tells n md l os x Ht Hl s2 v s3 T2 E3) as K.
      assert (Fk : fine _ (call_key w (run w n) l os x) (call_key w (run w n) l os x)) by (apply (c_call_key w _ (fine_closed w)); exact (fine_rec n)).
      destruct (fine_keeps _ _ _ _ _ _ Fk T2 E3) as [T3 _].
      destruct (found_tells md _ _ _ s3 r s' T3 E) as [-> ->].
      exact (reply_key w sc shown md k p fd loc x ps os l v _ _ _ Ek Ep L K).
  Qed.

  Lemma tells_asks {X} md (item : X -> option value -> node -> Prop) (f : X -> M st (option value)) :
    (forall x, fine _ (f x) (f x)) -> (forall x, tells md (f x) (fun r g g' => exists nd, item x r nd /\ g' = add_branches [nd] g)) ->
    forall x s r s', on s /\ in_mode md s -> f x s = (Ok r, s') ->
      (on s' /\ in_mode md s') /\ exists nd, item x r nd /\ s_ex s' = with_here (add_branches [nd]) (s_ex s).
  Proof.
    intros Hf Ht x s r s' O E. destruct (fine_keeps _ _ md s r s' (Hf x) O E) as [T' P]. split; [ exact T' | ].
    destruct (Ht x s r s' O E) as (nd & N & X'). exists nd. split; [ exact N | ].
    rewrite (placed_here _ _ P), X'. apply set_with.
  Qed.

  Lemma place_tells n md k p fd l : text_at n -> lookup_at n -> e_function (p_entry p) = Some fd ->
    tells md (invoke w (run w n) k p l) (fun r f f' => exists nd, place_told w sc shown md k p fd l r nd /\ f' = add_branches [nd] f).
  Proof.
    intros Ht Hl Hf. unfold invoke.
    match goal with |- tells _ (run_scoped (SNode ?k ?i) ?m) _ => assert (Fl : fine _ m m) end.
    { destruct (loc_exists l).
      - apply (c_provider_lookup w _ (fine_closed w)). exact (fine_rec n).
      - apply (c_bind w _ (fine_closed w)); [ apply fine_op; reflexivity | intro; apply fine_ret ]. }
    intros s r s' T E.
    match type of Fl with fine _ ?m _ => enough (Hm : tells md m (fun r f f' => f = new_frame "" -> place_told w sc shown md k p fd l r (close (NLocation l) f'))) end.
    { destruct (tells_node md _ _ _ _ _ Fl Hm s r s' T E) as (g & G & X). exists (close (NLocation l) g). split; [ exact (G eq_refl) | exact X ]. }
    clear s r s' T E. intros s r s' T E Hh. destruct (loc_exists l) eqn:El.
    - apply place_there; [ apply there_exists; exact El | ]. rewrite <- Hh. exact (reply_tells n md k p fd (Some l) Ht Hl Hf s r s' T E).
    - apply bind_ok in E as ([] & s1 & E1 & E). injection E as <- <-. rewrite (tells_report md _ _ _ _ T E1), Hh. apply place_absent. apply not_there. exact El.
  Qed.

  Lemma fine_invoke n k p l : fine _ (invoke w (run w n) k p l) (invoke w (run w n) k p l).
  Proof. apply (c_invoke w _ (fine_closed w)). exact (fine_rec n). Qed.

  Lemma entry_tells n md k st p : text_at n -> lookup_at n ->
    tells md (merge_locations w (run w n) k st p) (fun r f f' => exists nd, entry_told w sc shown md k st p r nd /\ f' = add_branches [nd] f).
  Proof.
    intros Ht Hl. unfold merge_locations. destruct (e_function (p_entry p)) as [fd|] eqn:Hf; [ | intros s r s' _ E; discriminate E ].
    match goal with |- tells _ (run_scoped (SNode ?k ?i) ?m) _ => assert (Fm : fine _ m m) end.
    { destruct (e_locations (p_entry p)) as [[|x [|y ls]]|]; [ apply fine_ret | apply fine_invoke | | ].
      - apply (c_merging w _ (fine_closed w)). intro. apply fine_invoke.
      - apply (c_provider_lookup w _ (fine_closed w)). exact (fine_rec n). }
    intros s r s' T E.
    match type of Fm with fine _ ?m _ => enough (Hm : tells md m (fun r f f' => f = new_frame "" -> entry_told w sc shown md k st p r (close (NProvider (full_name fd)) f'))) end.
    { destruct (tells_node md _ _ _ _ _ Fm Hm s r s' T E) as (g & G & X). exists (close (NProvider (full_name fd)) g). split; [ exact (G eq_refl) | exact X ]. }
    clear s r s' T E. intros s r s' T E Hh.
    destruct (e_locations (p_entry p)) as [[|x [|y ls]]|] eqn:El.
    - injection E as <- <-. rewrite Hh. apply (entry_places w sc shown md k st p fd (full_name fd) [] None None []); try assumption; [ apply full_called | constructor ].
    - destruct (place_tells n md k p fd x Ht Hl Hf s r s' T E) as (nd & N & X). rewrite X, Hh.
      apply (entry_places w sc shown md k st p fd (full_name fd) [x] r None [nd]); try assumption; [ apply full_called | ].
      econstructor; [ exact N | ]. rewrite lookup_of_pure. destruct r; reflexivity.
    - destruct (asks_merge (place_told w sc shown md k p fd) (invoke w (run w n) k p) (in_mode md) (steady_mode md)
                  (tells_asks _ _ _ (fine_invoke n k p) (fun l => place_tells n md k p fd l Ht Hl Hf)) st (x :: y :: ls) s r s' T E)
        as (_ & ns & r' & N & X). rewrite X, with_here_here, Hh.
      pose proof (entry_places w sc shown md k st p fd (full_name fd) (x :: y :: ls) r r' ns Hf (full_called fd) El N) as G.
      destruct r'; exact G.
    - apply (entry_whole w sc shown md k st p fd (full_name fd)); try assumption; [ apply full_called | ].
      rewrite <- Hh. exact (reply_tells n md k p fd None Ht Hl Hf s r s' T E).
  Qed.

  Lemma fine_entry n k st p : fine _ (merge_locations w (run w n) k st p) (merge_locations w (run w n) k st p).
  Proof. apply (c_merge_locations w _ (fine_closed w)). exact (fine_rec n). Qed.
  Lemma fine_hierarchy n k ps st : fine _ (merge_hierarchy w (run w n) k ps st) (merge_hierarchy w (run w n) k ps st).
  Proof. apply (c_merge_hierarchy w _ (fine_closed w)). exact (fine_rec n). Qed.

  Lemma hierarchy_tells n md k ps st : text_at n -> lookup_at n ->
    tells md (merge_hierarchy w (run w n) k ps (Some st)) (fun r f f' => exists ns r', merge_told (entry_told w sc shown md k st) st ps r ns r' /\
      f' = mark r' (add_branches ns f)).
  Proof.
    intros Ht Hl s r s' T E.
    destruct (asks_merge (entry_told w sc shown md k st) (merge_locations w (run w n) k st) (in_mode md) (steady_mode md)
                (tells_asks _ _ _ (fine_entry n k st) (fun p => entry_tells n md k st p Ht Hl)) st ps s r s' T E) as (_ & ns & r' & N & X).
    exists ns, r'. split; [ exact N | ]. rewrite X, with_here_here. reflexivity.
  Qed.

  (** *** Searching for lookup options and for data *)

  Lemma search_tells md (m : M st (option value)) P : fine _ m m -> tells MdLookup m P ->
    tells md (run_scoped SLookup m) (fun r f f' => (md = MdLookup \/ shown = true) /\ P r f f' \/ md <> MdLookup /\ shown = false /\ f' = f).
  Proof.
    intros Fm Hm s r s' T E. pose proof T as ((O1 & O2) & M & C & X1 & X2). unfold run_scoped in E. rewrite M in E.
    assert (D : md <> MdLookup -> with_copy (fun i => iv_with_mode MdLookup (iv_with_expl (iv_expl i && (x_options (s_ex s) || x_only (s_ex s))) i)) m s = (Ok r, s') ->
      (md = MdLookup \/ shown = true) /\ P r (here (s_ex s)) (here (s_ex s')) \/ md <> MdLookup /\ shown = false /\ here (s_ex s') = here (s_ex s)).
    { intros N E'. unfold with_copy in E'.
      match type of E' with (let (o, s'0) := m ?x in _) = _ => set (sd := x) in *; destruct (m sd) as [o s1] eqn:Em; injection E' as -> <- end.
      cbn [s_ex with_iv]. destruct shown eqn:Sh.
      - left. split; [ auto | ]. refine (Hm sd r s1 _ Em). split; [ split; [ | exact O2 ] | split; [ reflexivity | split; [ exact C | split; [ exact X1 | exact (eq_trans X2 (eq_sym Sh)) ] ] ] ].
        unfold sd. cbn. rewrite O1, X2. reflexivity.
      - right. split; [ exact N | ]. split; [ reflexivity | ].
        pose proof (P_Modes.kept_silent m (proj1 (proj2 Fm)) sd) as Q. rewrite Em in Q. cbn [snd] in Q. rewrite Q; [ reflexivity | ].
        unfold sd. cbn. rewrite O1, X1, X2. reflexivity. }
    destruct md; [ apply D; [ discriminate | exact E ] | | apply D; [ discriminate | exact E ] ].
    left. split; [ auto | ]. exact (Hm s r s' T E).
  Qed.

  Lemma data_tells A md (m : M st A) P : tells MdData m P -> tells md (run_scoped SData m) P.
  Proof.
    intros Hm s r s' T E. pose proof T as ((O1 & O2) & M & C & X1 & X2). unfold run_scoped in E. rewrite M in E.
    assert (D : with_copy (fun i => iv_with_mode MdData (iv_with_expl (iv_expl i && negb (x_only (s_ex s))) i)) m s = (Ok r, s') ->
      P r (here (s_ex s)) (here (s_ex s'))).
    { intros E'. unfold with_copy in E'.
      match type of E' with (let (o, s'0) := m ?x in _) = _ => set (sd := x) in *; destruct (m sd) as [o s1] eqn:Em; injection E' as -> <- end.
      cbn [s_ex with_iv]. refine (Hm sd r s1 _ Em). split; [ split; [ | exact O2 ] | split; [ reflexivity | split; [ exact C | split; [ exact X1 | exact X2 ] ] ] ].
      unfold sd. cbn. rewrite O1, X1. reflexivity. }
    destruct md; [ exact (D E) | exact (D E) | exact (Hm s r s' T E) ].
  Qed.

  (** *** Reading a configuration *)

  Lemma config_searched n p module md s cfg s' : text_at n -> lookup_at n -> telling md s -> get_config w (run w n) p module s = (Ok cfg, s') ->
    match aget (if String.eqb p "" then w_cfgpath w else p) (s_configs s) with
    | Some _ => s_ex s' = s_ex s
    | None => (md = MdLookup \/ shown = true) /\
        (exists r ns r', merge_told (entry_told w sc shown MdLookup options_key (SDeep [])) (SDeep []) (rc_providers cfg) r ns r' /\ rc_luopts cfg = as_map r /\
           here (s_ex s') = add_branches [Node NLookup ns [] (match r' with Some _ => "result" | None => "" end) r' "lookup_options"] (here (s_ex s)))
        \/ md <> MdLookup /\ shown = false /\ here (s_ex s') = here (s_ex s)
    end.
  Proof.
    intros Ht Hl T E.
    unfold get_config in E. set (path := if String.eqb p "" then w_cfgpath w else p) in *. cbv zeta in E.
    apply bind_ok in E as (x & s1 & E1 & E). unfold run_op in E1. injection E1 as <- <-.
    destruct (aget path (s_configs s)) as [rc|]; [ injection E as _ <-; reflexivity | ].
    apply bind_ok in E as (c & s1 & E1 & E). destruct (P_Modes.shared_same w path s) as [X1 I1]. rewrite E1 in X1, I1. cbn [snd] in X1, I1.
    apply bind_ok in E as (rc & s2 & E2 & E). apply bind_ok in E as ([] & s3 & E3 & E). injection E as <- <-.
    unfold run_op in E3. injection E3 as <-. cbn [s_ex with_configs] in *.
    pose proof (telling_same md s s1 T X1 I1) as T1.
    unfold resolve_config in E2. apply bind_ok in E2 as ([ps ds] & s3 & E3 & E2).
    match type of E3 with run_scoped SConfig ?m _ = _ => assert (K : fine _ m m) end.
    { pose proof (fine_closed w) as C.
      apply (c_bind w _ C); [ apply (c_create_providers w _ C); exact (fine_rec n) | intro ].
      apply (c_bind w _ C); [ apply (c_create_providers w _ C); exact (fine_rec n) | intro; apply (c_lift w _ C) ]. }
    pose proof (P_Modes.config_silent _ s1 (P_Modes.kept_silent _ (proj1 (proj2 K)))) as X3. rewrite E3 in X3. cbn [snd] in X3.
    assert (I3 : s_iv s3 = s_iv s1).
    { unfold run_scoped in E3. rewrite (proj1 (proj1 T1)) in E3. unfold with_copy in E3.
      match type of E3 with (let (o, s'0) := ?m ?x in _) = _ => destruct (m x) as [o sx]; injection E3 as _ <-; reflexivity end. }
    pose proof (telling_same md s1 s3 T1 X3 I3) as T3.
    apply bind_ok in E2 as (k & s4 & E4 & E2).
    change (lift (new_key "lookup_options") s3 : outcome key * st) with (Ok (mk_key "lookup_options" [PStr "lookup_options"]) : outcome key, s3) in E4.
    injection E4 as <- <-.
    apply bind_ok in E2 as (v & s4 & E4 & E2). injection E2 as <- <-. cbn [fst snd k_source rc_providers rc_luopts] in *.
    assert (Xs : s_ex s3 = s_ex s) by congruence. rewrite <- Xs.
    match type of E4 with run_scoped SLookup (run_scoped _ ?m) _ = _ => assert (Fm : fine _ m m) end.
    { apply (c_merging w _ (fine_closed w)). intro. apply fine_entry. }
    assert (Hm : tells MdLookup _ _) by exact (hierarchy_tells n MdLookup options_key ps (SDeep []) Ht Hl).
    pose proof (tells_node MdLookup _ NLookup "lookup_options" _ _ Fm Hm) as Hn.
    destruct (search_tells md _ _ (c_scoped w _ (fine_closed w) _ (SNode NLookup "lookup_options") _ _ ltac:(discriminate) Fm) Hn s3 v s4 T3 E4) as [(Hs & g & (ns & r' & N & Hg) & X)|X].
    - left. split; [ exact Hs | ]. exists v, ns, r'. split; [ exact N | ]. split; [ reflexivity | ]. rewrite X, Hg. destruct r'; reflexivity.
    - right. exact X.
  Qed.

  Lemma config_tells n p module md : text_at n -> lookup_at n ->
    tells md (get_config w (run w n) p module) (fun cfg f f' => exists os, options_told w sc shown md cfg os /\ f' = add_branches os f).
  Proof.
    intros Ht Hl s cfg s' T E. pose proof (config_searched n p module md s cfg s' Ht Hl T E) as H.
    assert (Z : here (s_ex s') = here (s_ex s) -> exists os, options_told w sc shown md cfg os /\ here (s_ex s') = add_branches os (here (s_ex s))).
    { intros ->. exists []. split; [ apply options_untold | symmetry; apply add_branches_nil ]. }
    destruct (aget _ (s_configs s)); [ apply Z; rewrite H; reflexivity | ].
    destruct H as [(Hs & r & ns & r' & N & R & X)|(_ & _ & X)]; [ | exact (Z X) ].
    eexists. split; [ exact (options_searched w sc shown md cfg r ns r' Hs N R) | exact X ].
  Qed.

  (** *** Lookups in a configuration *)

  Lemma set_merge_tells md cli lo : tells md (set_merge cli lo) (fun _ f f' => exists src, source_told cli lo src /\ f' = add_branches src f).
  Proof.
    intros s [] s' T E. destruct (set_merge_told _ _ _ _ (proj1 T) E) as (_ & src & N & X). exists src. split; [ exact N | ].
    rewrite X, with_here_here. reflexivity.
  Qed.

  Lemma conversion_untold s c s' : extract_conversion w s = (Ok c, s') -> s' = s.
  Proof.
    intro Ex. unfold extract_conversion in Ex. apply bind_ok in Ex as (lu & s8 & Eu & Ex). unfold run_op in Eu. injection Eu as _ <-.
    destruct (conversion lu) as [[[]]|]; try discriminate Ex; try (injection Ex as _ <-; reflexivity).
    apply bind_ok in Ex as (ty & s8 & Ey & Ex). unfold lift in Ey. injection Ey as _ <-. injection Ex as _ <-. reflexivity.
  Qed.

  Lemma convert_tells md m P : tells md m P ->
    tells md (lookup_and_convert w m) (fun r f f' => exists r0, P r0 f f' /\ (r0 = None <-> r = None)).
  Proof.
    intros Hm s r s' T E. unfold lookup_and_convert in E. apply bind_ok in E as (c & s1 & E1 & E).
    apply conversion_untold in E1. subst s1. apply bind_ok in E as (r0 & s1 & E1 & E). exists r0.
    assert (R : (r0 = None <-> r = None) /\ s' = s1).
    { destruct r0 as [v|]; [ | injection E as <- <-; tauto ].
      destruct c as [[ty a]|]; [ | injection E as <- <-; split; [ split; discriminate | reflexivity ] ].
      apply bind_ok in E as (y & s8 & E5 & E4). unfold lift in E5. injection E5 as _ <-. injection E4 as <- <-. split; [ split; discriminate | reflexivity ]. }
    destruct R as [R ->]. split; [ | exact R ].
    destruct c as [[[] a]|]; try exact (Hm s r0 s1 T E1).
    unfold run_scoped in E1. destruct (iv_redacted (s_iv s)); [ exact (Hm s r0 s1 T E1) | ].
    match type of E1 with (let (o, s'0) := _ ?x in _) = _ => destruct (m x) as [o sb] eqn:Eb; injection E1 as -> <-;
      exact (Hm x r0 sb T Eb) end.
  Qed.

  Lemma own_tells n md cfg opts key qs : text_at n -> lookup_at n ->
    tells md (run_scoped SData (run_scoped (SNode NLookup key)
             (lo <- lift (lookup_options cfg (mk_key key qs)) ;;
              set_merge (mgets "merge" opts) lo ;;;
              lookup_and_convert w
                (s <- run_op OStrat ;; merge_hierarchy w (run w n) (mk_key key qs) (rc_providers cfg) s))))
      (fun r f f' => exists lo st src ns r0 r', lookup_options cfg (mk_key key qs) = Ok lo /\ source_told (mgets "merge" opts) lo src /\
         merge_told (entry_told w sc shown MdData (mk_key key qs) st) st (rc_providers cfg) r0 ns r' /\ (r0 = None <-> r = None) /\
         f' = add_branches [Node NLookup (src ++ ns) [] (match r' with Some _ => "result" | None => "" end) r' key] f).
  Proof.
    intros Ht Hl. apply data_tells.
    match goal with |- tells _ (run_scoped _ ?m) _ => 
      assert (Fm : fine _ m m);
      [ | assert (Hm : tells MdData m (fun r f f' => exists lo st src ns r0 r', lookup_options cfg (mk_key key qs) = Ok lo /\
             source_told (mgets "merge" opts) lo src /\ merge_told (entry_told w sc shown MdData (mk_key key qs) st) st (rc_providers cfg) r0 ns r' /\ (r0 = None <-> r = None) /\
             f' = mark r' (add_branches (src ++ ns) f))) ] end.
    { pose proof (fine_closed w) as C. apply (c_bind w _ C); [ apply (c_lift w _ C) | intro lo ].
      apply (c_bind w _ C); [ apply (c_set_merge w _ C) | intro ].
      apply (c_lookup_and_convert w _ C). apply (c_bind w _ C); [ apply fine_op; reflexivity | intro st ].
      apply fine_hierarchy. }
    { intros t q t' Tt Et. apply bind_ok in Et as (lo & t1 & El & Et). unfold lift in El. injection El as El <-.
      apply bind_ok in Et as ([] & t1 & E1 & Et). destruct (set_merge_tells MdData _ _ _ _ _ Tt E1) as (src & N1 & Y1).
      destruct (fine_keeps _ _ _ _ _ _ (c_set_merge w _ (fine_closed w) _ _) Tt E1) as [T1 _].
      assert (Hh : tells MdData (s0 <- run_op OStrat ;; merge_hierarchy w (run w n) (mk_key key qs) (rc_providers cfg) s0)
         (fun r f f' => exists st ns r', merge_told (entry_told w sc shown MdData (mk_key key qs) st) st (rc_providers cfg) r ns r' /\ f' = mark r' (add_branches ns f))).
      { intros u q' u' Tu Eu. apply bind_ok in Eu as (st & u1 & E2 & Eu). unfold run_op in E2. injection E2 as <- <-.
        destruct (iv_strat (s_iv u)) as [st|]; [ | discriminate Eu ]. destruct (hierarchy_tells n MdData _ _ _ Ht Hl _ _ _ Tu Eu) as (ns & r' & N & X).
        exists st, ns, r'. auto. }
      destruct (convert_tells MdData _ _ Hh t1 q t' T1 Et) as (r0 & (st & ns & r' & N2 & Y2) & R).
      exists lo, st, src, ns, r0, r'. split; [ exact El | ]. split; [ exact N1 | ]. split; [ exact N2 | ]. split; [ exact R | ].
      rewrite Y2, Y1, add_branches_twice. reflexivity. }
    intros s r s' T E. destruct (tells_node MdData _ _ _ _ _ Fm Hm s r s' T E) as (g & (lo & st & src & ns & r0 & r' & N1 & N2 & N3 & R & ->) & X).
    exists lo, st, src, ns, r0, r'. split; [ exact N1 | ]. split; [ exact N2 | ]. split; [ exact N3 | ]. split; [ exact R | ].
    rewrite X. destruct r'; reflexivity.
  Qed.

  Lemma config_lookup_tells n md opts path key module : text_at n -> lookup_at n ->
    tells md (config_lookup_at w (run w n) opts path key module) (fun r f f' => looked_told w sc shown md opts path key module r f f').
  Proof.
    intros Ht Hl s r s' T E. unfold config_lookup_at in E. apply bind_ok in E as (cfg & s1 & Ec & E).
    destruct (config_tells n path module md Ht Hl s cfg s1 T Ec) as (os & Os & X1).
    destruct (fine_keeps _ _ _ _ _ _ (fine_get_config n path module) T Ec) as [T1 _].
    assert (Ca : config_at w path module cfg) by (exists n, s, s1; exact Ec).
    apply bind_ok in E as (k & s2 & Ek & E). unfold lift in Ek. injection Ek as Ek <-. apply new_key_written in Ek as (qs & -> & Wk).
    apply bind_ok in E as (mo & s2 & Em & E). unfold run_op in Em. injection Em as <- <-. rewrite (proj1 (proj2 T1)) in E.
    destruct md.
    - destruct (own_tells n MdTop cfg opts key qs Ht Hl s1 r s' T1 E) as (lo & st & src & ns & r0 & r' & N1 & N2 & N3 & R & X).
      rewrite X, X1, add_branches_twice.
      exact (looked_top w sc shown opts path key module cfg qs lo st os src ns r0 r' r (here (s_ex s)) Ca Os Wk N1 N2 N3 R).
    - apply bind_ok in E as (lo & s2 & El & E). unfold lift in El. injection El as El <-. injection E as <- <-.
      rewrite X1. exact (looked_options w sc shown opts path key module cfg qs lo os _ Ca Os Wk El).
    - apply bind_ok in E as (st & s2 & El & E). unfold run_op in El. injection El as <- <-.
      destruct (iv_strat (s_iv s1)) as [st|]; [ | discriminate E ].
      destruct (hierarchy_tells n MdData _ _ _ Ht Hl _ _ _ T1 E) as (ns & r' & N & X). rewrite X, X1, add_branches_twice.
      exact (looked_data w sc shown opts path key module cfg qs st os ns r r' _ Ca Os Wk N).
  Qed.
  Lemma fine_config_lookup n opts path key module : fine _ (config_lookup_at w (run w n) opts path key module) (config_lookup_at w (run w n) opts path key module).
  Proof. apply (c_config_lookup_at w _ (fine_closed w)); try exact (fine_rec n); try (intro; apply quiet_run). Qed.

  (** *** Modules *)

  Lemma load_module_untold p name s c s' : load_module w p name s = (Ok c, s') -> s_ex s' = s_ex s /\ s_iv s' = s_iv s.
  Proof.
    intro E. unfold load_module in E. apply bind_ok in E as (d & s1 & E1 & E).
    assert (X : s_ex s1 = s_ex s /\ s_iv s1 = s_iv s) by (unfold ask, bind, run_op, ret in E1; injection E1 as _ <-; auto).
    destruct d as [|e|l]; try discriminate E; [ injection E as _ <-; exact X | ].
    destruct (find_module l name) as [[fn []]|]; try (injection E as _ <-; exact X).
    apply bind_ok in E as (f & s2 & E2 & E).
    assert (Y : s_ex s2 = s_ex s1 /\ s_iv s2 = s_iv s1) by (unfold ask, bind, run_op, ret in E2; injection E2 as _ <-; auto).
    destruct X, Y. destruct f as [|e|[]]; try discriminate E; injection E as _ <-; split; congruence.
  Qed.

  Lemma load_from_untold ps name s c s' : load_from w ps name s = (Ok c, s') -> s_ex s' = s_ex s /\ s_iv s' = s_iv s.
  Proof.
    revert s. induction ps as [|p ps IH]; intros s E; [ injection E as _ <-; auto | ].
    cbn [load_from] in E. apply bind_ok in E as (x & s1 & E1 & E). apply load_module_untold in E1 as [X1 X2].
    destruct x; [ injection E as _ <-; auto | ]. destruct (IH _ E). split; congruence.
  Qed.

  Lemma module_config_untold name s c s' : module_config w name s = (Ok c, s') -> s_ex s' = s_ex s /\ s_iv s' = s_iv s.
  Proof.
    intro E. unfold module_config in E. apply bind_ok in E as (x & s1 & E1 & E). unfold run_op in E1. injection E1 as <- <-.
    destruct (aget name (s_mods s)); [ injection E as _ <-; auto | ].
    apply bind_ok in E as (x & s1 & E1 & E). apply bind_ok in E as ([] & s2 & E2 & E). injection E as _ <-. unfold run_op in E2. injection E2 as <-.
    cbn [s_ex s_iv with_mods]. destruct (w_modpath w); [ exact (load_from_untold _ _ _ _ _ E1) | injection E1 as _ <-; auto ].
  Qed.

  Lemma module_tells n md opts key : text_at n -> lookup_at n ->
    tells md (module_lookup w (run w n) opts key) (fun r f f' => fn_told w sc shown md opts LkModule key r f f').
  Proof.
    intros Ht Hl s r s' T E. unfold module_lookup in E.
    assert (No : split_at "::" key = None \/ (exists rest, split_at "::" key = Some ("", rest)) -> forall m, ~ P_Modules.namespace key m).
    { intros H m Hm. apply P_Modules.namespace_split in Hm as (Hn & rest & Hr). destruct H as [H|(r0 & H)]; rewrite H in Hr; [ discriminate | ].
      injection Hr as <- _. apply Hn. reflexivity. }
    destruct (split_at "::" key) as [[[|a m] rest]|] eqn:Es.
    - injection E as <- <-. apply fn_no_module. apply No. right. exists rest. reflexivity.
    - clear No. assert (Nm : P_Modules.namespace key (String a m)) by (apply P_Modules.namespace_split; split; [ discriminate | exists rest; exact Es ]).
      clear Es. cbv zeta in E. apply bind_ok in E as (cp & s1 & E1 & E). destruct (module_config_untold _ _ _ _ E1) as [X1 I1].
      pose proof (telling_same md s s1 T X1 I1) as T1. rewrite <- X1.
      assert (Ma : module_at w (to_lower (String a m)) cp) by (exists s, s1; exact E1). 
      match type of E with run_scoped _ ?q _ = _ => assert (Fm : fine _ q q) end.
      { destruct cp as [c|]; [ apply fine_config_lookup | ].
        apply (c_bind w _ (fine_closed w)); [ apply fine_op; reflexivity | intro; apply fine_ret ]. }
      destruct cp as [c|].
      + destruct (tells_node md _ _ _ _ _ Fm (config_lookup_tells n md opts c key _ Ht Hl) s1 r s' T1 E) as (g & L & X). rewrite X.
        exact (fn_module w sc shown md opts key _ c r _ g Nm Ma L).
      + match type of Fm with fine _ ?q _ => assert (Hm : tells md q (fun r f f' => r = None /\ f' = report_frame RModuleNotFound f)) end.
        { intros t o t' Tt Et. apply bind_ok in Et as ([] & t1 & E2 & Et). injection Et as <- <-. split; [ reflexivity | exact (tells_report md _ _ _ _ Tt E2) ]. }
        destruct (tells_node md _ _ _ _ _ Fm Hm s1 r s' T1 E) as (g & (-> & ->) & X). rewrite X.
        exact (fn_module_missing w sc shown md opts key _ _ Nm Ma).
    - injection E as <- <-. apply fn_no_module. apply No. left. reflexivity.
  Qed.

  (** *** The functions of top providers *)

  Lemma yaml_there key s r s' : yaml_lookup w key s = (Ok r, s') -> s_ex s' = s_ex s.
  Proof.
    intro E. unfold yaml_lookup in E. apply bind_ok in E as (c & s1 & E1 & E). unfold run_op in E1. injection E1 as <- <-.
    apply bind_ok in E as (d & s1 & E1 & E).
    assert (X : s_ex s1 = s_ex s).
    { destruct (aget _ (s_tpc s)) as [x|]; [ injection E1 as _ <-; reflexivity | ].
      apply bind_ok in E1 as (m & s2 & E2 & E1). apply file_there in E2 as [E2 _].
      apply bind_ok in E1 as (o & s3 & E3 & E1). injection E1 as _ <-. rewrite <- E2. unfold run_op in E3.
      injection E3 as _ <-. reflexivity. }
    rewrite <- X. destruct d; try discriminate E; injection E as _ <-; reflexivity.
  Qed.

  Lemma lk_tells n md fn opts key : text_at n -> lookup_at n -> mux_at n ->
    tells md (call_lk w (run w n) fn opts key) (fun r f f' => fn_told w sc shown md opts fn key r f f').
  Proof.
    intros Ht Hl Hx s r s' T E. destruct fn; cbn [call_lk] in E.
    - apply fn_config. exact (config_lookup_tells n md opts _ key "" Ht Hl s r s' T E).
    - injection E as <- <-. apply fn_env.
    - exact (module_tells n md opts key Ht Hl s r s' T E).
    - rewrite (yaml_there _ _ _ _ E). apply fn_yaml.
    - unfold scope_lookup in E. apply bind_ok in E as (y & s1 & E1 & E). unfold run_op in E1. injection E1 as <- <-.
      injection E as <- <-. rewrite (proj1 (proj2 (proj2 T))). apply fn_scope.
    - apply bind_ok in E as (y & s1 & E1 & E). injection E as <- <-. apply fn_mux. exact (Hx md opts key s y s1 T E1).
    - destruct (fn_tells n md _ _ Ht Hl s r s' T E) as (t & P). exact (fn_user w sc shown md opts name key t r _ _ P).
    - injection E as <- <-. apply fn_none.
  Qed.
  Lemma fine_lk n fn opts key : fine _ (call_lk w (run w n) fn opts key) (call_lk w (run w n) fn opts key).
  Proof. apply (c_call_lk w _ (fine_closed w)); try exact (fine_rec n); try (intro; apply quiet_run). Qed.

  Lemma some_tells md r : tells md (report_some report_result r) (fun o f f' => o = r /\ f' = mark r f).
  Proof.
    intros s o s' T E. destruct (some_on (in_mode md) (steady_mode md) r s o s' T E) as (-> & _ & X). split; [ reflexivity | ].
    rewrite X, with_here_here. reflexivity.
  Qed.

  Lemma merged_tells n md st fs opts key : text_at n -> lookup_at n -> mux_at n ->
    tells md (merging st fs (fun fn => call_lk w (run w n) fn opts key)) (fun r f f' => merged_told w sc shown md opts st fs key r f f').
  Proof.
    intros Ht Hl Hx. set (F := fun fn => call_lk w (run w n) fn opts key).
    assert (HF : forall fn, tells md (F fn) (fun r f f' => fn_told w sc shown md opts fn key r f f')) by (intro; apply lk_tells; assumption).
    assert (FF : forall fn, fine _ (F fn) (F fn)) by (intro; apply fine_lk).
    assert (H1 : forall fs, tells md (first_loop F fs) (fun r f f' => first_fn w sc shown md opts fs key r f f')).
    { clear fs. induction fs as [|x fs IH]; intros s r s' T E; cbn [first_loop] in E.
      - injection E as <- <-. apply first_none.
      - apply bind_ok in E as (v & s1 & E1 & E). pose proof (HF x s v s1 T E1) as P1. destruct v as [v|].
        + injection E as <- <-. apply first_this. exact P1.
        + destruct (fine_keeps _ _ _ _ _ _ (FF x) T E1) as [T1 _]. exact (first_later w sc shown md opts x fs key r _ _ _ P1 (IH s1 r s' T1 E)). }
    assert (K1 : forall fs s r s', telling md s -> first_loop F fs s = (Ok r, s') -> telling md s').
    { clear fs. induction fs as [|x fs IH]; intros s r s' T E; cbn [first_loop] in E; [ injection E as _ <-; exact T | ].
      apply bind_ok in E as (v & s1 & E1 & E). destruct (fine_keeps _ _ _ _ _ _ (FF x) T E1) as [T1 _].
      destruct v as [v|]; [ injection E as _ <-; exact T1 | exact (IH s1 r s' T1 E) ]. }
    assert (H2 : forall fs s outs s', consults F fs s outs s' -> telling md s ->
       telling md s' /\ all_fns w sc shown md opts fs key outs (here (s_ex s)) (here (s_ex s'))).
    { induction 1 as [s|x r s v s' outs s'' E C IH]; intro T; [ split; [ exact T | apply all_none ] | ].
      destruct (fine_keeps _ _ _ _ _ _ (FF x) T E) as [T1 _]. destruct (IH T1) as [T2 P2]. split; [ exact T2 | ].
      exact (all_next w sc shown md opts x r key v outs _ _ _ (HF x s v s' T E) P2). }
    intros s r s' T E. unfold merging, merge_lookup in E. destruct fs as [|x [|y fs]].
    - assert (E' : (Ok None, s) = (Ok r, s')) by (destruct st; exact E). injection E' as <- <-. apply merged_none.
    - assert (G : exists v, F x s = (Ok v, s') /\ lookup_of st [v] = Ok r).
      { destruct st; try (apply bind_ok in E as (v & s1 & E1 & E); injection E as <- <-; exists v; split; [ exact E1 | rewrite lookup_of_pure; reflexivity ]).
        exists r. split; [ exact E | ]. rewrite lookup_of_pure. destruct r; reflexivity. }
      destruct G as (v & E1 & Hr). exact (merged_one w sc shown md opts st x key v r _ _ (HF x s v s' T E1) Hr).
    - assert (D : st = SFirst \/ st <> SFirst) by (destruct st; (left; reflexivity) || (right; discriminate)).
      destruct D as [->|N].
      + apply bind_ok in E as (v & s1 & E1 & E). destruct (some_tells md v s1 r s' (K1 _ _ _ _ T E1) E) as (-> & X). rewrite X.
        apply merged_first. exact (H1 _ s v s1 T E1).
      + assert (E' : with_merge st (v <- merge_loop F st None (x :: y :: fs) ;; report_some report_result v) s = (Ok r, s')).
        { destruct st; [ congruence | exact E.. ]. }
        unfold with_merge in E'. clear E.
        match type of E' with run_scoped _ ?m _ = _ => assert (Fm : fine _ m m) end.
        { pose proof (fine_closed w) as C. apply (c_bind w _ C); [ | intros [v|]; cbn [report_some];
            [ apply (c_bind w _ C); [ apply fine_op; reflexivity | intro; apply fine_ret ] | apply fine_ret ] ].
          generalize (@None value) as memo. generalize (x :: y :: fs) as l. induction l as [|z l IH]; intro memo; cbn [merge_loop]; [ apply fine_ret | ].
          apply (c_bind w _ C); [ apply FF | intro; apply IH ]. }
        match type of Fm with fine _ ?m _ => assert (Hm : tells md m (fun r f f' => exists rs g, all_fns w sc shown md opts (x :: y :: fs) key rs f g /\ lookup_of st rs = Ok r /\ f' = mark r g)) end.
        { clear s r s' T E' Fm. intros s r s' T E1. apply bind_ok in E1 as (v & s2 & E1 & E2). destruct (loop_consults _ _ _ _ _ _ _ E1) as (outs & C).
          destruct (H2 _ _ _ _ C T) as [T2 P]. destruct (some_tells md v s2 r s' T2 E2) as (-> & X).
          rewrite (merge_loop_eq F st (x :: y :: fs) None s outs s2 C) in E1. injection E1 as Ev.
          exists outs, (here (s_ex s2)). split; [ exact P | ]. split; [ | exact X ].
          rewrite lookup_of_pure. inversion C as [|? ? ? v1 s3 outs1 ? E3 C1]; subst. inversion C1; subst.
          unfold pure_lookup. destruct st; [ congruence | reflexivity.. ]. }
        destruct (tells_node md _ _ _ _ _ Fm Hm s r s' T E') as (g & (rs & g' & P & L & ->) & X). rewrite X.
        exact (merged_all w sc shown md opts st x y fs key rs r _ g' N P L).
  Qed.
  Lemma fine_merged n st fs opts key : fine _ (merging st fs (fun fn => call_lk w (run w n) fn opts key)) (merging st fs (fun fn => call_lk w (run w n) fn opts key)).
  Proof. apply (c_merging w _ (fine_closed w)). intro. apply fine_lk. Qed.

  Lemma mux_tells n md opts key : text_at n -> lookup_at n -> mux_at n ->
    tells md (mux_lookup w (run w n) opts key) (fun r f f' => mux_told w sc shown md opts key r f f').
  Proof.
    intros Ht Hl Hx s r s' T E. unfold mux_lookup in E. destruct (w_mux w) as [fs|] eqn:Ew; [ | injection E as <- <-; apply mux_nothing; exact Ew ].
    apply bind_ok in E as (lo & s1 & E1 & E).
    pose proof (search_tells md _ _ (fine_merged n (SDeep []) fs opts key) (merged_tells n MdLookup (SDeep []) fs opts key Ht Hl Hx) s lo s1 T E1) as Hs.
    assert (T1 : telling md s1) by exact (proj1 (fine_keeps _ _ _ _ _ _ (c_scoped w _ (fine_closed w) _ SLookup _ _ ltac:(discriminate) (fine_merged n (SDeep []) fs opts key)) T E1)).
    assert (G : exists src st r0 h, source_told (mgets "merge" opts) (as_map lo) src /\ (r0 = None <-> r = None) /\
       merged_told w sc shown MdData opts st fs key r0 (add_branches src (new_frame key)) h /\
       here (s_ex s') = add_branches [close NLookup h] (here (s_ex s1))).
    { clear Hs T E1. revert E. generalize T1. generalize s1, r, s'. clear s1 r s' T1 s. 
      match goal with |- forall s1 r s', telling md s1 -> run_scoped SData ?m s1 = _ -> _ => cut (tells MdData m (fun r f f' => exists src st r0 h,
        source_told (mgets "merge" opts) (as_map lo) src /\ (r0 = None <-> r = None) /\
        merged_told w sc shown MdData opts st fs key r0 (add_branches src (new_frame key)) h /\ f' = add_branches [close NLookup h] f)) end.
      { intros H s1 r s' T1 E. exact (data_tells _ md _ _ H s1 r s' T1 E). }
      intros s r s' T E. apply bind_ok in E as (k & s2 & Ek & E). unfold lift in Ek. injection Ek as Ek <-. apply new_key_written in Ek as (qs & -> & Wk).
      cbn [k_source] in E.
      match type of E with run_scoped _ ?m _ = _ => assert (Fm : fine _ m m);
        [ | assert (Hm : tells MdData m (fun r f f' => exists src st r0, source_told (mgets "merge" opts) (as_map lo) src /\ (r0 = None <-> r = None) /\
             merged_told w sc shown MdData opts st fs key r0 (add_branches src f) f')) ] end.
      { pose proof (fine_closed w) as C. apply (c_bind w _ C); [ apply (c_set_merge w _ C) | intro ].
        apply (c_lookup_and_convert w _ C). apply (c_bind w _ C); [ apply fine_op; reflexivity | intros [st|] ].
        - apply fine_merged.
        - apply (c_lift w _ C _ (Panic nil_deref)). }
      { intros t q t' Tt Et. apply bind_ok in Et as ([] & t1 & E1 & Et). destruct (set_merge_tells MdData _ _ _ _ _ Tt E1) as (src & N1 & Y1).
        destruct (fine_keeps _ _ _ _ _ _ (c_set_merge w _ (fine_closed w) _ _) Tt E1) as [T1 _].
        match type of Et with lookup_and_convert _ ?m _ = _ => assert (Hh : tells MdData m (fun r f f' => exists st, merged_told w sc shown MdData opts st fs key r f f')) end.
        { intros u q' u' Tu Eu. apply bind_ok in Eu as (st & u1 & E2 & Eu). unfold run_op in E2. injection E2 as <- <-.
          destruct (iv_strat (s_iv u)) as [st|]; [ | discriminate Eu ]. exists st. exact (merged_tells n MdData st fs opts key Ht Hl Hx u q' u' Tu Eu). }
        destruct (convert_tells MdData _ _ Hh t1 q t' T1 Et) as (r0 & (st & N2) & R).
        exists src, st, r0. rewrite <- Y1. auto. }
      destruct (tells_node MdData _ _ _ _ _ Fm Hm s r s' T E) as (h & (src & st & r0 & N & R & P) & X).
      exists src, st, r0, h. auto. }
    destruct G as (src & st & r0 & h & N & R & P & X). rewrite X. destruct Hs as [(Hs & Q)|(Hs & Hf & Q)].
    - exact (mux_shown w sc shown md opts key fs lo src st r0 r _ _ h Ew Hs Q N P R).
    - rewrite Q. exact (mux_hidden w sc shown md opts key fs lo src st r0 r _ h Ew Hs Hf N P R).
  Qed.

  Lemma lookup_tells n md k opts : text_at n -> lookup_at n -> mux_at n ->
    tells md (lookup w (run w n) k opts) (fun _ f f' => asked_told w sc shown md (match opts with Some o => o | None => [] end) k f f').
  Proof.
    intros Ht Hl Hx s r s' T E. unfold lookup in E.
    apply bind_ok in E as (x & s1 & E1 & E). unfold lift in E1. injection E1 as Ex <-.
    unfold root in Ex. destruct (k_parts k) as [|[z|x'] ps] eqn:Ek; try discriminate Ex. injection Ex as ->.
    destruct (String.eqb_spec x "lookup_options") as [->|Nx].
    - match type of E with run_scoped _ ?m _ = _ =>
        assert (Fm : fine _ m m);
        [ apply (c_bind w _ (fine_closed w)); [ apply fine_op; reflexivity | intro; apply fine_ret ] | ];
        assert (Hm : tells md m (fun _ f f' => f' = report_frame (RNotFound (k_source k)) f)) end.
      { intros t o t' Tt Et. apply bind_ok in Et as ([] & t1 & E1 & Et). injection Et as _ <-. exact (tells_report md _ _ _ _ Tt E1). }
      destruct (tells_node md _ _ _ _ _ Fm Hm s r s' T E) as (g & -> & X). rewrite X. exact (asked_refused w sc shown md _ k ps _ Ek).
    - apply bind_ok in E as (v & s1 & E1 & E). pose proof (lk_tells n md _ _ _ Ht Hl Hx s v s1 T E1) as L.
      destruct (fine_keeps _ _ _ _ _ _ (fine_lk n _ _ _) T E1) as [T1 _]. destruct v as [v|].
      + assert (G : exists vs o ms, value_told w sc shown MdData true v vs /\ comes_of w true v o /\ dug_told k o ms /\
            here (s_ex s') = add_branches (vs ++ ms) (here (s_ex s1))).
        { revert E. generalize T1. generalize s1, r, s'. clear s1 r s' T1 L E1 s T.
          match goal with |- forall s1 r s', telling md s1 -> run_scoped SData ?m s1 = _ -> _ => cut (tells MdData m (fun r f f' =>
            exists vs o ms, value_told w sc shown MdData true v vs /\ comes_of w true v o /\ dug_told k o ms /\ f' = add_branches (vs ++ ms) f)) end.
          { intros H s1 r s' T1 E. exact (data_tells _ md _ _ H s1 r s' T1 E). }
          intros s1 r s' T1 E. apply bind_ok in E as (y & s3 & E3 & E).
          destruct (interpolate_tells n Ht MdData true v s1 y s3 T1 E3) as ((vs & N1 & X3) & C & T3).
          destruct (dig_tells MdData k y s3 r s' T3 E) as (ms & N2 & X4).
          exists vs, y, ms. rewrite X4, X3, add_branches_twice. auto. }
        destruct G as (vs & o & ms & N & C & D & X). rewrite X.
        exact (asked_found w sc shown md _ k x ps _ _ v vs o ms Ek Nx L N C D).
      + injection E as _ <-. exact (asked_nothing w sc shown md _ k x ps _ _ Ek Nx L).
  Qed.

  Lemma all_at n : text_at n /\ lookup_at n /\ mux_at n.
  Proof.
    induction n as [|n (IHt & IHl & IHx)]; [ split; [ | split ]; intros ? ? ? s r s' _ E; discriminate E | ]. split; [ | split ].
    - intros md allow t s r s' T E. exact (istr_tells n md allow t IHt IHl s r s' T E).
    - intros md k opts s r s' T E. cbn [run body] in E. apply bind_ok in E as (v & s1 & E1 & E). injection E as _ <-.
      exact (lookup_tells n md k opts IHt IHl IHx s v s1 T E1).
    - intros md opts key s r s' T E. cbn [run body] in E. apply bind_ok in E as (v & s1 & E1 & E). injection E as <- <-.
      exact (mux_tells n md opts key IHt IHl IHx s v s1 T E1).
  Qed.
End Proofs.

(** ** C90 *)

(** Where the explanation is left: at the node it was at, with what was said
    put there. *)
Lemma told_there md A (m : M st A) P s r s' :
  fine A m m -> tells (iv_scope (s_iv s)) (x_options (s_ex s)) md m P ->
  iv_expl (s_iv s) = true -> x_nil (s_ex s) = false -> x_only (s_ex s) = false -> iv_mode (s_iv s) = md -> m s = (Ok r, s') ->
  exists f, P r (here (s_ex s)) f /\ s_ex s' = with_here (fun _ => f) (s_ex s).
Proof.
  intros Fm Hm O1 O2 Oo Md E. exists (here (s_ex s')). split.
  - refine (Hm s r s' _ E). split; [ split; assumption | split; [ exact Md | auto ] ].
  - apply placed_here. exact (proj2 (sim_moves _ _ (proj1 Fm) s r s' (conj O1 O2) E)).
Qed.
Arguments told_there {md A m P s r s'}.

Lemma stay_here x : set_here (here x) x = x.
Proof. unfold set_here, with_here, here. destruct x as [a b c o d]. cbn [x_open x_root x_options x_only x_nil]. destruct o as [|[k f] o]; reflexivity. Qed.

(** Interpolating any value. *)
Theorem C90_interpolation : forall w n allow v s r s',
  iv_expl (s_iv s) = true -> x_nil (s_ex s) = false -> x_only (s_ex s) = false ->
  do_interp (run w n) allow v s = (Ok r, s') ->
  exists ns, value_told w (iv_scope (s_iv s)) (x_options (s_ex s)) (iv_mode (s_iv s)) allow v ns /\ s_ex s' = with_here (add_branches ns) (s_ex s).
Proof.
  intros w n allow v s r s' O1 O2 Oo E. destruct (all_at w (iv_scope (s_iv s)) (x_options (s_ex s)) n) as (Ht & Hl & Hx).
  destruct (told_there (fine_interp w n allow v) (value_tells w _ _ n Ht _ allow v) O1 O2 Oo eq_refl E) as (f & (ns & N & ->) & X).
  exists ns. split; [ exact N | ]. rewrite X. apply set_with.
Qed.
Print Assumptions C90_interpolation.

(** A lookup, of any key, of its own or made by an expression or a function. *)
Theorem C90_lookup : forall w n k opts s r s',
  iv_expl (s_iv s) = true -> x_nil (s_ex s) = false -> x_only (s_ex s) = false ->
  lookup w (run w n) k opts s = (Ok r, s') ->
  exists f, asked_told w (iv_scope (s_iv s)) (x_options (s_ex s)) (iv_mode (s_iv s)) (match opts with Some o => o | None => [] end) k (here (s_ex s)) f /\
    s_ex s' = with_here (fun _ => f) (s_ex s).
Proof.
  intros w n k opts s r s' O1 O2 Oo E. destruct (all_at w (iv_scope (s_iv s)) (x_options (s_ex s)) n) as (Ht & Hl & Hx).
  refine (told_there _ (lookup_tells w _ _ n _ k opts Ht Hl Hx) O1 O2 Oo eq_refl E).
  apply (c_lookup w _ (fine_closed w)); try exact (fine_rec w n); try (intro; apply quiet_run).
Qed.
Print Assumptions C90_lookup.

(** What the top provider, or any function that can be one, tells. *)
Theorem C90_top : forall w n fn opts key s r s',
  iv_expl (s_iv s) = true -> x_nil (s_ex s) = false -> x_only (s_ex s) = false ->
  call_lk w (run w n) fn opts key s = (Ok r, s') ->
  exists f, fn_told w (iv_scope (s_iv s)) (x_options (s_ex s)) (iv_mode (s_iv s)) opts fn key r (here (s_ex s)) f /\
    s_ex s' = with_here (fun _ => f) (s_ex s).
Proof.
  intros w n fn opts key s r s' O1 O2 Oo E. destruct (all_at w (iv_scope (s_iv s)) (x_options (s_ex s)) n) as (Ht & Hl & Hx).
  exact (told_there (fine_lk w n fn opts key) (lk_tells w _ _ n _ fn opts key Ht Hl Hx) O1 O2 Oo eq_refl E).
Qed.
Print Assumptions C90_top.

(** Asking several functions. *)
Theorem C90_mux : forall w n opts key s r s',
  iv_expl (s_iv s) = true -> x_nil (s_ex s) = false -> x_only (s_ex s) = false ->
  mux_lookup w (run w n) opts key s = (Ok r, s') ->
  exists f, mux_told w (iv_scope (s_iv s)) (x_options (s_ex s)) (iv_mode (s_iv s)) opts key r (here (s_ex s)) f /\
    s_ex s' = with_here (fun _ => f) (s_ex s).
Proof.
  intros w n opts key s r s' O1 O2 Oo E. destruct (all_at w (iv_scope (s_iv s)) (x_options (s_ex s)) n) as (Ht & Hl & Hx).
  refine (told_there _ (mux_tells w _ _ n _ opts key Ht Hl Hx) O1 O2 Oo eq_refl E).
  apply (c_mux_lookup w _ (fine_closed w)); try exact (fine_rec w n); try (intro; apply quiet_run).
Qed.
Print Assumptions C90_mux.

(** An entry of a hierarchy. *)
Theorem C90_entry : forall w n k st p s r s',
  iv_expl (s_iv s) = true -> x_nil (s_ex s) = false -> x_only (s_ex s) = false ->
  merge_locations w (run w n) k st p s = (Ok r, s') ->
  exists nd, entry_told w (iv_scope (s_iv s)) (x_options (s_ex s)) (iv_mode (s_iv s)) k st p r nd /\
    s_ex s' = with_here (add_branches [nd]) (s_ex s).
Proof.
  intros w n k st p s r s' O1 O2 Oo E. destruct (all_at w (iv_scope (s_iv s)) (x_options (s_ex s)) n) as (Ht & Hl & Hx).
  destruct (told_there (fine_entry w n k st p) (entry_tells w _ _ n _ k st p Ht Hl) O1 O2 Oo eq_refl E) as (f & (nd & N & ->) & X).
  exists nd. split; [ exact N | ]. rewrite X. apply set_with.
Qed.
Print Assumptions C90_entry.

(** A program of a user. *)
Theorem C90_program : forall w n p s r s',
  iv_expl (s_iv s) = true -> x_nil (s_ex s) = false -> x_only (s_ex s) = false ->
  run_prog (run w n) p s = (Ok r, s') ->
  exists f, prog_told w (iv_scope (s_iv s)) (x_options (s_ex s)) (iv_mode (s_iv s)) p r (here (s_ex s)) f /\
    s_ex s' = with_here (fun _ => f) (s_ex s).
Proof.
  intros w n p s r s' O1 O2 Oo E. destruct (all_at w (iv_scope (s_iv s)) (x_options (s_ex s)) n) as (Ht & Hl & Hx).
  refine (told_there _ (prog_tells w _ _ n _ Ht Hl p) O1 O2 Oo eq_refl E).
  apply (c_run_prog w _ (fine_closed w)). exact (fine_rec w n).
Qed.
Print Assumptions C90_program.

(** Loading the function of an entry: when it is loaded for the first time and
    is not found, that is told; otherwise nothing is. *)
Theorem C90_unresolved : forall w id e fd s l s',
  iv_expl (s_iv s) = true -> x_nil (s_ex s) = false -> provider_function w id e fd s = (Ok l, s') ->
  s_ex s' = match ps_fn (s_provs s id), l with
            | None, LdNone => with_here (says ("unresolved function '" ++ f_name fd ++ "'")) (s_ex s)
            | _, _ => s_ex s
            end.
Proof.
  intros w id e fd s l s' O1 O2 E. pose proof (fine_function w id e fd) as Ff.
  assert (Pl : s_ex s' = set_here (here (s_ex s')) (s_ex s)).
  { apply placed_here. exact (proj2 (sim_moves _ _ (proj1 Ff) s l s' (conj O1 O2) E)). }
  assert (Hh : forall x, set_here (here x) x = x). { exact stay_here. }
  unfold provider_function in E. apply bind_ok in E as (x & s1 & E1 & E). unfold run_op in E1. injection E1 as <- <-.
  destruct (ps_fn (s_provs s id)); [ injection E as <- <-; reflexivity | ].
  apply bind_ok in E as (l' & s1 & E1 & E). apply bind_ok in E as ([] & s2 & E2 & E). injection E as <- <-.
  unfold run_op in E2. injection E2 as <-. cbn [s_ex with_prov] in *.
  pose proof (load_on w e fd s l' s1 (conj O1 O2) E1) as X.
  rewrite Pl. destruct l'; rewrite X; try apply Hh. apply set_with.
Qed.
Print Assumptions C90_unresolved.

(** Reading a configuration: the search for lookup options is told when the
    configuration was not read before and options are explained; what is told
    to be found is what the configuration has.  Otherwise nothing is told. *)
Theorem C90_search : forall w n path module s cfg s', path <> "" ->
  iv_expl (s_iv s) = true -> x_nil (s_ex s) = false -> x_only (s_ex s) = false ->
  get_config w (run w n) path module s = (Ok cfg, s') ->
  (aget path (s_configs s) = None /\ (iv_mode (s_iv s) = MdLookup \/ x_options (s_ex s) = true) /\
    exists r ns r', merge_told (entry_told w (iv_scope (s_iv s)) (x_options (s_ex s)) MdLookup options_key (SDeep [])) (SDeep []) (rc_providers cfg) r ns r' /\
      rc_luopts cfg = as_map r /\
      s_ex s' = with_here (add_branches [Node NLookup ns [] (match r' with Some _ => "result" | None => "" end) r' "lookup_options"]) (s_ex s)) \/
  ((aget path (s_configs s) <> None \/ iv_mode (s_iv s) <> MdLookup /\ x_options (s_ex s) = false) /\ s_ex s' = s_ex s).
Proof.
  intros w n path module s cfg s' Np O1 O2 Oo E. destruct (all_at w (iv_scope (s_iv s)) (x_options (s_ex s)) n) as (Ht & Hl & Hx).
  pose proof (config_searched w _ _ n path module _ s cfg s' Ht Hl (conj (conj O1 O2) (conj eq_refl (conj eq_refl (conj Oo eq_refl)))) E) as H.
  assert (Pl : s_ex s' = set_here (here (s_ex s')) (s_ex s)).
  { apply placed_here. exact (proj2 (sim_moves _ _ (proj1 (fine_get_config w n path module)) s cfg s' (conj O1 O2) E)). }
  destruct (String.eqb_spec path "") as [->|_]; [ contradiction | ]. destruct (aget path (s_configs s)).
  - right. split; [ left; discriminate | exact H ].
  - destruct H as [(Hs & r & ns & r' & N & R & X)|(N & Hf & X)].
    + left. split; [ reflexivity | ]. split; [ exact Hs | ]. exists r, ns, r'. split; [ exact N | ]. split; [ exact R | ].
      rewrite Pl, X. apply set_with.
    + right. split; [ right; auto | ]. rewrite Pl, X. apply stay_here.
Qed.
Print Assumptions C90_search.

Lemma options_looked w n p md s cfg s' : on s -> get_config w (run w n) p md s = (Ok cfg, s') ->
  on s' /\
  match aget (if String.eqb p "" then w_cfgpath w else p) (s_configs s) with
  | Some _ => s_ex s' = s_ex s
  | None =>
      if match iv_mode (s_iv s) with MdLookup => true | _ => x_options (s_ex s) || x_only (s_ex s) end
      then exists r ns r', merge_told (provider_told options_key (SDeep [])) (SDeep []) (rc_providers cfg) r ns r' /\ rc_luopts cfg = as_map r /\
             s_ex s' = with_here (add_branches [Node NLookup ns [] (match r' with Some _ => "result" | None => "" end) r' "lookup_options"]) (s_ex s)
      else s_ex s' = s_ex s
  end.
Proof.
  intros O E. assert (W := c_run w _ (sim_closed w) n).
  split.
  { refine (proj1 (sim_moves _ _ _ s cfg s' O E)). apply (c_get_config w _ (sim_closed w)); try exact W; try (intro; apply quiet_run). }
  unfold get_config in E. set (path := if String.eqb p "" then w_cfgpath w else p) in *. cbv zeta in E.
  apply bind_ok in E as (x & s1 & E1 & E). unfold run_op in E1. injection E1 as <- <-.
  destruct (aget path (s_configs s)) as [rc|]; [ injection E as _ <-; reflexivity | ].
  apply bind_ok in E as (c & s1 & E1 & E). destruct (P_Modes.shared_same w path s) as [X1 I1]. rewrite E1 in X1, I1. cbn [snd] in X1, I1.
  apply bind_ok in E as (rc & s2 & E2 & E). apply bind_ok in E as ([] & s3 & E3 & E). injection E as <- <-.
  unfold run_op in E3. injection E3 as <-. cbn [s_ex with_configs] in *.
  unfold resolve_config in E2. apply bind_ok in E2 as ([ps ds] & s3 & E3 & E2).
  match type of E3 with run_scoped SConfig ?m _ = _ => assert (K : steps kept _ m m) end.
  { pose proof (kept_closed w) as C. pose proof (c_run w _ C n) as Hrec.
    apply (c_bind w _ C); [ apply (c_create_providers w _ C); exact Hrec | intro ].
    apply (c_bind w _ C); [ apply (c_create_providers w _ C); exact Hrec | intro; apply (c_lift w _ C) ]. }
  pose proof (P_Modes.config_silent _ s1 (P_Modes.kept_silent _ K)) as X3. rewrite E3 in X3. cbn [snd] in X3.
  pose proof (P_Modes.config_kept _ s1 K) as [M3 Y3]. rewrite E3 in M3, Y3. cbn [snd] in M3, Y3.
  apply bind_ok in E2 as (k & s4 & E4 & E2).
  change (lift (new_key "lookup_options") s3 : outcome key * st) with (Ok (mk_key "lookup_options" [PStr "lookup_options"]) : outcome key, s3) in E4.
  injection E4 as <- <-.
  apply bind_ok in E2 as (v & s4 & E4 & E2). injection E2 as <- <-. cbn [fst snd k_source rc_providers rc_luopts] in *.
  assert (Xs : s_ex s3 = s_ex s) by congruence.
  assert (Os : on s3). { split; [ rewrite Y3, I1; exact (proj1 O) | rewrite Xs; exact (proj2 O) ]. }
  set (m := merging (SDeep []) ps (merge_locations w (run w n) (mk_key "lookup_options" [PStr "lookup_options"]) (SDeep []))) in *.
  assert (Mv : moves m).
  { apply sim_moves. apply (c_merging w _ (sim_closed w)). intro. apply (c_merge_locations w _ (sim_closed w)). exact W. }
  assert (G : forall t, on t -> forall t', run_scoped (SNode NLookup "lookup_options") m t = (Ok v, t') ->
            exists r ns r', merge_told (provider_told options_key (SDeep [])) (SDeep []) ps r ns r' /\ as_map v = as_map r /\
              s_ex t' = with_here (add_branches [Node NLookup ns [] (match r' with Some _ => "result" | None => "" end) r' "lookup_options"]) (s_ex t)).
  { intros t Ot t' Et. destruct (node_on _ _ _ _ _ _ _ Ot Mv Et) as (t0 & t1 & O0 & F0 & Em & O1 & O2 & X).
    destruct (asks_merge (provider_told options_key (SDeep [])) (merge_locations w (run w n) options_key (SDeep [])) (fun _ => True) always_steady
                (fun p s r s' O E => whatever _ _ _ (provider_asked w n options_key (SDeep []) p s r s' (proj1 O) E)) (SDeep []) ps t0 v t1 (conj O0 I) Em)
      as (_ & ns & r' & Nt & Z1).
    exists v, ns, r'. split; [ exact Nt | ]. split; [ reflexivity | ]. rewrite X, Z1, with_here_here, F0. unfold close, mark. destruct r'; reflexivity. }
  rewrite <- Xs, <- I1, <- M3.
  unfold run_scoped at 1 in E4. unfold with_copy in E4.
  assert (D : forall i, iv_expl i = iv_expl (s_iv s3) && (x_options (s_ex s3) || x_only (s_ex s3)) ->
     (let (o, s'0) := run_scoped (SNode NLookup "lookup_options") m (with_iv i s3) in (o, with_iv (s_iv s3) s'0)) = (Ok v, s4) ->
     if x_options (s_ex s3) || x_only (s_ex s3) then
       exists r ns r', merge_told (provider_told options_key (SDeep [])) (SDeep []) ps r ns r' /\ as_map v = as_map r /\
              s_ex s4 = with_here (add_branches [Node NLookup ns [] (match r' with Some _ => "result" | None => "" end) r' "lookup_options"]) (s_ex s3)
     else s_ex s4 = s_ex s3).
  { intros i Hi Ei. destruct (run_scoped (SNode NLookup "lookup_options") m (with_iv i s3)) as [o t] eqn:Et. injection Ei as -> <-. cbn [s_ex with_iv].
    destruct (x_options (s_ex s3) || x_only (s_ex s3)) eqn:Xo.
    - refine (G (with_iv i s3) _ t Et). split; [ cbn [s_iv with_iv]; rewrite Hi, (proj1 Os); reflexivity | exact (proj2 Os) ].
    - rewrite andb_false_r in Hi.
      pose proof (P_Modes.silent_node NLookup "lookup_options" m (P_Modes.kept_silent _ (P_Modes.kept_search w n ps _ (SDeep []))) (with_iv i s3) Hi) as Sx.
      rewrite Et in Sx. exact Sx. }
  destruct (iv_mode (s_iv s3)).
  - eapply D; [ | exact E4 ]; reflexivity.
  - exact (G s3 Os s4 E4).
  - eapply D; [ | exact E4 ]; reflexivity.
Qed.

(** The same when only lookup options are explained, as far as the nodes of the
    hierarchy go. *)
Theorem C90_options : forall w n path module s cfg s', path <> "" ->
  iv_expl (s_iv s) = true -> x_nil (s_ex s) = false -> iv_mode (s_iv s) <> MdLookup ->
  get_config w (run w n) path module s = (Ok cfg, s') ->
  ((aget path (s_configs s) <> None \/ x_options (s_ex s) = false /\ x_only (s_ex s) = false) -> s_ex s' = s_ex s) /\
  (aget path (s_configs s) = None -> x_options (s_ex s) = true \/ x_only (s_ex s) = true ->
     exists r ns r', merge_told (provider_told options_key (SDeep [])) (SDeep []) (rc_providers cfg) r ns r' /\ rc_luopts cfg = as_map r /\
       s_ex s' = with_here (add_branches [Node NLookup ns [] (match r' with Some _ => "result" | None => "" end) r' "lookup_options"]) (s_ex s)).
Proof.
  intros w n path module s cfg s' Np O1 O2 Md E. destruct (options_looked w n path module s cfg s' (conj O1 O2) E) as [_ H].
  destruct (String.eqb_spec path "") as [->|_]; [ contradiction | ].
  split.
  - intros [C|[C1 C2]]; destruct (aget path (s_configs s)); try exact H; [ contradiction | ].
    rewrite C1, C2 in H. destruct (iv_mode (s_iv s)); [ exact H | contradiction | exact H ].
  - intros C Co. rewrite C in H. 
    assert (X : x_options (s_ex s) || x_only (s_ex s) = true) by (apply orb_true_iff; exact Co). rewrite X in H.
    destruct (iv_mode (s_iv s)); exact H.
Qed.
Print Assumptions C90_options.

(** A key that may not be looked up. *)
Theorem C90_invalid : forall w n k opts ps s r s', k_parts k = PStr "lookup_options" :: ps ->
  iv_expl (s_iv s) = true -> x_nil (s_ex s) = false -> lookup w (run w n) k opts s = (Ok r, s') ->
  r = None /\ s_ex s' = with_here (add_branches [Node NInvalid [] [] "not_found" None (k_source k)]) (s_ex s).
Proof.
  intros w n k opts ps s r s' Ek O1 O2 E. unfold lookup in E. apply bind_ok in E as (x & s1 & E1 & E). unfold lift in E1. injection E1 as Ex <-.
  unfold root in Ex. rewrite Ek in Ex. injection Ex as <-. rewrite String.eqb_refl in E.
  match type of E with run_scoped _ ?m _ = _ => assert (Mv : moves m) end.
  { apply sim_moves. pose proof sim_run_full as F. apply (f_bind _ F); [ apply (f_op _ F) | intro; apply (f_lift _ F _ (Ok None)) ]. }
  destruct (node_on _ _ _ _ _ _ _ (conj O1 O2) Mv E) as (s0 & s1 & O0 & F0 & E1 & _ & _ & X). clear E.
  apply bind_ok in E1 as ([] & s2 & E1 & E2). injection E2 as <- <-.
  split; [ reflexivity | ]. rewrite X, (proj1 (proj2 (report_here _ _ _ O0 E1))), F0. reflexivity.
Qed.
Print Assumptions C90_invalid.

(** ** Examples *)

(** One level; a text with a lookup and a variable in it, the value of the
    lookup with a variable in it, too. *)
Definition told_w : world :=
  file_world
    [("/h/hiera.yaml",
      vmap [("version", VInt 5); ("hierarchy", VArr [vmap [("name", VStr "a"); ("path", VStr "a.yaml")]])])]
    [("/h/data/a.yaml", vmap [("k", VStr "at %{lookup('x')} in %{place}"); ("x", VStr "<%{place}>");
                              ("r", VStr "%{lookup('lookup_options')}");
                              ("lookup_options", vmap [("k", vmap [("merge", VStr "first")])])])].
Definition told_st (options : bool) : st :=
  invocation (ScMap [(VStr "place", VStr "here")]) true
    (init_st (ScMap [(VStr "place", VStr "here")]) (Some (new_explainer options false))).
Definition told_tree (options : bool) (k : string) : outcome (option value) * list node :=
  match new_key k with
  | Ok key => let (o, s) := lookup told_w (run told_w 20) key None (told_st options) in (o, fr_bs (x_root (s_ex s)))
  | _ => (Panic nil_deref, [])
  end.
Definition told_a (bs : list node) (e : string) (v : option value) (k : string) : node :=
  Node (NProvider "data_hash function 'yaml_data'") [Node (NLocation (LPath "a.yaml" "/h/data/a.yaml" true)) bs [] e v k] [] "" None "".
Definition told_x : node := told_a [Node (NInterpolate "<%{place}>") [] [] "" None ""] "found" (Some (VStr "<here>")) "x".

Example C90_ex_hypotheses : iv_expl (s_iv (told_st false)) = true /\ x_nil (s_ex (told_st false)) = false /\
  x_only (s_ex (told_st false)) = false /\ iv_mode (s_iv (told_st false)) = MdTop /\ aget "/h/hiera.yaml" (s_configs (told_st true)) = None.
Proof. repeat split; vm_compute; reflexivity. Qed.

Example C90_ex_lookup : told_tree false "k"
  = (Ok (Some (VStr "at <here> in here")),
     [Node NLookup
       [Node (NMergeSource """lookup_options"" hash") [] [] "" None "";
        told_a [Node (NInterpolate "at %{lookup('x')} in %{place}") [told_x] [] "" None ""]
               "found" (Some (VStr "at <here> in here")) "k"] [] "" None "k"]).
Proof. vm_compute. reflexivity. Qed.

Definition told_data : st :=
  with_iv (mk_iv [] (ScMap [(VStr "place", VStr "here")]) None (Some SFirst) true MdData false) (told_st false).
Definition told_by {A} (m : M st A) (s : st) : outcome A * list node := let (o, s') := m s in (o, fr_bs (x_root (s_ex s'))).

Example C90_ex_interpolation :
  iv_expl (s_iv told_data) = true /\ x_nil (s_ex told_data) = false /\ x_only (s_ex told_data) = false /\
  told_by (do_interp (run told_w 20) true (VArr [VStr "no"; vmap [("a%{place}", VStr "%{x} and %{lookup('x')}")]])) told_data
  = (Ok (Some (VArr [VStr "no"; vmap [("ahere", VStr " and <here>")]]), true),
     [Node (NInterpolate "a%{place}") [] [] "" None ""; Node (NInterpolate "%{x} and %{lookup('x')}") [told_x] [] "" None ""]).
Proof. repeat split; vm_compute; reflexivity. Qed.

Example C90_ex_nested :
  told_by (lookup told_w (run told_w 20) (mk_key "x.0" [PStr "x"; PInt 0]) None) told_data
  = (Ok None,
     [told_x;
      Node (NSubLookup (mk_key "x.0" [PStr "x"; PInt 0])) [Node (NSegment (PInt 0)) [] [] "not_found" None "0"] [] "" None ""]).
Proof. vm_compute. reflexivity. Qed.

Example C90_ex_invalid : told_tree false "r"
  = (Ok (Some (VStr "")),
     [Node NLookup
       [told_a [Node (NInterpolate "%{lookup('lookup_options')}") [Node NInvalid [] [] "not_found" None "lookup_options"] [] "" None ""]
               "found" (Some (VStr "")) "r"] [] "" None "r"]) /\
  told_tree false "lookup_options.k" = (Ok None, [Node NInvalid [] [] "not_found" None "lookup_options.k"]).
Proof. split; vm_compute; reflexivity. Qed.

Example C90_ex_options :
  let found := Some (vmap [("k", vmap [("merge", VStr "first")])]) in
  told_by (get_config told_w (run told_w 20) "/h/hiera.yaml" "") (told_st false)
  = (fst (get_config told_w (run told_w 20) "/h/hiera.yaml" "" (told_st false)), []) /\
  snd (told_by (get_config told_w (run told_w 20) "/h/hiera.yaml" "") (told_st true))
  = [Node NLookup [told_a [] "found" found "lookup_options"] [] "" None "lookup_options"].
Proof. split; vm_compute; reflexivity. Qed.

(** A module that is there, and one that is not. *)
Example C90_ex_module :
  told_by (call_lk P_Modules.mods_w (run P_Modules.mods_w 20) LkModule [] "nginx::port") (told_st false)
  = (Ok (Some (VInt 8080)),
     [Node (NModule "nginx")
       [Node NLookup
         [Node (NProvider "data_hash function 'yaml_data'")
           [Node (NLocation (LPath "common.yaml" "/mods/nginx/data/common.yaml" true)) [] [] "found" (Some (VInt 8080)) "nginx::port"] [] "" None ""]
         [] "" None "nginx::port"] [] "" None ""]) /\
  told_by (call_lk P_Modules.mods_w (run P_Modules.mods_w 20) LkModule [] "mysql::port") (told_st false)
  = (Ok None, [Node (NModule "mysql") [] [] "module_not_found" None ""]).
Proof. split; vm_compute; reflexivity. Qed.

(** Several functions: one of a user, which looks up another key and tells what
    it does, and the configuration. *)
Definition asking_w : world :=
  with_top LkMux (Some [LkUser "f"; LkConfig])
    (with_funs [("f", fun a => match a with
                               | ALookupKey _ "k" => PExplain "asked f" (PInterpolate (VStr "%{place}") (fun o => PRet None))
                               | _ => PRet None
                               end)] told_w).
Example C90_ex_mux :
  told_by (lookup asking_w (run asking_w 20) (mk_key "x" [PStr "x"]) None) (told_st false)
  = (Ok (Some (VStr "<here>")),
     [Node NLookup [told_x] [] "result" (Some (VStr "<here>")) "x"]) /\
  told_by (mux_lookup asking_w (run asking_w 20) [] "k") (told_st false)
  = (Ok (Some (VStr "at <here> in here")),
     [Node NLookup
       [Node (NMergeSource """lookup_options"" hash") [] [] "" None "";
        Node (NInterpolate "%{place}") [] [] "" None "";
        told_a [Node (NInterpolate "at %{lookup('x')} in %{place}")
                     [Node NLookup [told_x] [] "result" (Some (VStr "<here>")) "x"] [] "" None ""]
               "found" (Some (VStr "at <here> in here")) "k"]
       ["asked f"] "result" (Some (VStr "at <here> in here")) "k"]).
Proof. split; vm_compute; reflexivity. Qed.

Example C90_ex_program :
  let p := PExplain "one" (PLookup "x" None (fun o => PMode (fun md => PExplain "two" (PRet o)))) in
  let (o, s) := run_prog (run told_w 20) p told_data in
  (o, x_root (s_ex s)) = (Ok (Some (VStr "<here>")), mk_frame [told_x] ["one"; "two"] "" None "").
Proof. vm_compute. reflexivity. Qed.

Example C90_ex_unresolved :
  let fd := mk_fdef KDataHash "nowhere" in
  let (o, s) := provider_function told_w 0 (mk_entry "data" "" "" None (Some fd) "a" None) fd told_data in
  (o, x_root (s_ex s)) = (Ok LdNone, mk_frame [] ["unresolved function 'nowhere'"] "" None "") /\
  s_ex (snd (provider_function told_w 0 (mk_entry "data" "" "" None (Some fd) "a" None) fd s)) = s_ex s.
Proof. split; vm_compute; reflexivity. Qed.

Example C90_ex_entry :
  let p := mk_provider 0 (mk_entry "data" "" "" None (Some (mk_fdef KLookupKey "scope")) "a" None) in
  told_by (merge_locations told_w (run told_w 20) (mk_key "place" [PStr "place"]) SFirst p) told_data
  = (Ok (Some (VStr "here")), [Node (NProvider "lookup_key function 'scope'") [] [] "found" (Some (VStr "here")) "place"]).
Proof. vm_compute. reflexivity. Qed.
