(** What resolving a configuration must give, and when it must fail, whatever
    the values of the variables are: they may have expressions themselves. *)

From Coq Require Import String Ascii List ZArith Bool.
From Verif Require Import Str Value Outcome Key Fpath Config State Engine SpecKey SpecKeyErr SpecIpl SpecInterp SpecConfig
  SpecLookup SpecFail.
Import ListNotations.
Open Scope string_scope.
Open Scope list_scope.

(** ** Strings *)

Section Step.
  Variables (w : world) (sc : scope).
  (** What the strings in the values of variables stand for, and when they
      cannot be expanded. *)
  Variable text_is : string -> string -> Prop.
  Variable text_fails : string -> err -> Prop.

  Definition text_value (t : string) (r : option value) : Prop := exists t', text_is t t' /\ r = Some (VStr t').

  (** The value of a variable, or of a part of it. *)
  Inductive variable_is (src : string) : option value -> Prop :=
  | vr_unset : forall x ps, written_key src (PStr x :: ps) -> scope_get sc x = None -> variable_is src None
  | vr_set : forall x ps v r o, written_key src (PStr x :: ps) -> scope_get sc x = Some v ->
      value_is text_value v r -> digs ps r o -> variable_is src o.

  Inductive variable_fails (src : string) (x : err) : Prop :=
  | vx_key : misspelt src x -> variable_fails src x
  | vx_value : forall y ps v, written_key src (PStr y :: ps) -> scope_get sc y = Some v ->
      value_fails text_value text_fails v x -> variable_fails src x.

  (** The text that an expression stands for: no methods may be called, so it is
      nothing or a variable. *)
  Inductive inserts (e : string) : string -> Prop :=
  | in_nothing : In (trim_space e) [""; "::"; """"""; "''"; """::"""; "'::'"] -> inserts e ""
  | in_variable : forall o, ~ In (trim_space e) [""; "::"; """"""; "''"; """::"""; "'::'"] ->
      (forall name arg, ~ calls (trim_space e) name arg) -> variable_is (trim_space e) o -> inserts e (text w o).

  Inductive insert_fails (e : string) (x : err) : Prop :=
  | if_method : forall name arg, calls (trim_space e) name arg ->
      x = EErr "interpolation using method syntax is not allowed in this context" -> insert_fails e x
  | if_variable : ~ In (trim_space e) [""; "::"; """"""; "''"; """::"""; "'::'"] ->
      (forall name arg, ~ calls (trim_space e) name arg) -> variable_fails (trim_space e) x -> insert_fails e x.
End Step.

(** [t] stands for [t'], with at most [n] steps from a string to the value of a
    variable that it mentions. *)
Fixpoint expands_in (w : world) (sc : scope) (n : nat) (t t' : string) : Prop :=
  match n with
  | 0 => False
  | S m => exists cut rs last, well_cut cut last /\ t = assembled cut last /\ t' = filled cut rs last /\
      Forall2 (fun p r => inserts w sc (expands_in w sc m) (snd p) r) cut rs
  end.

(** [t] cannot be expanded: its first expression that cannot is the reason. *)
Fixpoint unexpandable (w : world) (sc : scope) (n : nat) (t : string) (x : err) : Prop :=
  match n with
  | 0 => False
  | S m => exists pre u e post last rs, t = assembled (pre ++ (u, e) :: post) last /\
      well_cut (pre ++ (u, e) :: post) last /\
      Forall2 (fun p r => inserts w sc (expands_in w sc m) (snd p) r) pre rs /\
      insert_fails sc (expands_in w sc m) (unexpandable w sc m) e x
  end.

(** ** Entries *)

Section Entry.
  Variables (w : world) (on_disk : string -> bool) (matching : string -> list string) (n : nat).

  (** What a location of the configuration stands for, below [dr]. *)
  Inductive located (sc : scope) (dr : string) : location -> list location -> Prop :=
  | ld_path : forall o r e t, expands_in w sc n o t ->
      located sc dr (LPath o r e) [LPath o (join2 dr t) (on_disk (join2 dr t))]
  | ld_glob : forall p t, expands_in w sc n p t ->
      located sc dr (LGlob p) (map (fun f => LPath p f true) (matching (join2 dr t)))
  | ld_uri : forall o r t, expands_in w sc n o t -> located sc dr (LUri o r) [LUri o t]
  | ld_mapped : forall src key template v l ts,
      variable_is sc (expands_in w sc n) src v -> elements v l ->
      Forall2 (fun x t => expands_in w (ScVar sc key x) n template t) l ts ->
      located sc dr (LMapped src key template)
        (map (fun t => LPath template (join2 dr t) (on_disk (join2 dr t))) ts).

  Inductive unlocatable (sc : scope) (x : err) : location -> Prop :=
  | ul_path : forall o r e, unexpandable w sc n o x -> unlocatable sc x (LPath o r e)
  | ul_glob : forall p, unexpandable w sc n p x -> unlocatable sc x (LGlob p)
  | ul_uri : forall o r, unexpandable w sc n o x -> unlocatable sc x (LUri o r)
  | ul_source : forall src key template,
      variable_fails sc (expands_in w sc n) (unexpandable w sc n) src x -> unlocatable sc x (LMapped src key template)
  | ul_template : forall src key template v pre y post ts,
      variable_is sc (expands_in w sc n) src v -> elements v (pre ++ y :: post) ->
      Forall2 (fun x t => expands_in w (ScVar sc key x) n template t) pre ts ->
      unexpandable w (ScVar sc key y) n template x -> unlocatable sc x (LMapped src key template).

  Variables (sc : scope) (env : environ) (root : string) (d : option entry).

  (** The function of an entry.  Its name is expanded twice, and an inherited one
      once more. *)
  Inductive function_in (e : entry) : fdef -> Prop :=
  | fn_own : forall f t t', e_function e = Some f -> expands_in w sc n (f_name f) t -> expands_in w sc n t t' ->
      function_in e (mk_fdef (f_kind f) t')
  | fn_inherited : forall d0 f t, e_function e = None -> d = Some d0 -> e_function d0 = Some f ->
      expands_in w sc n (f_name f) t -> function_in e (mk_fdef (f_kind f) t)
  | fn_default : e_function e = None -> d = None -> n <> 0 -> function_in e (mk_fdef KDataHash "yaml_data").

  Inductive function_not (e : entry) (x : err) : Prop :=
  | fx_own : forall f, e_function e = Some f -> unexpandable w sc n (f_name f) x -> function_not e x
  | fx_again : forall f t, e_function e = Some f -> expands_in w sc n (f_name f) t -> unexpandable w sc n t x ->
      function_not e x
  | fx_inherited : forall d0 f, e_function e = None -> d = Some d0 -> e_function d0 = Some f ->
      unexpandable w sc n (f_name f) x -> function_not e x.

  (** A directory as configured, or else the inherited one. *)
  Inductive directory_in : string -> string -> string -> Prop :=
  | di_own : forall p inherited p', p <> "" -> expands_in w sc n p p' -> directory_in p inherited p'
  | di_inherited : forall inherited, directory_in "" inherited inherited.
  Definition directory_not (p : string) (x : err) : Prop := p <> "" /\ unexpandable w sc n p x.

  (** The options.  Without any there is nothing to expand. *)
  Inductive options_in (e : entry) : entries -> Prop :=
  | op_own : forall o o', e_options e = Some o -> o <> [] -> value_is (text_value (expands_in w sc n)) (VMap o) (Some (VMap o')) ->
      options_in e o'
  | op_empty : e_options e = Some [] -> options_in e []
  | op_inherited : forall d0, e_options e = None -> d = Some d0 ->
      options_in e (match e_options d0 with Some o => o | None => [] end)
  | op_default : e_options e = None -> d = None -> options_in e [].
  Definition options_not (e : entry) (x : err) : Prop :=
    exists o, e_options e = Some o /\ value_fails (text_value (expands_in w sc n)) (unexpandable w sc n) (VMap o) x.

  Definition datadir_in (e : entry) : string -> Prop :=
    directory_in (e_datadir e) (match d with Some d => e_datadir d | None => default_datadir env end).
  Definition plugindir_in (e : entry) : string -> Prop :=
    directory_in (e_plugindir e) (match d with Some d => e_plugindir d | None => default_plugindir env end).

  (** [e'] is [e] resolved with the resolved defaults [d], or as the defaults
      themselves when there are none. *)
  Inductive entry_in (e : entry) : entry -> Prop :=
  | en : forall f dd pd o ls, function_in e f -> datadir_in e dd -> plugindir_in e pd -> options_in e o ->
      match e_locations e with
      | Some l => exists lss, Forall2 (located sc (below root dd)) l lss /\ ls = Some (concat lss)
      | None => ls = None
      end ->
      entry_in e (mk_entry dd (below root pd) (e_pluginfile e) (Some o) (Some f) (e_name e) ls).

  (** An entry cannot be resolved: the first of function, data directory, plugin
      directory, options and locations that cannot is the reason. *)
  Inductive entry_not (e : entry) (x : err) : Prop :=
  | ex_function : function_not e x -> entry_not e x
  | ex_datadir : forall f, function_in e f -> directory_not (e_datadir e) x -> entry_not e x
  | ex_plugindir : forall f dd, function_in e f -> datadir_in e dd -> directory_not (e_plugindir e) x -> entry_not e x
  | ex_options : forall f dd pd, function_in e f -> datadir_in e dd -> plugindir_in e pd -> options_not e x -> entry_not e x
  | ex_locations : forall f dd pd o pre l post lss, function_in e f -> datadir_in e dd -> plugindir_in e pd -> options_in e o ->
      e_locations e = Some (pre ++ l :: post) -> Forall2 (located sc (below root dd)) pre lss ->
      unlocatable sc x l -> entry_not e x.
End Entry.

(** ** The configuration *)

(** The hierarchy of a configuration in a scope, as the entries [es].  The
    default hierarchy is resolved too, although it is not used. *)
Definition hierarchy_in (w : world) (on_disk : string -> bool) (matching : string -> list string) (n : nat)
  (sc : scope) (c : config) (es : list entry) : Prop :=
  exists d ds, entry_in w on_disk matching n sc (w_env w) (c_root c) None (c_defaults c) d /\
    Forall2 (entry_in w on_disk matching n sc (w_env w) (c_root c) (Some d)) (c_hierarchy c) es /\
    Forall2 (entry_in w on_disk matching n sc (w_env w) (c_root c) (Some d)) (c_default_hierarchy c) ds.

(** It cannot be resolved. *)
Inductive hierarchy_not (w : world) (on_disk : string -> bool) (matching : string -> list string) (n : nat)
  (sc : scope) (c : config) (x : err) : Prop :=
| hx_defaults : entry_not w on_disk matching n sc (w_env w) (c_root c) None (c_defaults c) x ->
    hierarchy_not w on_disk matching n sc c x
| hx_entry : forall d pre e post es, entry_in w on_disk matching n sc (w_env w) (c_root c) None (c_defaults c) d ->
    (c_hierarchy c ++ c_default_hierarchy c)%list = (pre ++ e :: post)%list ->
    Forall2 (entry_in w on_disk matching n sc (w_env w) (c_root c) (Some d)) pre es ->
    entry_not w on_disk matching n sc (w_env w) (c_root c) (Some d) e x ->
    hierarchy_not w on_disk matching n sc c x.
