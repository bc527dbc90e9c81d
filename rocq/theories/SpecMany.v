(** What lookups must come to when the configuration is one of several functions
    that are asked, as in the lookup command (/repo/cli/hiera.go:123-133) and in
    the REST service (/repo/hieraserver/rest/rest.go:76-80): values and failures,
    for all keys. *)

From Coq Require Import String Ascii List ZArith Bool.
From Verif Require Import Str Value Outcome Key Merge Fpath Config State Engine
  SpecKey SpecKeyErr SpecIpl SpecInterp SpecConfig MergeLookup SpecPath SpecLookup SpecFail SpecMux.
Import ListNotations.
Open Scope string_scope.
Open Scope list_scope.

Section Asked.
  Variables (w : world) (sc : scope).
  (** The options that are handed on, and the key that is asked for. *)
  Variables (args : entries) (r : string).

  (** What a function that reads no configuration has for the key; it has this
      also when it is asked for lookup options. *)
  Inductive holds : lkfn -> option value -> Prop :=
  | hs_environment : holds LkEnv (environment (w_env w) r)
  | hs_scope : holds LkScope (scope_get sc r)
  | hs_user : forall f v, (forall t, w_call w t (FnTop f) (ALookupKey args r) = PRet v) -> holds (LkUser f) v
  | hs_no_function : holds LkNotFun None.

  (** What the functions answer when they are asked for the lookup options of the
      key, when [all] is under lookup_options in the hierarchy. *)
  Inductive option_is (all : option value) : lkfn -> option value -> Prop :=
  | oi_config : forall lo, options_of all r lo -> option_is all LkConfig (option_map VMap lo)
  | oi_other : forall f o, holds f o -> option_is all f o.

  (** What they answer when they are asked for data, when [gives] is what the
      hierarchy gives, and when it fails them. *)
  Inductive datum_is (gives : option value -> Prop) : lkfn -> option value -> Prop :=
  | du_config : forall o, gives o -> datum_is gives LkConfig o
  | du_other : forall f o, holds f o -> datum_is gives f o.
  Inductive datum_fails (fails : err -> Prop) : lkfn -> err -> Prop :=
  | df_config : forall x, fails x -> datum_fails fails LkConfig x.
End Asked.

Section Find.
  Variables (w : world) (sc : scope) (es : list entry) (all : option value) (fs : list lkfn).
  (** What values stand for and when they fail. *)
  Variable value_is : value -> option value -> Prop.
  Variable value_fails : value -> err -> Prop.
  (** The root of the key and the options of the lookup. *)
  Variables (r : string) (opts : option entries).

  Definition handed : entries := match opts with Some o => o | None => [] end.

  (** The answers to the question for lookup options, merged deeply. *)
  Definition options_say (lo : option entries) : Prop :=
    exists outs, Forall2 (option_is w sc handed r all) fs outs /\ map_of (pure_lookup (SDeep []) outs) lo.

  (** They say how the answers to the question for data are merged and
      converted. *)
  Definition finds (x : option value) : Prop :=
    correct_key r /\
    exists lo mo s c v, options_say lo /\ merge_option opts lo mo /\ strategy_is mo s /\ conversion_is lo c /\
      picks (datum_is w sc handed r (hierarchy_gives w sc value_is r s es)) s fs v /\ converted w c v x.

  (** Nothing can be found, and why. *)
  Inductive finding_fails (x : err) : Prop :=
  | ff_root : misspelt r x -> finding_fails x
  | ff_strategy : forall lo mo t, correct_key r -> options_say lo -> merge_option opts lo mo ->
      (forall s, ~ strategy_is mo s) -> misnamed mo t -> x = EErr ("unknown merge strategy '" ++ t ++ "'") -> finding_fails x
  | ff_no_type : forall lo mo s, correct_key r -> options_say lo -> merge_option opts lo mo -> strategy_is mo s ->
      no_type lo -> x = EErr "interface conversion" -> finding_fails x
  | ff_type : forall lo mo s t a, correct_key r -> options_say lo -> merge_option opts lo mo -> strategy_is mo s ->
      conversion_is lo (Some (t, a)) -> w_parse_type w t = Panic x -> finding_fails x
  | ff_value : forall lo mo s c, correct_key r -> options_say lo -> merge_option opts lo mo -> strategy_is mo s ->
      conversion_is lo c -> (forall t a, c = Some (t, a) -> exists ty, w_parse_type w t = Ok ty) ->
      reaches_failure (datum_is w sc handed r (hierarchy_gives w sc value_is r s es))
                      (datum_fails (hierarchy_fails w sc value_is value_fails r s es)) s fs x -> finding_fails x
  | ff_conversion : forall lo mo s t a ty v, correct_key r -> options_say lo -> merge_option opts lo mo -> strategy_is mo s ->
      conversion_is lo (Some (t, a)) -> w_parse_type w t = Ok ty -> ty <> CSensitive \/ a <> None ->
      picks (datum_is w sc handed r (hierarchy_gives w sc value_is r s es)) s fs (Some v) ->
      w_new w ty v (match a with Some l => l | None => [] end) = Panic x -> finding_fails x.
End Find.

(** A string in a value, what is under the root of a key, or the whole lookup of
    a key: the expressions in what is found are replaced and the rest of the key
    is followed. *)
Inductive asking : Type :=
| AText (t : string)
| AFind (r : string) (opts : option entries)
| ALook (k : key) (opts : option entries).

(** Answers that need at most [n] nested steps.  The lookup in an expression is a
    lookup like any other: its own options count. *)
Fixpoint many_answers (w : world) (sc : scope) (es : list entry) (all : option value) (fs : list lkfn) (n : nat)
  : asking -> option value -> Prop :=
  match n with
  | 0 => fun _ _ => False
  | S n =>
      let answer := many_answers w sc es all fs n in
      let value_is := value_is (fun t => answer (AText t)) in
      fun a o =>
        match a with
        | AText t => whole_is w sc (fun t => answer (AText t)) (fun k => answer (ALook k None)) t o
        | AFind r opts => finds w sc es all fs value_is r opts o
        | ALook k opts =>
            (exists ps, k_parts k = PStr "lookup_options" :: ps /\ o = None) \/
            exists r ps x, k_parts k = PStr r :: ps /\ r <> "lookup_options" /\
              answer (AFind r opts) x /\ followed value_is ps x o
        end
  end.

(** Failures after at most [n] nested steps. *)
Fixpoint many_fails (w : world) (sc : scope) (es : list entry) (all : option value) (fs : list lkfn) (n : nat)
  : asking -> err -> Prop :=
  match n with
  | 0 => fun _ _ => False
  | S n =>
      let answer := many_answers w sc es all fs n in
      let fail := many_fails w sc es all fs n in
      let value_is := value_is (fun t => answer (AText t)) in
      let value_fails := value_fails (fun t => answer (AText t)) (fun t => fail (AText t)) in
      fun a x =>
        match a with
        | AText t => whole_fails w sc (fun t => answer (AText t)) (fun k => answer (ALook k None))
                       (fun t => fail (AText t)) (fun k => fail (ALook k None)) t x
        | AFind r opts => finding_fails w sc es all fs value_is value_fails r opts x
        | ALook k opts =>
            exists r ps, k_parts k = PStr r :: ps /\ r <> "lookup_options" /\
              (fail (AFind r opts) x \/ exists v, answer (AFind r opts) (Some v) /\ value_fails v x)
        end
  end.

(** A lookup: what is under lookup_options in the hierarchy is wanted first,
    whatever the key. *)
Definition many_gives (w : world) (sc : scope) (es : list entry) (fs : list lkfn) (n : nat) (k : key)
           (opts : option entries) (o : option value) : Prop :=
  exists all, all_options w sc es n all /\ many_answers w sc es all fs n (ALook k opts) o.

Inductive many_breaks (w : world) (sc : scope) (es : list entry) (fs : list lkfn) (n : nat) (k : key)
          (opts : option entries) (x : err) : Prop :=
| mb_options : forall r ps, k_parts k = PStr r :: ps -> r <> "lookup_options" ->
    hierarchy_fails w sc (value_in w sc es Options n) (fails_in w sc es Options n) "lookup_options" (SDeep []) es x ->
    many_breaks w sc es fs n k opts x
| mb_later : forall all, all_options w sc es n all -> many_fails w sc es all fs n (ALook k opts) x ->
    many_breaks w sc es fs n k opts x.

(** The functions besides the configuration that can be relied on to answer. *)
Inductive replies (w : world) : lkfn -> Prop :=
| rp_environment : replies w LkEnv
| rp_scope : replies w LkScope
| rp_user : forall f, (forall args r, exists v, forall t, w_call w t (FnTop f) (ALookupKey args r) = PRet v) -> replies w (LkUser f)
| rp_no_function : replies w LkNotFun.
