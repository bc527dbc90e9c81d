(** Model of the functions for users of the library and of the lookup command:
    /repo/hiera/hiera.go. *)

From Coq Require Import String Ascii List ZArith Bool.
From Verif Require Import Str Value Outcome Key Config Explain State Engine Session.
Import ListNotations.
Open Scope string_scope.
Open Scope list_scope.

Section Lookups.
  Open Scope monad_scope.
  Context {S T : Type}.
  (** Instance and vf.New of a dgo.Type [T]; [None] is nil. *)
  Variable inst : T -> option value -> bool.
  Variable conv : T -> option value -> outcome (option value).
  (** ic.Lookup(api.NewKey(name), options) with the invocation and options of
      the call. *)
  Variable ask : string -> M S (option value).

  (** lookupInMap, /repo/hiera/hiera.go:157-166. *)
  Fixpoint get_first (names : list string) (m : entries) : option value :=
    match names with
    | [] => None
    | n :: r => match mgets n m with Some v => Some v | None => get_first r m end
    end.
  Definition lookup_in_map (names : list string) (m : option entries) : option value :=
    match m with
    | Some (e :: r) => get_first names (e :: r)
    | _ => None
    end.

  (** ensureType, /repo/hiera/hiera.go:178-183. *)
  Definition ensure_type (t : option T) (v : option value) : outcome (option value) :=
    match t with
    | None => Ok v
    | Some t => if inst t v then Ok v else conv t v
    end.

  (** ensureTypeFromMap, /repo/hiera/hiera.go:168-176.  The struct map type is
      given by its keys and their types. *)
  Definition ensure_type_from_map (t : option (list (string * T))) (k : string) (v : value) : outcome (option value) :=
    match t with
    | None => Ok (Some v)
    | Some l => match find (fun e => String.eqb (fst e) k) l with
                | Some e => ensure_type (Some (snd e)) (Some v)
                | None => Panic (EErr ("key '" ++ k ++ "' was not found in the type map"))
                end
    end.

  (** The loop of Lookup2, /repo/hiera/hiera.go:101-105. *)
  Fixpoint ask_each (names : list string) : M S (option value) :=
    match names with
    | [] => ret None
    | n :: r => v <- ask n ;; match v with Some x => ret (Some x) | None => ask_each r end
    end.

  (** Lookup2, /repo/hiera/hiera.go:89-116. *)
  Definition lookup2 (names : list string) (t : option T) (default_value : option value)
             (override defaults : option entries) (default_func : option (M S (option value))) : M S (option value) :=
    match lookup_in_map names override with
    | Some v => lift (ensure_type t (Some v))
    | None =>
        found <- ask_each names ;;
        match found with
        | Some v => lift (ensure_type t (Some v))
        | None =>
            match lookup_in_map names defaults with
            | Some v => lift (ensure_type t (Some v))
            | None =>
                match default_value with
                | Some v => lift (ensure_type t (Some v))
                | None => match default_func with
                          | Some f => v <- f ;; lift (ensure_type t v)
                          | None => ret None
                          end
                end
            end
        end
    end.

  (** The value of a result that is put into a map; a nil would be put as
      null. *)
  Definition or_null (v : option value) : value := match v with Some x => x | None => VNil end.

  (** The loop of LookupAll, /repo/hiera/hiera.go:139-153. *)
  Fixpoint all_of (names : list string) (t : option (list (string * T))) (override defaults : option entries)
           (response : entries) : M S entries :=
    match names with
    | [] => ret response
    | n :: r =>
        let put v := x <- lift (ensure_type_from_map t n v) ;; all_of r t override defaults (mput (VStr n) (or_null x) response) in
        match lookup_in_map [n] override with
        | Some v => put v
        | None =>
            found <- ask n ;;
            match found with
            | Some v => put v
            | None => match lookup_in_map [n] defaults with
                      | Some v => put v
                      | None => all_of r t override defaults response
                      end
            end
        end
    end.

  (** LookupAll, /repo/hiera/hiera.go:131-155. *)
  Definition lookup_all (names : list string) (t : option (list (string * T))) (override defaults : option entries) : M S value :=
    m <- all_of names t override defaults [] ;; ret (VMap m).
End Lookups.

(** *** Sessions for a function *)

Section Sessions.
  Context {S : Type}.

  (** [defer cleanup()], then [body]: the cleanup is also done when the body
      panics; its own panic replaces the one of the body. *)
  Definition deferred {A} (cleanup : M S unit) (body : M S A) : M S A := fun s =>
    let (o, s1) := body s in
    match o with
    | Hang => (Hang, s1)
    | NoFuel => (NoFuel, s1)
    | _ => let (c, s2) := cleanup s1 in (match c with Ok _ => o | x => recast x end, s2)
    end.

  (** util.Catch of dgo: a panic with an error gives that error; what it does
      with other panics is not modelled further ([Panic]). *)
  Definition catch (body : M S unit) : M S (option err) := fun s =>
    let (o, s1) := body s in
    (match o with
     | Ok _ => Ok None
     | Panic EOther => Panic EOther
     | Panic e => Ok (Some e)
     | Hang => Hang
     | NoFuel => NoFuel
     end, s1).

  (** DoWithParent, /repo/hiera/hiera.go:201-205: [new] is session.New, [kill]
      is KillPlugins of that session. *)
  Definition do_with_parent {X} (new : M S X) (kill : X -> M S unit) (consumer : X -> M S unit) : M S unit :=
    bind new (fun x => deferred (kill x) (consumer x)).

  (** TryWithParent, /repo/hiera/hiera.go:188-197: the consumer gives an error
      or nil. *)
  Definition try_with_parent {X} (new : M S X) (kill : X -> M S unit) (consumer : X -> M S (option string)) : M S (option err) :=
    catch (bind new (fun x => deferred (kill x) (bind (consumer x) (fun e =>
      match e with Some m => panic (EErr m) | None => ret tt end)))).
End Sessions.

(** *** Variables of the lookup command *)

(** The characters of [:=]. *)
Definition is_sep (c : ascii) : bool := ceq c c_colon || ceq c c_eq.
(** No newline, the last dot and star of the pattern at /repo/hiera/hiera.go:208. *)
Fixpoint one_line (s : string) : bool :=
  match s with EmptyString => true | String c r => negb (ceq c c_nl) && one_line r end.

(** varSplit, /repo/hiera/hiera.go:208: the shortest run of characters other
    than newlines, a character that is neither a colon nor an equals sign, one
    that is, again one that is neither, and then no newline up to the end.
    [pre] is the run so far.  *)
Fixpoint var_split_from (pre : string) (s : string) : option (string * string) :=
  match s with
  | EmptyString => None
  | String c r =>
      let next := if ceq c c_nl then None else var_split_from (pre ++ str1 c) r in
      if is_sep c then next else
      match r with
      | String d (String f t) =>
          if is_sep d && negb (is_sep f) && one_line t then Some ((pre ++ str1 c)%string, String f t) else next
      | _ => next
      end
  end.
Definition var_split (s : string) : option (string * string) := var_split_from "" s.

(** What reading a file of variables gives, /repo/hiera/hiera.go:313-336: an
    error from reading or from YAML, no bytes, a map, or another value. *)
Inductive var_file : Type :=
| VfError (e : string)
| VfEmpty
| VfMap (m : entries)
| VfOther.

Section Scope.
  (** ParseType and ExactValue for text that looks like a composite,
      /repo/hiera/hiera.go:281-283. *)
  Variable parse : string -> outcome value.
  (** Files by name. *)
  Variable file : string -> var_file.

  (** parseCommandLineValue, /repo/hiera/hiera.go:276-288. *)
  Definition parse_command_line_value (vs : string) : outcome value :=
    let vs := trim_space vs in
    if has_prefix "{" vs || has_prefix "[" vs || has_prefix """" vs || has_prefix "'" vs then parse vs
    else Ok (VStr vs).

  (** addVarPaths, /repo/hiera/hiera.go:313-336.  [stdin] is what is left to read
      on the standard input: nothing once it has been read. *)
  Fixpoint add_var_paths (paths : list string) (stdin : var_file) (m : entries) : outcome (entries * var_file) :=
    match paths with
    | [] => Ok (m, stdin)
    | p :: r =>
        let content := if String.eqb p "-" then stdin else file p in
        let stdin := if String.eqb p "-" then VfEmpty else stdin in
        match content with
        | VfError e => Panic (EErr e)
        | VfEmpty => add_var_paths r stdin m
        | VfMap d => add_var_paths r stdin (mputall m d)
        | VfOther => Panic (EErr ("file '" ++ p ++ "' does not contain a YAML hash"))
        end
    end.

  (** The loop over --var, /repo/hiera/hiera.go:293-300. *)
  Fixpoint add_variables (vars : list string) (m : entries) : outcome entries :=
    match vars with
    | [] => Ok m
    | e :: r =>
        match var_split e with
        | Some (k, v) => obind (parse_command_line_value v) (fun x => add_variables r (mput (VStr (trim_space k)) x m))
        | None => Panic (EErr ("unable to parse variable '" ++ e ++ "'"))
        end
    end.

  (** createScope, /repo/hiera/hiera.go:290-311. *)
  Definition create_scope (vars var_paths fact_paths : list string) (stdin : var_file) : outcome entries :=
    obind (add_variables vars []) (fun m =>
    obind (add_var_paths var_paths stdin m) (fun ms =>
    match fact_paths with
    | [] => Ok (fst ms)
    | _ =>
        obind (add_var_paths fact_paths (snd ms) []) (fun fs =>
        Ok (mput (VStr "facts") (VMap (fst fs)) (mputall (fst ms) (fst fs))))
    end)).
End Scope.

(** *** The lookup command *)

(** CommandOptions, /repo/hiera/hiera.go:26-57. *)
Record command_options : Type := mk_command {
  co_type : string;
  co_merge : string;
  co_default : option string;
  co_fact_paths : list string;
  co_var_paths : list string;
  co_variables : list string;
  co_render_as : string;
  co_explain_data : bool;
  co_explain_options : bool;
  co_lookup_all : bool
}.

Section Render.
  Open Scope monad_scope.
  Context {S T : Type}.
  Variable inst : T -> option value -> bool.
  Variable conv : T -> option value -> outcome (option value).
  (** typ.Any, the types that ParseType gives, and the keys and types of a
      struct map type, /repo/hiera/hiera.go:268-274 and :243. *)
  Variable any : T.
  Variable parse_type : string -> outcome T.
  Variable struct_of : T -> option (list (string * T)).
  Variable parse : string -> outcome value.
  Variable file : string -> var_file.
  Variable stdin : var_file.
  (** Invocation with this scope and a new explainer ([None]: no explainer; else
      its options and only options), /repo/hiera/hiera.go:234-239, and Lookup of
      a name with that invocation and these options. *)
  Variable invoke : entries -> option (bool * bool) -> M S unit.
  Variable ask_with : option entries -> string -> M S (option value).
  (** Render, /repo/hiera/render.go:31-72, of a value and of the explainer. *)
  Variable render : string -> value -> outcome string.
  Variable render_explainer : string -> M S string.

  (** LookupAndRender, /repo/hiera/hiera.go:213-266: the result and what is
      written. *)
  Definition lookup_and_render (opts : command_options) (args : list string) : M S (bool * string) :=
    tp <- lift (if String.eqb (co_type opts) "" then Ok any else parse_type (co_type opts)) ;;
    let options : option entries :=
      if String.eqb (co_merge opts) "" || String.eqb (co_merge opts) "first" then None
      else Some [(VStr "merge", VStr (co_merge opts))] in
    dv <- lift match co_default opts with
               | None => Ok None
               | Some s => if String.eqb s "" then Ok (Some (VStr "")) else omap Some (parse_command_line_value parse s)
               end ;;
    let explainer := if co_explain_data opts || co_explain_options opts
                     then Some (co_explain_options opts, co_explain_options opts && negb (co_explain_data opts)) else None in
    scope <- lift (create_scope parse file (co_variables opts) (co_var_paths opts) (co_fact_paths opts) stdin) ;;
    invoke scope explainer ;;;
    found <- (if co_lookup_all opts then
                match struct_of tp with
                | None => if String.eqb (co_type opts) ""
                          then v <- lookup_all inst conv (ask_with options) args None None None ;; ret (Some v)
                          else panic (EErr "type must be a map")
                | Some st => v <- lookup_all inst conv (ask_with options) args (Some st) None None ;; ret (Some v)
                end
              else lookup2 inst conv (ask_with options) args (Some tp) dv None None None) ;;
    match explainer with
    | Some _ =>
        out <- render_explainer (if String.eqb (co_render_as opts) "" then "s" else co_render_as opts) ;;
        ret (match found with Some _ => true | None => false end, out)
    | None =>
        match found with
        | None => ret (false, "")
        | Some v => out <- lift (render (if String.eqb (co_render_as opts) "" then "yaml" else co_render_as opts) v) ;; ret (true, out)
        end
    end.
End Render.

(** *** The lookup command with the engine *)

(** Invocation, /repo/session/session.go:134-142, with the scope of the session
    below the one given and with the new explainer, if any. *)
Definition engine_invoke (session_scope : scope) (sc : entries) (ex : option (bool * bool)) : M st unit := fun s =>
  (Ok tt, match ex with
          | None => invocation (ScNest session_scope sc) false s
          | Some (options, only) => with_ex (new_explainer options only) (invocation (ScNest session_scope sc) true s)
          end).

(** ic.Lookup(api.NewKey(name), options), /repo/hiera/hiera.go:102. *)
Definition engine_ask (w : world) (n : nat) (opts : option entries) (name : string) : M st (option value) :=
  bind (lift (new_key name)) (fun k => run_lookup w n k opts).
