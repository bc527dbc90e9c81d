(** The flags of the lookup command: NewCommand and OptString of
    /repo/cli/hiera.go:40-119, ExecuteLookup of /repo/cli/executelookup.go:10-24,
    and main of /repo/lookup/lookup.go:10-17.

    Assumed of cobra and pflag, besides what Args.v says: the command has the
    switches help and version besides the flags declared.  Not modelled: a call
    of ExecuteLookup with a nil slice; cobra then reads the arguments of the
    process. *)

From Coq Require Import String Ascii List Bool.
From Verif Require Import Str Value Outcome State Api Args.
Import ListNotations.
Open Scope string_scope.

(** The variables that flags are stored in, /repo/cli/hiera.go:70-76, and the two
    switches of the command itself. *)
Record flags : Type := mk_flags {
  fl_opts : command_options;
  fl_dflt : option string;
  fl_loglevel : string;
  fl_config : string;
  fl_dialect : string;
  fl_help : bool;
  fl_version : bool
}.

(** hiera.CommandOptions{}, /repo/cli/executelookup.go:12. *)
Definition no_options : command_options := mk_command "" "" None [] [] [] "" false false false.

(** The variables when a program starts, /repo/cli/hiera.go:70-76. *)
Definition first_flags : flags := mk_flags no_options None "" "" "" false false.

(** NewCommand, /repo/cli/hiera.go:79-119: declaring a flag stores its default
    value; flags.Var (:96-97) does not.  Default is not a flag and stays. *)
Definition new_command (g : flags) : flags :=
  mk_flags (mk_command "" "first" (co_default (fl_opts g)) [] [] [] "" false false false)
    (fl_dflt g) "error" "" "pcore" false false.

(** The flags by name, /repo/cli/hiera.go:90-115, with those of cobra. *)
Definition flag_kinds : list (string * flag_kind) :=
  [("loglevel", FkText); ("merge", FkText); ("config", FkText); ("default", FkOpt); ("type", FkText);
   ("dialect", FkText); ("render-as", FkText); ("explain", FkSwitch); ("explain-options", FkSwitch);
   ("vars", FkList); ("var", FkList); ("facts", FkList); ("all", FkSwitch);
   ("help", FkSwitch); ("version", FkSwitch)].

(** Setters of the fields of CommandOptions, /repo/hiera/hiera.go:24-56. *)
Definition with_opts (o : command_options) (g : flags) : flags :=
  mk_flags o (fl_dflt g) (fl_loglevel g) (fl_config g) (fl_dialect g) (fl_help g) (fl_version g).

(** Setting a flag: the variable that /repo/cli/hiera.go:90-115 names, and
    OptString.Set, /repo/cli/hiera.go:60-63.  A list gets one more element.
    [None]: the value is refused. *)
Definition set_flag (n v : string) (g : flags) : option flags :=
  let o := fl_opts g in
  if String.eqb n "loglevel" then
    Some (mk_flags o (fl_dflt g) v (fl_config g) (fl_dialect g) (fl_help g) (fl_version g))
  else if String.eqb n "config" then
    Some (mk_flags o (fl_dflt g) (fl_loglevel g) v (fl_dialect g) (fl_help g) (fl_version g))
  else if String.eqb n "dialect" then
    Some (mk_flags o (fl_dflt g) (fl_loglevel g) (fl_config g) v (fl_help g) (fl_version g))
  else if String.eqb n "default" then
    Some (mk_flags o (Some v) (fl_loglevel g) (fl_config g) (fl_dialect g) (fl_help g) (fl_version g))
  else if String.eqb n "merge" then
    Some (with_opts (mk_command (co_type o) v (co_default o) (co_fact_paths o) (co_var_paths o) (co_variables o)
                       (co_render_as o) (co_explain_data o) (co_explain_options o) (co_lookup_all o)) g)
  else if String.eqb n "type" then
    Some (with_opts (mk_command v (co_merge o) (co_default o) (co_fact_paths o) (co_var_paths o) (co_variables o)
                       (co_render_as o) (co_explain_data o) (co_explain_options o) (co_lookup_all o)) g)
  else if String.eqb n "render-as" then
    Some (with_opts (mk_command (co_type o) (co_merge o) (co_default o) (co_fact_paths o) (co_var_paths o) (co_variables o)
                       v (co_explain_data o) (co_explain_options o) (co_lookup_all o)) g)
  else if String.eqb n "facts" then
    Some (with_opts (mk_command (co_type o) (co_merge o) (co_default o) (co_fact_paths o ++ [v])%list (co_var_paths o) (co_variables o)
                       (co_render_as o) (co_explain_data o) (co_explain_options o) (co_lookup_all o)) g)
  else if String.eqb n "vars" then
    Some (with_opts (mk_command (co_type o) (co_merge o) (co_default o) (co_fact_paths o) (co_var_paths o ++ [v])%list (co_variables o)
                       (co_render_as o) (co_explain_data o) (co_explain_options o) (co_lookup_all o)) g)
  else if String.eqb n "var" then
    Some (with_opts (mk_command (co_type o) (co_merge o) (co_default o) (co_fact_paths o) (co_var_paths o) (co_variables o ++ [v])%list
                       (co_render_as o) (co_explain_data o) (co_explain_options o) (co_lookup_all o)) g)
  else
    match parse_bool v with
    | None => None
    | Some b =>
        if String.eqb n "explain" then
          Some (with_opts (mk_command (co_type o) (co_merge o) (co_default o) (co_fact_paths o) (co_var_paths o) (co_variables o)
                             (co_render_as o) b (co_explain_options o) (co_lookup_all o)) g)
        else if String.eqb n "explain-options" then
          Some (with_opts (mk_command (co_type o) (co_merge o) (co_default o) (co_fact_paths o) (co_var_paths o) (co_variables o)
                             (co_render_as o) (co_explain_data o) b (co_lookup_all o)) g)
        else if String.eqb n "all" then
          Some (with_opts (mk_command (co_type o) (co_merge o) (co_default o) (co_fact_paths o) (co_var_paths o) (co_variables o)
                             (co_render_as o) (co_explain_data o) (co_explain_options o) b) g)
        else if String.eqb n "help" then
          Some (mk_flags o (fl_dflt g) (fl_loglevel g) (fl_config g) (fl_dialect g) b (fl_version g))
        else
          Some (mk_flags o (fl_dflt g) (fl_loglevel g) (fl_config g) (fl_dialect g) (fl_help g) b)
    end.

(** The arguments read, /repo/lookup/lookup.go:12 and
    /repo/cli/executelookup.go:21. *)
Definition parse_args : list string -> list string -> flags -> parsed flags := read_args flag_kinds set_flag.

(** What a command does: it writes how to use it, or its version, it refuses
    its arguments, or it looks up names. *)
Inductive action : Type :=
| AcHelp
| AcVersion
| AcRefuse
| AcLookup (opts : command_options) (dialect config : string) (names : list string)
| AcShort.

(** Execute of a command, /repo/lookup/lookup.go:12 and
    /repo/cli/executelookup.go:21: help and version come before the check of the
    names (/repo/cli/hiera.go:87), and the default is stored by cmdLookup (:123). *)
Definition execute (g : flags) (args : list string) : flags * action :=
  match parse_args args [] (new_command g) with
  | Refused g' => (g', AcRefuse)
  | Short => (g, AcShort)
  | Parsed g' names =>
      if fl_help g' then (g', AcHelp)
      else if fl_version g' then (g', AcVersion)
      else match names with
           | [] => (g', AcRefuse)
           | _ =>
               let o := fl_opts g' in
               let o' := mk_command (co_type o) (co_merge o) (fl_dflt g') (co_fact_paths o) (co_var_paths o) (co_variables o)
                           (co_render_as o) (co_explain_data o) (co_explain_options o) (co_lookup_all o) in
               (with_opts o' g', AcLookup o' (fl_dialect g') (fl_config g') names)
           end
  end.

(** ExecuteLookup, /repo/cli/executelookup.go:10-24: dialect is not reset. *)
Definition execute_lookup (g : flags) (args : list string) : flags * action :=
  execute (mk_flags no_options None "" "" (fl_dialect g) (fl_help g) (fl_version g)) args.

(** A program that executes several commands with ExecuteLookup. *)
Fixpoint execute_all (g : flags) (argss : list (list string)) : list action :=
  match argss with
  | [] => []
  | args :: r => let (g', a) := execute_lookup g args in a :: execute_all g' r
  end.
