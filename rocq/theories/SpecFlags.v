(** The options of the lookup command, for what its arguments mean. *)

From Coq Require Import String Ascii List Bool.
From Verif Require Export SpecArgs.
Import ListNotations.
Open Scope string_scope.

(** The options that are followed by a value, and the switches; from the help
    text of /repo/cli/hiera.go:90-115 and of cobra. *)
Definition valued (n : string) : Prop :=
  In n ["loglevel"; "merge"; "config"; "default"; "type"; "dialect"; "render-as"; "vars"; "var"; "facts"].
Definition switch (n : string) : Prop :=
  In n ["explain"; "explain-options"; "all"; "help"; "version"].

(** The arguments of the lookup command are settings and names
    (/repo/cli/hiera.go:80-117). *)
Definition reads : list string -> list (string * string) -> list string -> Prop := reading valued switch.

(** All switches of the lookup command are set to yes or no
    (/repo/cli/hiera.go:104-115). *)
Definition sensible : list (string * string) -> Prop := switches_sensible switch.
