(** Model of the lookup command: /repo/cli/hiera.go, /repo/lookup/lookup.go and
    Render of /repo/hiera/render.go. *)

From Coq Require Import String Ascii List ZArith Bool.
From Verif Require Import Str Value Outcome Key Config Explain State Engine Session Api.
Import ListNotations.
Open Scope string_scope.

Section Render.
  (** Rich data without references as JSON and as YAML, a value as binary, and
      String(), /repo/hiera/render.go:33-38, :45, :53-59, :62-63 and :68. *)
  Variable json yaml binary : value -> outcome string.
  Variable text : value -> string.

  (** Render, /repo/hiera/render.go:31-72. *)
  Definition render (as_what : string) (v : value) : outcome string :=
    if String.eqb as_what "json" then
      match v with VNil => Ok ("null" ++ str1 c_nl) | _ => omap (fun s => s ++ str1 c_nl) (json v) end
    else if String.eqb as_what "yaml" then
      match v with VNil => Ok (str1 c_nl) | _ => yaml v end
    else if String.eqb as_what "binary" then binary v
    else if String.eqb as_what "s" then Ok (text v ++ str1 c_nl)
    else Panic (EErr ("unknown rendering '" ++ as_what ++ "'")).
End Render.

Section Command.
  Open Scope monad_scope.
  Context {S X : Type}.
  (** session.New with these options, a top lookup function and the functions
      that MuxLookupKey asks; KillPlugins of the session; LookupAndRender with the
      session; and the standard output, /repo/cli/hiera.go:121-137. *)
  Variable new : entries -> lkfn -> list lkfn -> M S X.
  Variable kill : X -> M S unit.
  Variable look_and_render : X -> command_options -> list string -> M S (bool * string).
  Variable write : string -> M S unit.

  (** cmdLookup, /repo/cli/hiera.go:121-137; [dialect] and [config] are the
      flags of these names.  What LookupAndRender says is dropped, :134. *)
  Definition cmd_lookup (opts : command_options) (dialect config : string) (args : list string) : M S (option err) :=
    let cfg := (VStr "Hiera::Dialect", VStr dialect) ::
               (if String.eqb config "" then [] else [(VStr "Hiera::Config", VStr config)]) in
    try_with_parent (new cfg LkMux [LkConfig; LkEnv]) kill
      (fun c => r <- look_and_render c opts args ;; write (snd r) ;;; ret None).

  (** main, /repo/lookup/lookup.go:10-17, with the flags parsed: the exit
      status.  At least one argument is required, /repo/cli/hiera.go:87. *)
  Definition main (opts : command_options) (dialect config : string) (args : list string) : M S nat :=
    match args with
    | [] => ret 1
    | _ => e <- cmd_lookup opts dialect config args ;; ret (match e with None => 0 | Some _ => 1 end)
    end.
End Command.
