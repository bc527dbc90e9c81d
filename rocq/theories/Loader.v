(** The loaders of a session, /repo/session/session.go:238-298: how the path of
    a plugin gets from LoadFunction to startPlugin.

    Assumed of the dgo library, which is not in /repo: a loader has a name and
    a parent; its absolute name is the absolute name of its parent, a slash and
    its name, and that of the root is a slash; Namespace of the empty text is
    the loader itself, of another text the loader that the function given to
    loader.New makes for it.  Not modelled: a loader given with the option
    Hiera::Loader (:247-254), Windows, and that loaders remember what they found. *)

From Coq Require Import String Ascii List Bool.
From Verif Require Import Str.
Import ListNotations.
Open Scope string_scope.

(** A loader, by the names on the way to it from the root. *)
Definition loader : Type := list string.

(** AbsoluteName, used at /repo/session/session.go:268. *)
Definition absolute_name (l : loader) : string := "/" ++ join "/" l.

(** Namespace, used at /repo/session/session.go:159 and :184-190, with the
    creators nsCreator (:239-248) and pluginNamespace (:292-294); the function
    loader has none (:263). *)
Definition namespace (l : loader) (name : string) : option loader :=
  if String.eqb name "" then Some l
  else match l with
       | [] => if String.eqb name "plugin" || String.eqb name "function" then Some [name] else None
       | k :: _ => if String.eqb k "plugin" then Some (l ++ [name])%list else None
       end.

(** The loop of LoadFunction, /repo/session/session.go:185-190. *)
Fixpoint namespaces (l : loader) (names : list string) : option loader :=
  match names with
  | [] => Some l
  | n :: r => match namespace l n with Some l' => namespaces l' r | None => None end
  end.

(** pluginFinder, /repo/session/session.go:267-289: the path of the plugin to be
    started. *)
Definition finder_path (l : loader) : option string :=
  let an := absolute_name l in
  match String.index 0 "/plugin/" an with
  | None => None
  | Some ix => Some (String.substring (ix + 7) (String.length an - (ix + 7)) an)
  end.

(** From the path that LoadFunction has made to the one that is started,
    /repo/session/session.go:184-193 and :267-289. *)
Definition loader_path (path : string) : option string :=
  match namespace [] "plugin" with
  | None => None
  | Some l => match namespaces l (split_slash path) with Some l' => finder_path l' | None => None end
  end.
