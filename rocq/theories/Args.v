(** How a command reads its arguments: FlagSet.parseArgs of pflag and the order
    in which cobra acts, for the commands made at /repo/cli/hiera.go:80-117 and
    /repo/hieraserver/rest/rest.go:46-71.

    Assumed of cobra and pflag, which are not in /repo: arguments are read from
    left to right; an argument that does not begin with a dash, and a single
    dash, is a name; two dashes end the flags; --n=v and --n v set a flag and
    --n sets a switch.  Not modelled: arguments with a single dash and a
    letter, what is written for help, for the version and for errors. *)

From Coq Require Import String Ascii List Bool.
From Verif Require Import Str State.
Import ListNotations.
Open Scope string_scope.

(** The kinds of flags: StringVar and IntVar, BoolVar, StringArrayVar and the
    OptString, /repo/cli/hiera.go:89-115 and
    /repo/hieraserver/rest/rest.go:56-69. *)
Inductive flag_kind : Type := FkText | FkSwitch | FkList | FkOpt.

(** strconv.ParseBool, with which pflag reads the value of a switch declared at
    /repo/cli/hiera.go:104-115 and
    /repo/hieraserver/rest/rest.go:68. *)
Definition parse_bool (v : string) : option bool :=
  if contains_string ["1"; "t"; "T"; "TRUE"; "true"; "True"] v then Some true
  else if contains_string ["0"; "f"; "F"; "FALSE"; "false"; "False"] v then Some false
  else None.

(** The text before and after the first equal sign, as pflag splits an argument
    of the commands made at /repo/cli/hiera.go:80 and
    /repo/hieraserver/rest/rest.go:47. *)
Fixpoint split_equals (s : string) : string * option string :=
  match s with
  | EmptyString => ("", None)
  | String c r =>
      if ceq c "=" then ("", Some r)
      else let (a, b) := split_equals r in (String c a, b)
  end.

(** What comes of the arguments: the variables that the flags are stored in and
    the names, an error, or an argument that is not modelled. *)
Inductive parsed (G : Type) : Type :=
| Parsed (g : G) (names : list string)
| Refused (g : G)
| Short.
Arguments Parsed {G}.
Arguments Refused {G}.
Arguments Short {G}.

Section Reader.
  Context {G : Type}.
  (** The flags by name, and what setting one does. *)
  Variable kinds : list (string * flag_kind).
  Variable set : string -> string -> G -> option G.

  (** FlagSet.parseArgs of pflag, called by cmd.Execute at
      /repo/lookup/lookup.go:12, /repo/cli/executelookup.go:21 and
      /repo/hieraserver/rest/rest.go:27.  [names] are the names so far, last
      first. *)
  Fixpoint read_args (args : list string) (names : list string) (g : G) : parsed G :=
    match args with
    | [] => Parsed g (rev names)
    | a :: r =>
        match a with
        | String "-" (String "-" EmptyString) => Parsed g (rev names ++ r)%list
        | String "-" (String "-" t) =>
            let (n, v) := split_equals t in
            match aget n kinds, v with
            | None, _ => Refused g
            | Some _, Some v => match set n v g with Some g' => read_args r names g' | None => Refused g end
            | Some FkSwitch, None => match set n "true" g with Some g' => read_args r names g' | None => Refused g end
            | Some _, None =>
                match r with
                | [] => Refused g
                | v :: r' => match set n v g with Some g' => read_args r' names g' | None => Refused g end
                end
            end
        | String "-" (String _ _) => Short
        | _ => read_args r (a :: names) g
        end
    end.
End Reader.
