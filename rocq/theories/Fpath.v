(** The path/filepath functions of the Go library used by hiera, for Unix. *)

From Coq Require Import String Ascii List Bool.
From Verif Require Import Str.
Import ListNotations.
Open Scope string_scope.
Open Scope bool_scope.

(** filepath.IsAbs, used at /repo/config/entry.go:139 and :159. *)
Definition is_abs (p : string) : bool :=
  match p with String c _ => ceq c c_slash | EmptyString => false end.

(** Lexical processing of the elements of a path.  [st] are the elements kept so
    far, last first.  Empty and "." elements are dropped; ".." removes the last
    element, unless there is none (kept when the path is relative, dropped
    when it is rooted) or it is itself "..". *)
Fixpoint clean_parts (rooted : bool) (st : list string) (ps : list string) : list string :=
  match ps with
  | [] => st
  | p :: r =>
      if String.eqb p "" || String.eqb p "." then clean_parts rooted st r
      else if String.eqb p ".." then
        match st with
        | [] => clean_parts rooted (if rooted then [] else [".."]) r
        | x :: st' => if String.eqb x ".." then clean_parts rooted (".." :: st) r
                      else clean_parts rooted st' r
        end
      else clean_parts rooted (p :: st) r
  end.

(** filepath.Clean (documented rules of the Go library), used at
    /repo/session/session.go:174-176. *)
Definition clean (p : string) : string :=
  let rooted := is_abs p in
  let st := rev (clean_parts rooted [] (split_slash p)) in
  if rooted then "/" ++ join "/" st
  else match st with [] => "." | _ => join "/" st end.

(** filepath.Join of two elements, used at /repo/config/entry.go:140 and :162,
    /repo/config/path.go:77, /repo/config/glob.go:65,
    /repo/config/mappedpaths.go:106, /repo/session/session.go:123 and :176,
    /repo/provider/modulelookupkey.go:98: empty elements are ignored. *)
Definition join2 (a b : string) : string :=
  if String.eqb a "" then (if String.eqb b "" then "" else clean b)
  else if String.eqb b "" then clean a
  else clean (a ++ "/" ++ b).

(** The text up to and including the last slash. *)
Fixpoint upto_slash (s : string) : string :=
  match s with
  | EmptyString => EmptyString
  | String c r => match upto_slash r with
                  | EmptyString => if ceq c c_slash then str1 c else EmptyString
                  | r' => String c r'
                  end
  end.

(** filepath.Dir, used at /repo/config/config.go:84 and :106. *)
Definition dir (p : string) : string := clean (upto_slash p).

(** filepath.SplitList, used at /repo/provider/modulelookupkey.go:64: split on
    ":", the empty string gives no elements. *)
Fixpoint split_colon_acc (cur s : string) : list string :=
  match s with
  | EmptyString => [cur]
  | String c r => if ceq c c_colon then cur :: split_colon_acc EmptyString r
                  else split_colon_acc (cur ++ str1 c) r
  end.
Definition split_list (s : string) : list string :=
  match s with EmptyString => [] | _ => split_colon_acc EmptyString s end.
