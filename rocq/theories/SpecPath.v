(** Where paths lead, and what it means for a path to be inside a directory;
    lexically, as if there were no links. *)

From Coq Require Import String Ascii List Bool.
From Verif Require Import SpecKey.
Import ListNotations.
Open Scope string_scope.
Open Scope list_scope.

(** A path spelled by its elements. *)
Fixpoint spelled_from (es : list string) : string :=
  match es with
  | [] => ""
  | [e] => e
  | e :: r => (e ++ "/" ++ spelled_from r)%string
  end.
Definition spelled (abs : bool) (es : list string) : string :=
  if abs then ("/" ++ spelled_from es)%string
  else match es with [] => "." | _ => spelled_from es end.

(** A proper element of a path. *)
Definition element (e : string) : Prop := e <> "" /\ e <> "." /\ ~ occurs "/"%char e.

(** ** Where a path leads *)

(** A directory is known by the names on the way to it from the root. *)
Definition name (e : string) : Prop := element e /\ e <> "..".

(** The parts of a text, between its slashes. *)
Definition parts (p : string) (es : list string) : Prop :=
  es <> [] /\ Forall (fun e => ~ occurs "/"%char e) es /\ p = String.concat "/" es.

(** Going from a directory along parts: nothing and one dot stay, two dots go
    up, unless at the root, and a name goes down. *)
Inductive walks : list string -> list string -> list string -> Prop :=
| walks_end : forall at_, walks at_ [] at_
| walks_stay : forall at_ e r to, e = "" \/ e = "." -> walks at_ r to -> walks at_ (e :: r) to
| walks_up : forall at_ e r to, walks at_ r to -> walks (at_ ++ [e]) (".." :: r) to
| walks_top : forall r to, walks [] r to -> walks [] (".." :: r) to
| walks_down : forall at_ e r to, e <> "" -> e <> "." -> e <> ".." -> walks (at_ ++ [e]) r to -> walks at_ (e :: r) to.

Definition absolute (p : string) : Prop := exists r, p = String "/"%char r.

(** The place that a path leads to, for a program in the directory [at_]. *)
Inductive reaches (at_ : list string) (p : string) (to : list string) : Prop :=
| reaches_absolute : forall es, absolute p -> parts p es -> walks [] es to -> reaches at_ p to
| reaches_relative : forall es, ~ absolute p -> parts p es -> walks at_ es to -> reaches at_ p to.

(** [p] is [d], or a file or directory below it, wherever the program is. *)
Definition within (d p : string) : Prop :=
  forall at_, Forall name at_ -> exists ds es, reaches at_ d ds /\ reaches at_ p (ds ++ es).

(** A path without detours: names from the root, or some steps up and then
    names. *)
Inductive direct : string -> Prop :=
| direct_absolute : forall es, Forall name es -> direct (spelled true es)
| direct_relative : forall k es, Forall name es -> direct (spelled false (repeat ".." k ++ es)).

(** The path [t] has an element that goes up: some part between slashes is two
    dots. *)
Definition goes_up (t : string) : Prop :=
  exists a b, (t = a ++ ".." ++ b)%string /\ (a = "" \/ exists a', a = (a' ++ "/")%string) /\ (b = "" \/ exists b', b = ("/" ++ b')%string).

(** Going along these parts never goes up more often than it went down before,
    where [n] is how far down it is at the beginning. *)
Inductive stays_down : nat -> list string -> Prop :=
| sd_end : forall n, stays_down n []
| sd_stay : forall n e r, e = "" \/ e = "." -> stays_down n r -> stays_down n (e :: r)
| sd_up : forall n r, stays_down n r -> stays_down (S n) (".." :: r)
| sd_down : forall n e r, e <> "" -> e <> "." -> e <> ".." -> stays_down (S n) r -> stays_down n (e :: r).

(** The path [t] never leaves the directory that it starts from. *)
Definition keeps_inside (t : string) : Prop := exists ps, parts t ps /\ stays_down 0 ps.
