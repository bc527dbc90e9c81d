(** What arguments of a command mean, said without the reader of arguments:
    which of them are settings and which are names, and what an option is when
    it is set several times or never. *)

From Coq Require Import String Ascii List Bool.
Import ListNotations.
Open Scope string_scope.

(** An argument that is a name: it does not begin with a dash, or is one dash. *)
Definition plain (a : string) : Prop := a = "-" \/ forall t, a <> "-" ++ t.

(** Arguments with a single dash and more, which are not modelled. *)
Definition short (a : string) : Prop := exists c t, c <> "-"%char /\ a = "-" ++ String c t.

(** The last setting of an option, if there is one. *)
Definition last_set (n : string) (ss : list (string * string)) (o : option string) : Prop :=
  match o with
  | Some v => exists before after, ss = (before ++ (n, v) :: after)%list /\ ~ In n (map fst after)
  | None => ~ In n (map fst ss)
  end.

(** An option that is [d] unless it is set. *)
Definition option_is (n d : string) (ss : list (string * string)) (v : string) : Prop :=
  exists o, last_set n ss o /\ v = match o with Some v => v | None => d end.

(** All settings of an option, in order. *)
Inductive all_set (n : string) : list (string * string) -> list string -> Prop :=
| as_nil : all_set n [] []
| as_this v ss vs : all_set n ss vs -> all_set n ((n, v) :: ss) (v :: vs)
| as_other n' v ss vs : n' <> n -> all_set n ss vs -> all_set n ((n', v) :: ss) vs.

(** The texts that mean yes and no (strconv.ParseBool of Go). *)
Definition yes (v : string) : Prop := In v ["1"; "t"; "T"; "TRUE"; "true"; "True"].
Definition no (v : string) : Prop := In v ["0"; "f"; "F"; "FALSE"; "false"; "False"].

(** A switch is on when its last setting says yes. *)
Definition switched (n : string) (ss : list (string * string)) : Prop :=
  exists v, last_set n ss (Some v) /\ yes v.

Section Options.
  (** The options that are followed by a value, and the switches. *)
  Variables valued switch : string -> Prop.

  (** [reading args sets names]: the arguments are the settings [sets], in order,
      and the names [names], in order. *)
  Inductive reading : list string -> list (string * string) -> list string -> Prop :=
  | rd_end : reading [] [] []
  | rd_name a r ss ns : plain a -> reading r ss ns -> reading (a :: r) ss (a :: ns)
  | rd_rest r : reading ("--" :: r) [] r
  | rd_equals n v r ss ns : valued n \/ switch n -> reading r ss ns ->
      reading (("--" ++ n ++ "=" ++ v) :: r) ((n, v) :: ss) ns
  | rd_switch n r ss ns : switch n -> reading r ss ns -> reading (("--" ++ n) :: r) ((n, "true") :: ss) ns
  | rd_value n v r ss ns : valued n -> reading r ss ns -> reading (("--" ++ n) :: v :: r) ((n, v) :: ss) ns.

  (** All switches are set to something that means yes or no. *)
  Definition switches_sensible (ss : list (string * string)) : Prop :=
    forall n v, In (n, v) ss -> switch n -> yes v \/ no v.
End Options.
Arguments rd_end {valued switch}.
Arguments rd_name {valued switch}.
Arguments rd_rest {valued switch}.
Arguments rd_equals {valued switch}.
Arguments rd_switch {valued switch}.
Arguments rd_value {valued switch}.
