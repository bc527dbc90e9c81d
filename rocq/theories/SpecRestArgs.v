(** The options of the REST server, for what its arguments mean, and which
    address a text designates. *)

From Coq Require Import String Ascii List Bool ZArith.
From Verif Require Export SpecArgs.
Import ListNotations.
Open Scope string_scope.

(** The options that are followed by a value, and the switches; from the help
    text of /repo/hieraserver/rest/rest.go:56-69 and of cobra. *)
Definition valued (n : string) : Prop :=
  In n ["loglevel"; "config"; "vars"; "var"; "addr"; "ssl-key"; "ssl-cert"; "ca"; "port"].
Definition switch (n : string) : Prop := In n ["clientCertVerify"; "help"].

(** The arguments of the server are settings and names
    (/repo/hieraserver/rest/rest.go:46-71). *)
Definition reads : list string -> list (string * string) -> list string -> Prop := reading valued switch.

(** All switches are set to yes or no, and all ports are numbers
    (/repo/hieraserver/rest/rest.go:68-69). *)
Definition acceptable (parse_int : string -> option Z) (ss : list (string * string)) : Prop :=
  switches_sensible switch ss /\ forall v, In ("port", v) ss -> parse_int v <> None.

(** The number that a text of digits denotes, read from the left after [z]. *)
Fixpoint denotes_from (z : Z) (s : string) (r : Z) : Prop :=
  match s with
  | EmptyString => z = r
  | String c s => exists d, In (c, d) [("0", 0); ("1", 1); ("2", 2); ("3", 3); ("4", 4); ("5", 5); ("6", 6); ("7", 7); ("8", 8); ("9", 9)]%char%Z /\
                            denotes_from (10 * z + d)%Z s r
  end.
(** The decimal text of a number. *)
Definition decimal (z : Z) (s : string) : Prop :=
  (s <> "" /\ denotes_from 0 s z) \/ (exists t, s = "-" ++ t /\ t <> "" /\ denotes_from 0 t (- z)).

(** The port of a server: what it was set to last, or 8080. *)
Definition port_is (parse_int : string -> option Z) (ss : list (string * string)) (z : Z) : Prop :=
  exists o, last_set "port" ss o /\ match o with Some v => parse_int v = Some z | None => z = 8080%Z end.

(** A text without any of some characters. *)
Fixpoint without (cs : list ascii) (s : string) : Prop :=
  match s with EmptyString => True | String c s => ~ In c cs /\ without cs s end.

(** The host and the port that a text designates for net.Listen, as
    net.SplitHostPort of Go reads it: a host with colons is in brackets. *)
Inductive designates : string -> string -> string -> Prop :=
| ds_plain host port : without [":"; "["; "]"]%char host -> without [":"; "["; "]"]%char port ->
    designates (host ++ ":" ++ port) host port
| ds_brackets host port : without ["["; "]"]%char host -> without [":"; "["; "]"]%char port ->
    designates ("[" ++ host ++ "]:" ++ port) host port.
