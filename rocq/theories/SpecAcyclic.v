(** Data and variables that refer to each other without going in circles. *)

From Coq Require Import String Ascii List ZArith Bool Arith.
From Verif Require Import Str Value Outcome Key State Engine SpecKey SpecIpl SpecInterp SpecLookup.
Import ListNotations.
Open Scope string_scope.
Open Scope list_scope.

(** What an expression may refer to: a variable of the scope, or a key. *)
Inductive reference : Type :=
| RVar (x : string)
| RKey (r : string).

Section Sound.
  (** A character that does not occur outside expressions. *)
  Variable c : ascii.
  (** What may be referred to. *)
  Variable below : reference -> Prop.

  (** A correctly written key that refers to an allowed key of the data. *)
  Definition sound_key (arg : string) : Prop :=
    exists r ps, written_key arg (PStr r :: ps) /\ r <> "lookup_options" /\ plain_key r /\ below (RKey r).

  (** A correctly written expression inside a text. *)
  Inductive sound_expression (e : string) : Prop :=
  | so_empty : In (trim_space e) [""; "::"; """"""; "''"; """::"""; "'::'"] -> sound_expression e
  | so_literal : forall arg, calls (trim_space e) "literal" arg -> ~ occurs c arg -> sound_expression e
  | so_scope : forall arg x ps,
      ~ In (trim_space e) [""; "::"; """"""; "''"; """::"""; "'::'"] ->
      asks_scope true (trim_space e) arg -> written_key arg (PStr x :: ps) -> below (RVar x) -> sound_expression e
  | so_lookup : forall name arg, In name ["lookup"; "hiera"] -> calls (trim_space e) name arg -> sound_key arg ->
      sound_expression e.

  (** A text with such expressions, or a single alias. *)
  Inductive sound_text : string -> Prop :=
  | so_text : forall cut last, well_cut cut last ->
      Forall (fun p => ~ occurs c (fst p) /\ sound_expression (snd p)) cut -> ~ occurs c last ->
      sound_text (assembled cut last)
  | so_alias : forall e name arg, ~ has "}" e -> In name ["alias"; "strict_alias"] ->
      calls (trim_space e) name arg -> sound_key arg -> sound_text ("%{" ++ e ++ "}").

  Definition sound_value (v : value) : Prop := wf v = true /\ forall t, inside t v -> sound_text t.
End Sound.

(** Every reference in a variable or in the data is to something of lower
    rank. *)
Record ranked (c : ascii) (rank : reference -> nat) (sc : scope) (files : list (option entries)) : Prop := mk_ranked {
  rk_char : c = "%"%char \/ c = "{"%char;
  rk_scope : forall x v, scope_get sc x = Some v -> sound_value c (fun f => rank f < rank (RVar x)) v;
  rk_data : forall m r v, In (Some m) files -> mgets r m = Some v -> sound_value c (fun f => rank f < rank (RKey r)) v
}.
