(** The values of hiera and its maps, said without the functions of the model. *)

From Coq Require Import String List ZArith Permutation.
From Verif Require Import Value.
Import ListNotations.

Inductive plain_value : value -> Prop :=
| pv_nil : plain_value VNil
| pv_bool : forall b, plain_value (VBool b)
| pv_int : forall z, plain_value (VInt z)
| pv_float : forall z, plain_value (VFloat z)
| pv_str : forall s, plain_value (VStr s).

(** Values are equal by content: lists element by element, maps without regard to
    the order of their entries. *)
Inductive equal : value -> value -> Prop :=
| eq_plain : forall v, plain_value v -> equal v v
| eq_sens : forall v v', equal v v' -> equal (VSens v) (VSens v')
| eq_list : forall l l', Forall2 equal l l' -> equal (VArr l) (VArr l')
| eq_map : forall m m' p, Permutation m' p -> Forall2 (fun e e' => equal (fst e) (fst e') /\ equal (snd e) (snd e')) m p ->
    equal (VMap m) (VMap m').

(** A value, when no map in it has the same key twice. *)
Inductive proper : value -> Prop :=
| pr_plain : forall v, plain_value v -> proper v
| pr_sens : forall v, proper v -> proper (VSens v)
| pr_list : forall l, Forall proper l -> proper (VArr l)
| pr_map : forall m, Forall (fun e => proper (fst e) /\ proper (snd e)) m ->
    ForallOrdPairs (fun e e' => ~ equal (fst e) (fst e')) m -> proper (VMap m).

(** What a map has for a key. *)
Definition entry_in (m : entries) (k v : value) : Prop := exists k', In (k', v) m /\ equal k k'.
Definition no_entry (m : entries) (k : value) : Prop := forall e, In e m -> ~ equal k (fst e).

(** A map with another value for one key, in its old place or at the end. *)
Inductive with_entry (k v : value) (m : entries) : entries -> Prop :=
| we_new : no_entry m k -> with_entry k v m (m ++ [(k, v)])
| we_old : forall a k' v' b, m = a ++ (k', v') :: b -> equal k k' -> with_entry k v m (a ++ (k', v) :: b).

(** A map without one key. *)
Inductive without_entry (k : value) (m : entries) : entries -> Prop :=
| wo_none : no_entry m k -> without_entry k m m
| wo_one : forall a k' v' b, m = a ++ (k', v') :: b -> equal k k' -> without_entry k m (a ++ b).

(** The entries of a map whose keys another does not have, in order. *)
Inductive others (m : entries) : entries -> entries -> Prop :=
| ot_none : others m [] []
| ot_old : forall e a r, ~ no_entry m (fst e) -> others m a r -> others m (e :: a) r
| ot_new : forall e a r, no_entry m (fst e) -> others m a r -> others m (e :: a) (e :: r).

(** Two maps as one: the keys of the first in their order, with the values of the
    second where it has one, then what only the second has. *)
Definition merged_maps (m a r : entries) : Prop :=
  exists front back, r = front ++ back /\
    Forall2 (fun e f => fst f = fst e /\ (entry_in a (fst e) (snd f) \/ no_entry a (fst e) /\ snd f = snd e)) m front /\ others m a back.
