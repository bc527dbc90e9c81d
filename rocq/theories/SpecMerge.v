(** Specification of merging, independent of the algorithms in Merge.v. *)

From Coq Require Import String List ZArith Bool.
From Verif Require Import Value Outcome.
Import ListNotations.
Open Scope list_scope.

(** ** Consultation of variants *)

(** [consults f vs s outs s']: calling [f] once on each element of [vs], in
    order, starting in state [s], gives the results [outs] and state [s']. *)
Inductive consults {S L : Type} (f : L -> M S (option value)) : list L -> S -> list (option value) -> S -> Prop :=
| con_nil : forall s, consults f [] s [] s
| con_cons : forall x r s v s' outs s'',
    f x s = (Ok v, s') -> consults f r s' outs s'' -> consults f (x :: r) s (v :: outs) s''.

(** The values found, in order. *)
Fixpoint found (outs : list (option value)) : list value :=
  match outs with
  | [] => []
  | Some v :: r => v :: found r
  | None :: r => found r
  end.

(** ** Equality up to the order of map entries *)

Definition same (a b : value) : Prop := veq a b = true.

(** [x] is one of the elements of [l], up to equality. *)
Definition elem (x : value) (l : list value) : Prop := exists y, In y l /\ same y x.

(** No two elements are equal. *)
Inductive no_dups : list value -> Prop :=
| nd_nil : no_dups []
| nd_cons : forall x l, ~ elem x l -> no_dups l -> no_dups (x :: l).

(** [first_occurrences l r]: [r] lists the elements of [l] that are not equal
    to an earlier one, in order. *)
Inductive first_occurrences : list value -> list value -> Prop :=
| fo_nil : first_occurrences [] []
| fo_old : forall l r x, first_occurrences l r -> elem x l -> first_occurrences (l ++ [x]) r
| fo_new : forall l r x, first_occurrences l r -> ~ elem x l -> first_occurrences (l ++ [x]) (r ++ [x]).

(** ** Flattening *)

Definition not_array (v : value) : Prop := forall l, v <> VArr l.

(** [flat v l]: [l] are the non-array elements of [v] in order, at any depth. *)
Inductive flat : value -> list value -> Prop :=
| flat_leaf : forall v, not_array v -> flat v [v]
| flat_arr : forall l r, flat_list l r -> flat (VArr l) r
with flat_list : list value -> list value -> Prop :=
| fl_nil : flat_list [] []
| fl_cons : forall v l r1 r2, flat v r1 -> flat_list l r2 -> flat_list (v :: l) (r1 ++ r2).

(** ** Maps *)

(** The value under [k] in the first of the maps that has the key. *)
Fixpoint first_with (k : value) (ms : list entries) : option value :=
  match ms with
  | [] => None
  | m :: r => match mget k m with Some v => Some v | None => first_with k r end
  end.

(** The maps among some values. *)
Fixpoint maps_of (vs : list value) : list entries :=
  match vs with
  | [] => []
  | VMap m :: r => m :: maps_of r
  | _ :: r => maps_of r
  end.

(** ** Deep merge *)

(** [merged arr a b r]: [r] is the deep merge of [a] (higher priority) and [b],
    where [arr] says what the merge of two arrays is. *)
Inductive merged (arr : list value -> list value -> list value -> Prop) : value -> value -> value -> Prop :=
| mg_maps : forall ma mb mr,
    (forall k va vb, wf k = true -> mget k ma = Some va -> mget k mb = Some vb ->
       exists vr, mget k mr = Some vr /\ merged arr va vb vr) ->
    (forall k va, wf k = true -> mget k ma = Some va -> mget k mb = None -> mget k mr = Some va) ->
    (forall k, wf k = true -> mget k ma = None -> mget k mr = mget k mb) ->
    (exists new, map fst mr = map fst ma ++ new) ->
    merged arr (VMap ma) (VMap mb) (VMap mr)
| mg_arrays : forall la lb lr, arr la lb lr -> merged arr (VArr la) (VArr lb) (VArr lr)
| mg_other : forall a b,
    ~ (is_map a = true /\ is_map b = true) -> ~ (is_arr a = true /\ is_arr b = true) -> merged arr a b a.

(** The documented rule for arrays: the union without duplicates. *)
Definition array_union (la lb lr : list value) : Prop := first_occurrences (la ++ lb) lr.

(** The rule as it is: an empty array gives the other one, duplicates
    included. *)
Definition array_union_nonempty (la lb lr : list value) : Prop :=
  match la, lb with
  | _, [] => lr = la
  | [], _ => lr = lb
  | _, _ => array_union la lb lr
  end.

(** The value at a path of map keys. *)
Fixpoint at_keys (ks : list value) (v : value) : option value :=
  match ks with
  | [] => Some v
  | k :: r => match v with
              | VMap m => match mget k m with Some w => at_keys r w | None => None end
              | _ => None
              end
  end.

Definition scalar (v : value) : Prop := is_map v = false /\ is_arr v = false.

(** Arrays inside a value without duplicates. *)
Inductive tidy : value -> Prop :=
| tidy_arr : forall l, no_dups l -> tidy (VArr l)
| tidy_map : forall m, Forall (fun e => tidy (snd e)) m -> tidy (VMap m)
| tidy_other : forall v, scalar v -> tidy v.

(** [agree a b]: wherever both have a value at the same path of map keys, the
    values are of the same kind (map, array or scalar). *)
Inductive agree : value -> value -> Prop :=
| ag_maps : forall ma mb,
    (forall k va vb, wf k = true -> mget k ma = Some va -> mget k mb = Some vb -> agree va vb) ->
    agree (VMap ma) (VMap mb)
| ag_arrays : forall la lb, agree (VArr la) (VArr lb)
| ag_scalars : forall a b, scalar a -> scalar b -> agree a b.
