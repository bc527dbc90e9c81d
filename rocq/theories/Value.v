(** Model of the values of the dgo library (github.com/lyraproj/dgo v0.4.4) as
    far as hiera uses them.  The library itself is not part of /repo, its
    behaviour is assumed as stated here and listed in the trusted base. *)

From Coq Require Import String List ZArith Bool Arith.
From Verif Require Import Str.
Import ListNotations.
Open Scope bool_scope.

(** dgo.Value.  A Go [nil] interface is not a value: wherever the code can
    have one the model uses [option value].  [VNil] is [vf.Nil], the null found
    in YAML.  [VFloat] carries the IEEE bits (simplification: NaN equals
    itself and 0 differs from -0).  Other dgo types (time, regexp, binary,
    native, types) are left out: hiera treats them all as opaque scalars. *)
Inductive value : Type :=
| VNil
| VBool (b : bool)
| VInt (z : Z)
| VFloat (bits : Z)
| VStr (s : string)
| VArr (l : list value)
| VMap (m : list (value * value))
| VSens (v : value).

(** Entries of a dgo.Map in insertion order. *)
Definition entries := list (value * value).

(** dgo Value.Equals.  Arrays are compared element by element, maps without
    regard to order: same size, and every entry of the first has an equal
    entry in the second.  Values of different kinds are never equal. *)
Fixpoint veq (a b : value) {struct a} : bool :=
  match a, b with
  | VNil, VNil => true
  | VBool x, VBool y => Bool.eqb x y
  | VInt x, VInt y => Z.eqb x y
  | VFloat x, VFloat y => Z.eqb x y
  | VStr x, VStr y => String.eqb x y
  | VSens x, VSens y => veq x y
  | VArr l, VArr l' =>
      (fix all2 (l l' : list value) {struct l} : bool :=
         match l, l' with
         | [], [] => true
         | x :: r, y :: r' => veq x y && all2 r r'
         | _, _ => false
         end) l l'
  | VMap m, VMap m' =>
      Nat.eqb (List.length m) (List.length m') &&
      (fix sub (m : entries) {struct m} : bool :=
         match m with
         | [] => true
         | (k, v) :: r =>
             (fix fnd (m' : entries) : bool :=
                match m' with
                | [] => false
                | (k', v') :: r' => if veq k k' then veq v v' else fnd r'
                end) m' && sub r
         end) m
  | _, _ => false
  end.

(** dgo Map.Get(k): [None] is Go nil (key absent); a null value is
    [Some VNil]. *)
Fixpoint mget (k : value) (m : entries) : option value :=
  match m with
  | [] => None
  | (k', v') :: r => if veq k k' then Some v' else mget k r
  end.

(** dgo Map.Get with a Go string argument. *)
Definition mgets (s : string) (m : entries) : option value := mget (VStr s) m.

(** dgo Map.ContainsKey(k). *)
Definition mhas (k : value) (m : entries) : bool :=
  match mget k m with Some _ => true | None => false end.

(** dgo Map.Put(k, v): an existing key keeps its position and gets the new
    value, a new key is added last. *)
Fixpoint mput (k v : value) (m : entries) : entries :=
  match m with
  | [] => [(k, v)]
  | (k', v') :: r => if veq k k' then (k', v) :: r else (k', v') :: mput k v r
  end.

(** dgo Map.PutAll(a): puts the entries of [a] one by one. *)
Definition mputall (m a : entries) : entries :=
  fold_left (fun acc e => mput (fst e) (snd e) acc) a m.

(** dgo m.Merge(a): a copy of [m] with all entries of [a] put into it, so the
    values of [a] win and the keys of [m] come first. *)
Definition mmerge (m a : entries) : entries := mputall m a.

(** dgo Map.Without(k). *)
Fixpoint mwithout (k : value) (m : entries) : entries :=
  match m with
  | [] => []
  | (k', v') :: r => if veq k k' then r else (k', v') :: mwithout k r
  end.

(** Membership by Equals. *)
Definition vmem (v : value) (l : list value) : bool := existsb (fun x => veq x v) l.

(** dgo Array.Unique(): keeps the first of equal elements, in order. *)
Fixpoint unique_acc (seen : list value) (l : list value) : list value :=
  match l with
  | [] => []
  | x :: r => if vmem x seen then unique_acc seen r
              else x :: unique_acc (seen ++ [x]) r
  end.
Definition vunique (l : list value) : list value := unique_acc [] l.

(** dgo Array.Flatten(): replaces nested arrays, at any depth, by their
    elements.  [vflat v] is the contribution of one element. *)
Fixpoint vflat (v : value) : list value :=
  match v with
  | VArr l => flat_map vflat l
  | _ => [v]
  end.
Definition vflatten (l : list value) : list value := flat_map vflat l.

(** A Go nil stored into a dgo array or map becomes vf.Nil
    (dgo ReplaceNil / vf.Value(nil)); reached from
    /repo/session/interpolate.go:43 and :57. *)
Definition nil_to_null (o : option value) : value :=
  match o with Some v => v | None => VNil end.

(** Kind tests (Go type switches), e.g. /repo/session/interpolate.go:26-62. *)
Definition is_map (v : value) : bool := match v with VMap _ => true | _ => false end.
Definition is_arr (v : value) : bool := match v with VArr _ => true | _ => false end.
Definition is_str (v : value) : bool := match v with VStr _ => true | _ => false end.

(** Well-formed values: a dgo map never has two equal keys.  This is an
    invariant of the library type, used as a hypothesis by the theorems. *)
Fixpoint nodup_keys (m : entries) : bool :=
  match m with
  | [] => true
  | (k, _) :: r =>
      forallb (fun e => negb (veq k (fst e)) && negb (veq (fst e) k)) r && nodup_keys r
  end.
Fixpoint wf (v : value) : bool :=
  match v with
  | VArr l => forallb wf l
  | VMap m => nodup_keys m && forallb (fun e => wf (fst e) && wf (snd e)) m
  | VSens x => wf x
  | _ => true
  end.
