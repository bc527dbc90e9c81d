(** The cache that provider functions share: /repo/session/serverctx.go:22-51. *)

From Coq Require Import String List Bool.
From Verif Require Import Str Value Outcome Key Config State Engine.
Import ListNotations.
Open Scope string_scope.
Open Scope list_scope.

(** A sync.Map with string keys, as used by /repo/session/serverctx.go:22-51.
    Each of its methods is one atomic step. *)
Definition smap (A : Type) : Type := list (string * A).

(** Load, as called in /repo/session/serverctx.go:40. *)
Definition load {A} (k : string) (m : smap A) : option A := aget k m.
(** Store, as called in /repo/session/serverctx.go:26 and :35. *)
Definition store {A} (k : string) (v : A) (m : smap A) : smap A := aput k v m.
(** LoadOrStore, as called in /repo/session/serverctx.go:24: the value that is
    there and true, or the new one and false. *)
Definition load_or_store {A} (k : string) (v : A) (m : smap A) : A * bool * smap A :=
  match load k m with
  | Some old => (old, true, m)
  | None => (v, false, store k v m)
  end.
(** Range, as called in /repo/session/serverctx.go:47: every key once, with its
    value.  The order is not specified in Go; here the latest key comes first. *)
Fixpoint srange {A} (seen : list string) (m : smap A) : list (string * A) :=
  match m with
  | [] => []
  | (k, v) :: r => if existsb (String.eqb k) seen then srange seen r else (k, v) :: srange (k :: seen) r
  end.

(** [v.(dgo.Value)], /repo/session/serverctx.go:27, :41 and :48.  The values are
    interfaces: [None] is nil, for which the assertion panics. *)
Definition assert_value (v : option value) : outcome value :=
  match v with Some x => Ok x | None => Panic bad_assert end.

(** Cache, /repo/session/serverctx.go:22-30. *)
Definition cache (key : string) (v : option value) (m : smap (option value)) :
  outcome (option value) * smap (option value) :=
  let '(old, loaded, m1) := load_or_store key v m in
  if loaded then (omap Some (assert_value old), store key v m1) else (Ok None, m1).

(** CacheAll, /repo/session/serverctx.go:32-37. *)
Definition cache_all (w : world) (h : entries) (m : smap (option value)) : smap (option value) :=
  fold_left (fun m e => store (vstring w (fst e)) (Some (snd e)) m) h m.

(** CachedValue, /repo/session/serverctx.go:39-44. *)
Definition cached_value (key : string) (m : smap (option value)) : outcome (option value) :=
  match load key m with
  | Some v => omap Some (assert_value v)
  | None => Ok None
  end.

(** CachedEntries, /repo/session/serverctx.go:46-51: what the consumer is called
    with, in this order. *)
Fixpoint assert_entries (l : list (string * option value)) : outcome (list (string * value)) :=
  match l with
  | [] => Ok []
  | (k, v) :: r => obind (assert_value v) (fun x => omap (cons (k, x)) (assert_entries r))
  end.
Definition cached_entries (m : smap (option value)) : outcome (list (string * value)) :=
  assert_entries (srange [] m).

(** The calls that change the cache, /repo/session/serverctx.go:22-37. *)
Inductive cache_call : Type :=
| CallCache (key : string) (v : option value)
| CallCacheAll (h : entries).

(** Such a call.  One that panics has made its change. *)
Definition do_call (w : world) (m : smap (option value)) (c : cache_call) : smap (option value) :=
  match c with
  | CallCache key v => snd (cache key v m)
  | CallCacheAll h => cache_all w h m
  end.

(** *** Calls by several goroutines *)

(** Where a goroutine is in Cache, /repo/session/serverctx.go:22-30: about to
    call LoadOrStore, about to call Store after having got an old value, or
    back with a result.  The values are not nil here. *)
Inductive caller : Type :=
| Before (key : string) (v : value)
| Between (key : string) (v old : value)
| After (key : string) (v : value) (result : option value).

(** Its next atomic step, /repo/session/serverctx.go:24 and :26. *)
Definition caller_step (c : caller) (m : smap value) : option (caller * smap value) :=
  match c with
  | Before key v =>
      let '(old, loaded, m1) := load_or_store key v m in
      Some (if loaded then Between key v old else After key v None, m1)
  | Between key v old => Some (After key v (Some old), store key v m)
  | After _ _ _ => None
  end.
