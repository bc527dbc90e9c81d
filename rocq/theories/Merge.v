(** Model of /repo/merge: deepmerge.go and strategy.go. *)

From Coq Require Import String List ZArith Bool Arith.
From Verif Require Import Str Value Outcome.
Import ListNotations.
Open Scope string_scope.
Open Scope bool_scope.

(** deep, /repo/merge/deepmerge.go:25-61.  The first inner loop is
    a.EachEntry (:30-38), the fold is hb.EachEntry (:39-43).  The options are
    passed along but never read, so they are left out. *)
Fixpoint deep (a b : value) {struct a} : value * bool :=
  match a, b with
  | VMap m, VMap hb =>
      let es :=
        (fix each (m : entries) (es : entries) {struct m} : entries :=
           match m with
           | [] => es
           | (k, v) :: r =>
               each r
                 (match mget k hb with
                  | Some bv =>
                      match deep v bv with
                      | (x, true) => mput k x es
                      | (_, false) => mput k v es
                      end
                  | None => mput k v es
                  end)
           end) m [] in
      let es2 := fold_left (fun es e => if mhas (fst e) m then es else mput (fst e) (snd e) es) hb es in
      if veq (VMap m) (VMap es2) then (VMap m, false) else (VMap es2, true)
  | VArr l, VArr lb =>
      match lb, l with
      | [], _ => (VArr l, false)
      | _, [] => (VArr lb, true)
      | _, _ =>
          let an := vunique (l ++ lb)%list in
          if veq (VArr an) (VArr l) then (VArr l, false) else (VArr an, true)
      end
  | _, _ => (a, false)
  end.

(** Deep, /repo/merge/deepmerge.go:17-23.  The options argument is replaced by
    an empty map (api.ToMap of the nil variable, not of the argument), hence
    ignored. *)
Definition Deep (a b : value) (opts : entries) : value * bool := deep a b.

(** The four strategies, /repo/merge/strategy.go:12-20. *)
Inductive strategy : Type :=
| SFirst
| SUnique
| SHash
| SDeep (opts : entries).

(** GetStrategy, /repo/merge/strategy.go:24-40.  [None] is a nil options map. *)
Definition get_strategy (n : string) (opts : option entries) : outcome strategy :=
  if String.eqb n "first" then Ok SFirst
  else if String.eqb n "unique" then Ok SUnique
  else if String.eqb n "hash" then Ok SHash
  else if String.eqb n "deep" then Ok (SDeep (match opts with Some o => o | None => [] end))
  else Panic (EErr ("unknown merge strategy '" ++ n ++ "'")).

(** Name, Label and Options, /repo/merge/strategy.go:91-97, :125-127, :141-155,
    :176-190, :205-219. *)
Definition strat_name (s : strategy) : string :=
  match s with SFirst => "first" | SUnique => "unique" | SHash => "hash" | SDeep _ => "deep" end.
Definition strat_label (s : strategy) : string :=
  match s with
  | SFirst => "first found strategy"
  | SUnique => "unique merge strategy"
  | SHash => "hash merge strategy"
  | SDeep _ => "deep merge strategy"
  end.
Definition strat_options (s : strategy) : entries :=
  match s with SDeep o => o | _ => [] end.

(** convertValue, /repo/merge/strategy.go:133-135, :165-170, :196-198,
    :225-227. *)
Definition convert_value (s : strategy) (v : value) : value :=
  match s with
  | SUnique => match v with VArr l => VArr (vflatten l) | _ => VArr [v] end
  | _ => v
  end.

(** The elements of the array that the unique strategy converts a value to;
    the type assertions at /repo/merge/strategy.go:173 always succeed. *)
Definition as_flat (v : value) : list value :=
  match v with VArr l => vflatten l | _ => [v] end.

(** merge, /repo/merge/strategy.go:137-139, :172-174, :200-203, :229-237. *)
Definition merge2 (s : strategy) (a b : value) : value :=
  match s with
  | SFirst => a
  | SUnique => VArr (vunique (as_flat a ++ as_flat b)%list)
  | SHash => match a, b with VMap ah, VMap bh => VMap (mmerge bh ah) | _, _ => a end
  | SDeep o => fst (Deep a b o)
  end.

(** What mergeSingle does with the value of the only variant,
    /repo/merge/strategy.go:129-131, :157-163, :192-194, :221-223. *)
Definition merge_single (s : strategy) (v : option value) : option value :=
  match s, v with
  | SUnique, Some (VArr l) => Some (VArr (vunique (vflatten l)))
  | _, _ => v
  end.

Section Lookup.
  Context {S L : Type}.
  Open Scope monad_scope.
  (** Invocation.WithMerge and Invocation.ReportMergeResult, given by the
      caller (the engine or a test). *)
  Variable with_merge : strategy -> M S (option value) -> M S (option value).
  Variable report_result : value -> M S unit.
  (** The value function.  variantLookup (/repo/merge/strategy.go:84-89) only
      adds a reflection check that holds for every element of a slice. *)
  Variable f : L -> M S (option value).

  (** The loop of firstFound.MergeLookup, /repo/merge/strategy.go:111-117. *)
  Fixpoint first_loop (vs : list L) : M S (option value) :=
    match vs with
    | [] => ret None
    | x :: r => v <- f x ;; match v with Some _ => ret v | None => first_loop r end
    end.

  (** The loop of doLookup, /repo/merge/strategy.go:65-75. *)
  Fixpoint merge_loop (s : strategy) (memo : option value) (vs : list L) : M S (option value) :=
    match vs with
    | [] => ret memo
    | x :: r =>
        v <- f x ;;
        merge_loop s
          (match v, memo with
           | None, _ => memo
           | Some v, None => Some (convert_value s v)
           | Some v, Some m => Some (merge2 s m v)
           end) r
    end.

  (** Report a result when there is one, /repo/merge/strategy.go:76-79 and
      :118-121. *)
  Definition report_some (v : option value) : M S (option value) :=
    match v with
    | Some x => report_result x ;;; ret v
    | None => ret None
    end.

  (** MergeLookup of the strategies: firstFound.MergeLookup
      (/repo/merge/strategy.go:99-123) and doLookup (:52-82).  The arguments
      [vs] are always slices, so the reflection test at :54 and :101 is left
      out. *)
  Definition merge_lookup (s : strategy) (vs : list L) : M S (option value) :=
    match s with
    | SFirst =>
        match vs with
        | [] => ret None
        | [x] => f x
        | _ => v <- first_loop vs ;; report_some v
        end
    | _ =>
        match vs with
        | [] => ret None
        | [x] => v <- f x ;; ret (merge_single s v)
        | _ => with_merge s (v <- merge_loop s None vs ;; report_some v)
        end
    end.
End Lookup.
