(** Model of /repo/explain/explainer.go: the tree built by the explainer. *)

From Coq Require Import String List ZArith Bool.
From Verif Require Import Str Value Outcome Key Merge Ipl Config.
Import ListNotations.
Open Scope string_scope.
Open Scope bool_scope.

(** The kinds of explainNode with their own fields, the structs at
    /repo/explain/explainer.go:282-285 (data provider), :328-331
    (interpolation), :374-376 (invalid key), :413-416 (key segment), :458-461
    (location), :523-525 (lookup), :565-568 (merge), :641-644 (merge source),
    :685-688 (module) and :736-739 (sub lookup). *)
Inductive nkind : Type :=
| NProvider (name : string)
| NInterpolate (expr : string)
| NInvalid
| NSegment (p : part)
| NLocation (l : location)
| NLookup
| NMerge (s : strategy)
| NMergeSource (source : string)
| NModule (name : string)
| NSubLookup (k : key).

(** explainTreeNode without the parent, /repo/explain/explainer.go:61-68. *)
Inductive node : Type :=
| Node (kind : nkind) (branches : list node) (texts : list string)
       (event : string) (val : option value) (nkey : string).

(** The fields of a node that is still open. *)
Record frame : Type := mk_frame {
  fr_bs : list node;
  fr_ts : list string;
  fr_e : string;
  fr_v : option value;
  fr_k : string
}.

(** A new node, e.g. /repo/explain/explainer.go:895 and :911. *)
Definition new_frame (k : string) : frame := mk_frame [] [] "" None k.

(** The explainer, /repo/explain/explainer.go:789-794.  The nodes from the
    current node up to, but without, the explainer itself are in [x_open],
    innermost first; a node is added to the branches of its parent when it is
    popped instead of when it is pushed, which gives the same tree since only
    the current node gets new branches.  [x_nil] tells that current is nil. *)
Record explainer : Type := mk_explainer {
  x_options : bool;
  x_only : bool;
  x_root : frame;
  x_open : list (nkind * frame);
  x_nil : bool
}.

(** NewExplainer, /repo/explain/explainer.go:809-813. *)
Definition new_explainer (options only : bool) : explainer :=
  mk_explainer options only (new_frame "") [] false.

(** Add a branch, /repo/explain/explainer.go:151-153. *)
Definition add_branch (n : node) (f : frame) : frame :=
  mk_frame (fr_bs f ++ [n])%list (fr_ts f) (fr_e f) (fr_v f) (fr_k f).

(** The node of a frame. *)
Definition close (k : nkind) (f : frame) : node :=
  Node k (fr_bs f) (fr_ts f) (fr_e f) (fr_v f) (fr_k f).

(** push, /repo/explain/explainer.go:888-892.  Calling a method of a nil
    current panics; [None]. *)
Definition xpush (k : nkind) (init : string) (x : explainer) : option explainer :=
  if x_nil x then None
  else Some (mk_explainer (x_options x) (x_only x) (x_root x) ((k, new_frame init) :: x_open x) false).

(** Pop, /repo/explain/explainer.go:930-934. *)
Definition xpop (x : explainer) : explainer :=
  match x_open x with
  | [] => mk_explainer (x_options x) (x_only x) (x_root x) [] true
  | [(k, f)] => mk_explainer (x_options x) (x_only x) (add_branch (close k f) (x_root x)) [] (x_nil x)
  | (k, f) :: (k', f') :: r =>
      mk_explainer (x_options x) (x_only x) (x_root x) ((k', add_branch (close k f) f') :: r) (x_nil x)
  end.

(** What is reported to the explainer, /repo/explain/explainer.go:850-886. *)
Inductive report : Type :=
| RFound (k : string) (v : option value)
| RLocationNotFound
| RMergeSource (source : string)
| RModuleNotFound
| RNotFound (k : string)
| RMergeResult (v : value)
| RText (t : string).

(** The effect of a report on the current node,
    /repo/explain/explainer.go:155-157, :206-210, :228-244 and :866-870. *)
Definition report_frame (r : report) (f : frame) : frame :=
  match r with
  | RFound k v => mk_frame (fr_bs f) (fr_ts f) "found" v k
  | RLocationNotFound => mk_frame (fr_bs f) (fr_ts f) "location_not_found" (fr_v f) (fr_k f)
  | RMergeSource s => add_branch (Node (NMergeSource s) [] [] "" None "") f
  | RModuleNotFound => mk_frame (fr_bs f) (fr_ts f) "module_not_found" (fr_v f) (fr_k f)
  | RNotFound k => mk_frame (fr_bs f) (fr_ts f) "not_found" (fr_v f) k
  | RMergeResult v => mk_frame (fr_bs f) (fr_ts f) "result" (Some v) (fr_k f)
  | RText t => mk_frame (fr_bs f) (fr_ts f ++ [t])%list (fr_e f) (fr_v f) (fr_k f)
  end.

(** The Accept methods, /repo/explain/explainer.go:850-886; [None] when current
    is nil. *)
Definition xaccept (r : report) (x : explainer) : option explainer :=
  if x_nil x then None
  else Some
    match x_open x with
    | [] => mk_explainer (x_options x) (x_only x) (report_frame r (x_root x)) [] false
    | (k, f) :: o => mk_explainer (x_options x) (x_only x) (x_root x) ((k, report_frame r f) :: o) false
    end.

(** keyToString of a key part, /repo/explain/explainer.go:132-145. *)
Definition part_string (p : part) : string :=
  match p with PInt i => show_int i | PStr s => s end.
