(** An explanation as data: what initMap and initialize of the nodes of
    /repo/explain/explainer.go write and read. *)

From Coq Require Import String List ZArith Bool.
From Verif Require Import Str Value Outcome Key Merge Config Explain.
Import ListNotations.
Open Scope string_scope.
Open Scope list_scope.
Open Scope bool_scope.

(** Data with objects of named types (tf.NewNamed, e.g.
    /repo/explain/explainer.go:287-293): the name of the type and the map that its
    extractor gives.  How dgo writes that as JSON or YAML is not modelled. *)
Inductive data : Type :=
| DVal (v : value)
| DArr (l : list data)
| DObj (ty : string) (m : list (string * data)).

(** The extractors of locations, /repo/config/path.go:31-37, /repo/config/uri.go:27-32,
    /repo/config/glob.go:23-25 and /repo/config/mappedpaths.go:36-42.  The one of a glob gives a string and
    not a map; it stands here under a name. *)
Definition location_data (l : location) : data :=
  match l with
  | LPath o r e => DObj "hiera.path" [("original", DVal (VStr o)); ("resolved", DVal (VStr r)); ("exists", DVal (VBool e))]
  | LUri o r => DObj "hiera.uri" [("original", DVal (VStr o)); ("resolved", DVal (VStr r))]
  | LGlob p => DObj "hiera.glob" [("", DVal (VStr p))]
  | LMapped s k t => DObj "hiera.mappedPaths" [("sourceVar", DVal (VStr s)); ("key", DVal (VStr k)); ("template", DVal (VStr t))]
  end.

(** initMap, /repo/explain/explainer.go:112-130: what all nodes write.  An array or
    a string that is empty, and a value that is nil, is left out. *)
Definition common_map (bs : list data) (ts : list string) (e : string) (v : option value) (k : string) : list (string * data) :=
  match bs with [] => [] | _ => [("branches", DArr bs)] end ++
  (if String.eqb e "" then [] else [("event", DVal (VStr e))]) ++
  (if String.eqb k "" then [] else [("key", DVal (VStr k))]) ++
  match v with None => [] | Some v => [("value", DVal v)] end ++
  match ts with [] => [] | _ => [("texts", DArr (map (fun t => DVal (VStr t)) ts))] end.

(** The name of the type, e.g. /repo/explain/explainer.go:288. *)
Definition kind_type (k : nkind) : string :=
  match k with
  | NProvider _ => "hiera.explainDataProvider"
  | NInterpolate _ => "hiera.explainInterpolate"
  | NInvalid => "hiera.explainInvalidKey"
  | NSegment _ => "hiera.explainKeySegment"
  | NLocation _ => "hiera.explainLocation"
  | NLookup => "hiera.explainLookup"
  | NMerge _ => "hiera.explainMerge"
  | NMergeSource _ => "hiera.explainMergeSource"
  | NModule _ => "hiera.explainModule"
  | NSubLookup _ => "hiera.explainSubLookup"
  end.

(** What a node of a kind adds, the methods initMap at
    /repo/explain/explainer.go:306-310, :352-356, :390-392, :440-444, :482-486, :539-541,
    :595-604, :665-669, :709-713 and :760-764. *)
Definition kind_map (k : nkind) : list (string * data) :=
  match k with
  | NProvider n => [("providerName", DVal (VStr n))]
  | NInterpolate e => [("expression", DVal (VStr e))]
  | NInvalid => []
  | NSegment (PInt i) => [("segment", DVal (VInt i))]
  | NSegment (PStr s) => [("segment", DVal (VStr s))]
  | NLocation l => [("location", location_data l)]
  | NLookup => []
  | NMerge s =>
      if String.eqb (strat_name s) "first" then []
      else ("strategy", DVal (VStr (strat_name s))) ::
           match strat_options s with [] => [] | o => [("options", DVal (VMap o))] end
  | NMergeSource s => [("mergeSource", DVal (VStr s))]
  | NModule n => [("moduleName", DVal (VStr n))]
  | NSubLookup k => [("subKey", DVal (VStr (k_source k)))]
  end.

(** A node as data, through its extractor, /repo/explain/explainer.go:72. *)
Fixpoint node_data (n : node) : data :=
  match n with
  | Node k bs ts e v key => DObj (kind_type k) (common_map (map node_data bs) ts e v key ++ kind_map k)
  end.

(** initMap of an explainer, /repo/explain/explainer.go:832-844, when no node is open:
    current is the explainer itself then, and is left out. *)
Definition explainer_data (x : explainer) : data :=
  let f := x_root x in
  DObj "hiera.explainer"
    (common_map (map node_data (fr_bs f)) (fr_ts f) (fr_e f) (fr_v f) (fr_k f) ++
     (if x_options x then [("options", DVal (VBool true))] else []) ++
     (if x_only x then [("onlyOptions", DVal (VBool true))] else [])).

(** What is made from data. *)
Inductive made : Type :=
| MVal (v : value)
| MArr (l : list made)
| MNode (n : node)
| MLoc (l : location)
| MExplainer (x : explainer).

(** m.Get, e.g. /repo/explain/explainer.go:87.  nil when there is no entry. *)
Fixpoint mfield (k : string) (m : list (string * made)) : option made :=
  match m with
  | [] => None
  | (q, x) :: r => if String.eqb k q then Some x else mfield k r
  end.

(** A field that has to be a string, or a boolean: the conversion panics
    otherwise, /repo/config/path.go:26-29. *)
Definition need_str (k : string) (m : list (string * made)) : outcome string :=
  match mfield k m with Some (MVal (VStr s)) => Ok s | _ => Panic bad_assert end.
Definition need_bool (k : string) (m : list (string * made)) : outcome bool :=
  match mfield k m with Some (MVal (VBool b)) => Ok b | _ => Panic bad_assert end.

(** A field that is used when it is a string, e.g. /repo/explain/explainer.go:107-109
    and :301-303; [dflt] is what the field has been before. *)
Definition want_str (k dflt : string) (m : list (string * made)) : string :=
  match mfield k m with Some (MVal (VStr s)) => s | _ => dflt end.
Definition want_bool (k : string) (m : list (string * made)) : bool :=
  match mfield k m with Some (MVal (VBool b)) => b | _ => false end.

(** The branches, /repo/explain/explainer.go:90-92: each has to be a node. *)
Fixpoint nodes_of (l : list made) : outcome (list node) :=
  match l with
  | [] => Ok []
  | MNode n :: r => omap (cons n) (nodes_of r)
  | _ :: _ => Panic bad_assert
  end.

Section Read.
  (** The method String of a dgo.Value, called at /repo/explain/explainer.go:99 and
      :436. *)
  Variable show : value -> string.

  (** The texts, /repo/explain/explainer.go:96-102.  String of a node or of an array
      of nodes is not modelled; it is the empty text here. *)
  Definition text_of (x : made) : string := match x with MVal v => show v | _ => "" end.

  (** initialize, /repo/explain/explainer.go:86-110.  A value that is a node or a
      location is left out in the model. *)
  Definition read_common (m : list (string * made)) : outcome frame :=
    let ts := match mfield "texts" m with
              | Some (MArr l) => map text_of l
              | Some (MVal (VArr l)) => map show l
              | _ => []
              end in
    let e := want_str "event" "" m in
    let v := match mfield "value" m with Some (MVal v) => Some v | _ => None end in
    let k := want_str "key" "" m in
    match mfield "branches" m with
    | Some (MArr l) => omap (fun bs => mk_frame bs ts e v k) (nodes_of l)
    | Some (MVal (VArr (_ :: _))) => Panic bad_assert
    | _ => Ok (mk_frame [] ts e v k)
    end.

  (** The creators of the named types, e.g. /repo/explain/explainer.go:289, with the
      methods initialize at :299-304, :345-350, :386-388, :430-438, :475-480, :535-537,
      :582-593, :658-663, :702-707, :753-758 and :815-830, and the ones of locations at
      /repo/config/path.go:24-30, /repo/config/uri.go:21-26, /repo/config/glob.go:20-22 and /repo/config/mappedpaths.go:29-35. *)
  Definition create (ty : string) (m : list (string * made)) : outcome made :=
    let node_of k := omap (fun f => MNode (close k f)) (read_common m) in
    if String.eqb ty "hiera.path" then
      obind (need_str "original" m) (fun o => obind (need_str "resolved" m) (fun r => obind (need_bool "exists" m) (fun e => Ok (MLoc (LPath o r e)))))
    else if String.eqb ty "hiera.uri" then
      obind (need_str "original" m) (fun o => obind (need_str "resolved" m) (fun r => Ok (MLoc (LUri o r))))
    else if String.eqb ty "hiera.glob" then
      obind (need_str "" m) (fun p => Ok (MLoc (LGlob p)))
    else if String.eqb ty "hiera.mappedPaths" then
      obind (need_str "sourceVar" m) (fun s => obind (need_str "key" m) (fun k => obind (need_str "template" m) (fun t => Ok (MLoc (LMapped s k t)))))
    else if String.eqb ty "hiera.explainDataProvider" then node_of (NProvider (want_str "providerName" "" m))
    else if String.eqb ty "hiera.explainInterpolate" then node_of (NInterpolate (want_str "expression" "" m))
    else if String.eqb ty "hiera.explainInvalidKey" then node_of NInvalid
    else if String.eqb ty "hiera.explainKeySegment" then
      match mfield "segment" m with
      | Some (MVal (VInt i)) => node_of (NSegment (PInt i))
      | Some x => node_of (NSegment (PStr (text_of x)))
      | None => obind (read_common m) (fun _ => Panic nil_deref)
      end
    else if String.eqb ty "hiera.explainLocation" then
      match mfield "location" m with
      | Some (MLoc l) => node_of (NLocation l)
      | _ => obind (read_common m) (fun _ => Panic nil_deref)   (* in Go the location stays nil, and using it panics later *)
      end
    else if String.eqb ty "hiera.explainLookup" then node_of NLookup
    else if String.eqb ty "hiera.explainMerge" then
      obind (read_common m) (fun f =>
        obind (get_strategy (want_str "strategy" "first" m)
                 (match mfield "options" m with Some (MVal (VMap o)) => Some o | _ => None end))
              (fun s => Ok (MNode (close (NMerge s) f))))
    else if String.eqb ty "hiera.explainMergeSource" then node_of (NMergeSource (want_str "mergeSource" "" m))
    else if String.eqb ty "hiera.explainModule" then node_of (NModule (want_str "moduleName" "" m))
    else if String.eqb ty "hiera.explainSubLookup" then
      match mfield "subKey" m with
      | Some (MVal (VStr s)) => obind (read_common m) (fun f => omap (fun k => MNode (close (NSubLookup k) f)) (new_key s))
      | _ => obind (read_common m) (fun _ => Panic nil_deref)   (* in Go the key stays nil, and using it panics later *)
      end
    else if String.eqb ty "hiera.explainer" then
      omap (fun f => MExplainer (mk_explainer (want_bool "options" m) (want_bool "onlyOptions" m) f [] false)) (read_common m)
    else Panic (EErr ("no such type " ++ ty)).

  (** Reading data: the parts of an object are made before the object, see
      /repo/explain/explainer.go:73-76, where the creator gets a map. *)
  Fixpoint make (d : data) : outcome made :=
    match d with
    | DVal v => Ok (MVal v)
    | DArr l =>
        omap MArr ((fix go (l : list data) : outcome (list made) :=
           match l with
           | [] => Ok []
           | x :: r => obind (make x) (fun y => omap (cons y) (go r))
           end) l)
    | DObj ty m =>
        obind ((fix go (m : list (string * data)) : outcome (list (string * made)) :=
           match m with
           | [] => Ok []
           | (k, x) :: r => obind (make x) (fun y => omap (cons (k, y)) (go r))
           end) m) (create ty)
    end.
End Read.
