(** Model of the program that converts YAML to JSON: /repo/yaml2json/main.go. *)

From Coq Require Import String List Bool.
From Verif Require Import Str Outcome.
Import ListNotations.
Open Scope string_scope.

Section Convert.
  (** Scalars of YAML: strings, numbers, booleans, null, dates. *)
  Variable scalar : Type.

  (** A YAML document as yaml.Unmarshal sees it, /repo/yaml2json/main.go:33.  A
      key of a map is a string or something else.  Simplification: aliases and
      merge keys are written out, and the keys of a map differ from each other
      (else yaml.Unmarshal gives an error). *)
  Inductive yaml_key : Type := KStr (s : string) | KOther (k : scalar).
  Inductive document : Type :=
  | DScalar (x : scalar)
  | DSeq (l : list document)
  | DMap (m : list (yaml_key * document)).

  (** The values that an interface{} holds after that, by their Go types:
      []interface{}, map[string]interface{}, map[interface{}]interface{}. *)
  Inductive go_value : Type :=
  | GScalar (x : scalar)
  | GSlice (l : list go_value)
  | GStrings (m : list (string * go_value))
  | GAny (m : list (yaml_key * go_value)).

  (** The keys when all are strings. *)
  Fixpoint string_keyed {A} (m : list (yaml_key * A)) : option (list (string * A)) :=
    match m with
    | [] => Some []
    | (KStr s, v) :: r => option_map (cons (s, v)) (string_keyed r)
    | (KOther _, _) :: _ => None
    end.

  (** Unmarshal of yaml.v3 into an interface{}, /repo/yaml2json/main.go:32-33:
      a map with only strings as keys is a map[string]interface{}. *)
  Fixpoint unmarshal (d : document) : go_value :=
    match d with
    | DScalar x => GScalar x
    | DSeq l => GSlice (map unmarshal l)
    | DMap m =>
        let m' := map (fun e => (fst e, unmarshal (snd e))) m in
        match string_keyed m' with Some s => GStrings s | None => GAny m' end
    end.

  (** stringKeys, /repo/yaml2json/main.go:13-27.  Go visits the entries of a map
      in any order; here the order is the one of the list. *)
  Fixpoint string_keys (x : go_value) : outcome go_value :=
    match x with
    | GAny m =>
        omap GStrings
          ((fix entries (m : list (yaml_key * go_value)) : outcome (list (string * go_value)) :=
              match m with
              | [] => Ok []
              | (KStr s, v) :: r => obind (string_keys v) (fun v => omap (cons (s, v)) (entries r))
              | (KOther _, _) :: _ => Panic (EStr "interface conversion")
              end) m)
    | GSlice l =>
        omap GSlice
          ((fix elements (l : list go_value) : outcome (list go_value) :=
              match l with
              | [] => Ok []
              | v :: r => obind (string_keys v) (fun v => omap (cons v) (elements r))
              end) l)
    | _ => Ok x
    end.

  (** JSON text of a scalar, as a value and as a key; there is none for NaN and
      the infinities. *)
  Variable scalar_json : scalar -> option string.
  Variable key_json : string -> string.
  (** The brackets, commas and blanks that MarshalIndent puts around the texts
      of elements and entries, /repo/yaml2json/main.go:35.  For a map this
      includes sorting. *)
  Variable array_json : list string -> string.
  Variable object_json : list (string * string) -> string.

  (** All of them, if there are all. *)
  Fixpoint all_some {A} (l : list (option A)) : option (list A) :=
    match l with
    | [] => Some []
    | Some x :: r => option_map (cons x) (all_some r)
    | None :: _ => None
    end.

  (** json.MarshalIndent, /repo/yaml2json/main.go:35; a map[interface{}]interface{}
      is not supported. *)
  Fixpoint marshal (x : go_value) : option string :=
    match x with
    | GScalar s => scalar_json s
    | GSlice l => option_map array_json (all_some (map marshal l))
    | GStrings m => option_map object_json (all_some (map (fun e => option_map (pair (key_json (fst e))) (marshal (snd e))) m))
    | GAny _ => None
    end.

  (** What the program does: it writes a text, or log.Fatal, or it panics. *)
  Inductive conversion : Type := CvWritten (t : string) | CvFatal | CvPanic.

  (** main, /repo/yaml2json/main.go:29-43, for an input that is YAML ([Some]) or
      not ([None]).  Reading and writing do not fail. *)
  Definition yaml2json (input : option document) : conversion :=
    match input with
    | None => CvFatal
    | Some d =>
        match string_keys (unmarshal d) with
        | Ok v => match marshal v with Some t => CvWritten t | None => CvFatal end
        | _ => CvPanic
        end
    end.
End Convert.
Arguments KStr {scalar} _.
Arguments KOther {scalar} _.
Arguments DScalar {scalar} _.
Arguments DSeq {scalar} _.
Arguments DMap {scalar} _.
Arguments GScalar {scalar} _.
Arguments GSlice {scalar} _.
Arguments GStrings {scalar} _.
Arguments GAny {scalar} _.
