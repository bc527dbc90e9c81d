(** Texts that are no keys, and what is wrong with them. *)

From Coq Require Import String Ascii List ZArith.
From Verif Require Import Value Key Outcome SpecKey.
Import ListNotations.
Open Scope string_scope.

(** Segments that are right, each with the dot after it. *)
Fixpoint led (segs : list (list piece)) : string :=
  match segs with [] => "" | seg :: r => show_seg seg ++ "." ++ led r end.

(** The first is not a number, and none is empty. *)
Definition right_segments (segs : list (list piece)) : Prop :=
  Forall seg_ok segs /\ Forall (fun seg => exists p, plain_part (seg_text seg) p) segs /\
  forall seg r, segs = seg :: r -> exists t, plain_part (seg_text seg) (PStr t).

(** A segment is over at a dot, and at the end of the key unless a quoted
    stretch is last there: such a segment is taken as it is. *)
Definition over (seg : list piece) (rest : string) : Prop :=
  (exists r, rest = "." ++ r) \/ (rest = "" /\ ~ ends_quoted seg).

(** The first thing that is wrong, from the left. *)
Inductive misspelt (s : string) : err -> Prop :=
| ms_index : forall seg rest z, seg_ok seg -> s = show_seg seg ++ rest -> over seg rest -> reads_as (seg_text seg) z ->
    misspelt s (EErr ("key '" ++ s ++ "' first segment cannot be an index"))
| ms_empty : forall before seg rest, right_segments before -> seg_ok seg -> s = led before ++ show_seg seg ++ rest ->
    over seg rest -> seg_text seg = "" -> misspelt s (EErr ("key '" ++ s ++ "' contains an empty segment"))
| ms_open : forall before seg q rest, right_segments before -> seg_ok seg ->
    s = led before ++ show_seg seg ++ String q rest -> is_quote q -> ~ occurs q rest ->
    misspelt s (EErr ("unterminated quote in key '" ++ s ++ "'")).
