(** The text of an explanation: the methods AppendTo of
    /repo/explain/explainer.go, and Render of /repo/hiera/render.go. *)

From Coq Require Import String Ascii List ZArith Bool.
From Verif Require Import Str Value Outcome Key Merge Config Explain.
Import ListNotations.
Open Scope string_scope.

(** Kind and Original of a location, /repo/config/path.go:67-84, /repo/config/uri.go:62-72,
    /repo/config/glob.go:51-61 and /repo/config/mappedpaths.go:74-84. *)
Definition loc_kind (l : location) : string :=
  match l with LPath _ _ _ => "path" | LUri _ _ => "uri" | LGlob _ => "glob" | LMapped _ _ _ => "mapped_paths" end.
Definition loc_original (l : location) : string :=
  match l with
  | LPath o _ _ => o
  | LUri o _ => o
  | LGlob p => p
  | LMapped s k t => "mapped_paths{sourceVar:" ++ s ++ ", key:" ++ k ++ ", template:" ++ t ++ "}"
  end.

(** The indenter of dgo, used from /repo/explain/explainer.go:147 on: what has
    been written, and a level that is an argument here.  NewLine writes a line
    break and two blanks for each level. *)
Fixpoint blanks (lvl : nat) : string := match lvl with 0 => "" | S n => "  " ++ blanks n end.
Definition new_line (lvl : nat) (b : string) : string := b ++ str1 c_nl ++ blanks lvl.

Section Text.
  (** AppendValue of the indenter at a level, /repo/explain/explainer.go:185-187;
      [None] is nil. *)
  Variable show : nat -> option value -> string.

  (** dumpTexts, /repo/explain/explainer.go:189-194. *)
  Fixpoint dump_texts (ts : list string) (lvl : nat) (b : string) : string :=
    match ts with [] => b | t :: r => dump_texts r lvl (new_line lvl b ++ t) end.

  (** dumpOutcome, /repo/explain/explainer.go:163-183. *)
  Definition dump_outcome (e k : string) (v : option value) (ts : list string) (lvl : nat) (b : string) : string :=
    dump_texts ts lvl
      (if String.eqb e "not_found" then new_line lvl b ++ "No such key: """ ++ k ++ """"
       else if String.eqb e "found" then new_line lvl b ++ "Found key: """ ++ k ++ """ value: " ++ show lvl v
       else if String.eqb e "found_in_defaults" then new_line lvl b ++ "Found key: """ ++ k ++ """ value: " ++ show lvl v ++ " in defaults"
       else if String.eqb e "found_in_overrides" then new_line lvl b ++ "Found key: """ ++ k ++ """ value: " ++ show lvl v ++ " in overrides"
       else b).

  (** AppendTo of the nodes, /repo/explain/explainer.go:312-318, :362-368,
      :406-411, :450-452, :492-517, :551-559, :610-635, :675-679, :719-730 and
      :770-783, with dumpBranches, :196-200.  [b] is what has been written so far. *)
  Fixpoint append_to (n : node) (lvl : nat) (b : string) : outcome string :=
    match n with
    | Node k bs ts e v key =>
        let dump_branches :=
          (fix each (bs : list node) (lvl : nat) (b : string) : outcome string :=
             match bs with [] => Ok b | c :: r => obind (append_to c lvl b) (each r lvl) end) in
        match k with
        | NProvider name =>
            omap (dump_outcome e key v ts (S lvl)) (dump_branches bs (S lvl) (new_line lvl b ++ name))
        | NInterpolate expr => dump_branches bs (S lvl) (new_line lvl b ++ "Interpolation on """ ++ expr ++ """")
        | NInvalid => Ok (new_line lvl b ++ "Invalid key """ ++ key ++ """")
        | NSegment _ => Ok (dump_outcome e key v ts lvl b)
        | NLocation l =>
            obind (loc_resolved l) (fun r =>
            let b1 := new_line lvl b ++ (if String.eqb (loc_kind l) "path" then "Path """ else "URI """) ++ r ++ """" in
            let b2 := new_line (S lvl) b1 ++ "Original " ++ loc_kind l ++ ": """ ++ loc_original l ++ """" in
            omap (fun b3 => dump_outcome e key v ts (S lvl)
                              (if String.eqb e "location_not_found" then new_line (S lvl) b3 ++ loc_kind l ++ " not found" else b3))
                 (dump_branches bs (S lvl) b2))
        | NLookup =>
            let b1 := if String.eqb b "" && Nat.eqb lvl 0 then b else new_line lvl b in
            dump_branches bs (S lvl) (b1 ++ "Searching for """ ++ key ++ """")
        | NMerge s =>
            match bs with
            | [] => Ok b
            | [c] => append_to c lvl b
            | _ =>
                let b1 := new_line lvl b ++ "Merge strategy """ ++ strat_label s ++ """" in
                let b2 := match strat_options s with
                          | [] => b1
                          | o => new_line (S lvl) b1 ++ "Options: " ++ show (S lvl) (Some (VMap o))
                          end in
                omap (fun b3 => if String.eqb e "result" then new_line (S lvl) b3 ++ "Merged result: " ++ show (S lvl) v else b3)
                     (dump_branches bs (S lvl) b2)
            end
        | NMergeSource s => Ok (new_line lvl b ++ "Using merge options from " ++ s)
        | NModule name =>
            if String.eqb e "module_not_found" then Ok (new_line lvl b ++ "Module """ ++ name ++ """ not found")
            else omap (dump_outcome e key v ts lvl) (dump_branches bs lvl b)
        | NSubLookup k =>
            omap (dump_outcome e key v ts (S lvl))
                 (dump_branches bs (S lvl)
                    (new_line lvl b ++ "Sub key: """ ++ join "." (map part_string (tl (k_parts k))) ++ """"))
        end
    end.

  (** dumpBranches, /repo/explain/explainer.go:196-200. *)
  Fixpoint dump_branches (bs : list node) (lvl : nat) (b : string) : outcome string :=
    match bs with [] => Ok b | c :: r => obind (append_to c lvl b) (dump_branches r lvl) end.

  (** AppendTo and String of an explainer, /repo/explain/explainer.go:944-951, when
      no node is open. *)
  Definition explainer_text (x : explainer) : outcome string :=
    omap (dump_texts (fr_ts (x_root x)) 0) (dump_branches (fr_bs (x_root x)) 0 "").
End Text.
