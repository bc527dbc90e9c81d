(** What resolving a configuration must give. *)

From Coq Require Import String Ascii List ZArith Bool.
From Verif Require Import Str Value Outcome Key Fpath Config State Engine SpecKey SpecIpl SpecInterp.
Import ListNotations.
Open Scope string_scope.
Open Scope list_scope.

(** [t'] is [t] with its expressions replaced by what they stand for in the
    scope. *)
Definition expands (w : world) (sc : scope) (t t' : string) : Prop :=
  exists cut rs last, well_cut cut last /\ t = assembled cut last /\ t' = filled cut rs last /\
    Forall2 (fun p r => stands_for w sc false (snd p) r) cut rs.

(** The same for the strings in a value, map keys included. *)
Inductive value_expands (w : world) (sc : scope) : value -> value -> Prop :=
| ve_str : forall t t', expands w sc t t' -> value_expands w sc (VStr t) (VStr t')
| ve_arr : forall l l', Forall2 (value_expands w sc) l l' -> value_expands w sc (VArr l) (VArr l')
| ve_map : forall m m', wf (VMap m) = true ->
    Forall2 (fun e e' => value_expands w sc (fst e) (fst e') /\ value_expands w sc (snd e) (snd e')) m m' ->
    value_expands w sc (VMap m) (VMap (mputall [] m'))
| ve_other : forall v, (forall t, v <> VStr t) -> (forall l, v <> VArr l) -> (forall m, v <> VMap m) ->
    value_expands w sc v v.

(** The value of a variable, or of a part of it, in the scope: none, or one with
    nothing more to interpolate. *)
Inductive variable (sc : scope) (src : string) : option value -> Prop :=
| var_unset : forall x ps, written_key src (PStr x :: ps) -> scope_get sc x = None -> variable sc src None
| var_value : forall x ps v y, written_key src (PStr x :: ps) -> scope_get sc x = Some v -> settled v ->
    path v ps y -> variable sc src (Some y)
| var_no_path : forall x ps v, written_key src (PStr x :: ps) -> scope_get sc x = Some v -> settled v ->
    (forall y, ~ path v ps y) -> variable sc src None.

(** The elements of a source variable of mapped_paths. *)
Inductive elements : option value -> list value -> Prop :=
| el_str : forall t, elements (Some (VStr t)) [VStr t]
| el_arr : forall l, elements (Some (VArr l)) l
| el_none : elements None []
| el_other : forall v, (forall t, v <> VStr t) -> (forall l, v <> VArr l) -> elements (Some v) [].

(** The locations that one location of the configuration stands for, below the
    directory [dr].  [on_disk] tells which files exist and [matching] what a
    glob matches. *)
Inductive locates (w : world) (on_disk : string -> bool) (matching : string -> list string) (sc : scope) (dr : string) :
  location -> list location -> Prop :=
| loc_path : forall o r e t, expands w sc o t ->
    locates w on_disk matching sc dr (LPath o r e) [LPath o (join2 dr t) (on_disk (join2 dr t))]
| loc_glob : forall p t, expands w sc p t ->
    locates w on_disk matching sc dr (LGlob p) (map (fun f => LPath p f true) (matching (join2 dr t)))
| loc_uri : forall o r t, expands w sc o t -> locates w on_disk matching sc dr (LUri o r) [LUri o t]
| loc_mapped : forall src key template v l ts,
    variable sc src v -> elements v l ->
    Forall2 (fun x t => expands w (ScVar sc key x) template t) l ts ->
    locates w on_disk matching sc dr (LMapped src key template)
      (map (fun t => LPath template (join2 dr t) (on_disk (join2 dr t))) ts).

(** A directory as configured, or else the inherited one. *)
Inductive directory (w : world) (sc : scope) : string -> string -> string -> Prop :=
| dir_own : forall d inherited d', d <> "" -> expands w sc d d' -> directory w sc d inherited d'
| dir_inherited : forall inherited, directory w sc "" inherited inherited.

(** A relative directory is below the root of the configuration. *)
Definition below (root d : string) : string := if is_abs d then d else join2 root d.

(** [e'] is [e] resolved with the resolved defaults [d], or as the defaults
    themselves when there are none. *)
Record entry_resolved (w : world) (on_disk : string -> bool) (matching : string -> list string)
       (sc : scope) (env : environ) (root : string)
       (d : option entry) (e e' : entry) : Prop := mk_entry_resolved {
  er_name : e_name e' = e_name e;
  er_pluginfile : e_pluginfile e' = e_pluginfile e;
  er_function : exists f, e_function e' = Some f /\ ~ has "%{" (f_name f) /\
                match e_function e with
                | Some f0 => expands w sc (f_name f0) (f_name f) /\ f_kind f = f_kind f0
                | None => match d with
                          | Some d => e_function d
                          | None => Some (mk_fdef KDataHash "yaml_data")
                          end = Some f
                end;
  er_datadir : directory w sc (e_datadir e)
                 (match d with Some d => e_datadir d | None => default_datadir env end) (e_datadir e');
  er_plugindir : exists p, directory w sc (e_plugindir e)
                   (match d with Some d => e_plugindir d | None => default_plugindir env end) p /\
                   e_plugindir e' = below root p;
  er_options : match e_options e with
               | Some o => exists o', value_expands w sc (VMap o) (VMap o') /\ e_options e' = Some o'
               | None => e_options e' = match d with
                                        | Some d => Some (match e_options d with Some o => o | None => [] end)
                                        | None => Some []
                                        end
               end;
  er_locations : match e_locations e with
                 | Some ls => exists lss, Forall2 (locates w on_disk matching sc (below root (e_datadir e'))) ls lss /\
                                          e_locations e' = Some (concat lss)
                 | None => e_locations e' = None
                 end
}.
