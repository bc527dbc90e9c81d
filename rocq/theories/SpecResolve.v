(** What resolving an entry gives in any scope, whatever the variables hold. *)

From Coq Require Import String Ascii List ZArith Bool.
From Verif Require Import Str Value Outcome Key Fpath Config State Engine SpecConfig.
Import ListNotations.
Open Scope string_scope.
Open Scope list_scope.

(** Interpolating the text [t] with the scope [sc] gave the text [t']. *)
Definition text_result (w : world) (n : nat) (sc : scope) (t t' : string) : Prop :=
  exists s1 s2 o b, iv_scope (s_iv s1) = sc /\ run w n (RStr t false) s1 = (Ok (Some o, b), s2) /\ t' = vstring w o.

(** Interpolating a value with the scope [sc] gave the value [v']. *)
Definition value_result (w : world) (n : nat) (sc : scope) (v v' : value) : Prop :=
  exists s1 s2, iv_scope (s_iv s1) = sc /\ interpolate (run w n) false v s1 = (Ok (Some v'), s2).

(** The expression [src] in the scope [sc] gave the value [v], or none. *)
Definition scope_result (w : world) (n : nat) (sc : scope) (src : string) (v : option value) : Prop :=
  exists s1 s2, iv_scope (s_iv s1) = sc /\ in_scope (run w n) false src s1 = (Ok v, s2).

(** The scope [sc'] has [x] for [key] and is otherwise like [sc]. *)
Definition bound (sc : scope) (key : string) (x : value) (sc' : scope) : Prop :=
  forall k, scope_get sc' k = if String.eqb k key then Some x else scope_get sc k.

(** The locations that one location of the configuration gave. *)
Inductive ran_location (w : world) (n : nat) (sc : scope) (dr : string) : location -> list location -> Prop :=
| rl_path : forall o r e t ok, text_result w n sc o t ->
    ran_location w n sc dr (LPath o r e) [LPath o (join2 dr t) ok]
| rl_glob : forall p t fs tr, text_result w n sc p t -> fs = w_glob w tr (join2 dr t) ->
    ran_location w n sc dr (LGlob p) (map (fun f => LPath p f true) fs)
| rl_uri : forall o r t, text_result w n sc o t -> ran_location w n sc dr (LUri o r) [LUri o t]
| rl_mapped : forall src key template v l ls,
    scope_result w n sc src v -> elements v l ->
    Forall2 (fun x loc => exists sc' t ok, bound sc key x sc' /\ text_result w n sc' template t /\
                          loc = LPath template (join2 dr t) ok) l ls ->
    ran_location w n sc dr (LMapped src key template) ls.

Inductive ran_dir (w : world) (n : nat) (sc : scope) : string -> string -> string -> Prop :=
| rd_own : forall d inherited d', d <> "" -> text_result w n sc d d' -> ran_dir w n sc d inherited d'
| rd_inherited : forall inherited, ran_dir w n sc "" inherited inherited.

(** [e'] is what resolving [e] gave, with the resolved defaults [d] or as the
    defaults themselves.  The name of the function is interpolated, and what
    comes out is interpolated again. *)
Record ran_entry (w : world) (n : nat) (sc : scope) (root : string) (d : option entry) (e e' : entry) : Prop := mk_ran_entry {
  rn_name : e_name e' = e_name e;
  rn_pluginfile : e_pluginfile e' = e_pluginfile e;
  rn_function : exists f, e_function e' = Some f /\
    match e_function e with
    | Some f0 => f_kind f = f_kind f0 /\ exists t, text_result w n sc (f_name f0) t /\ text_result w n sc t (f_name f)
    | None => exists f0, match d with Some d => e_function d | None => Some (mk_fdef KDataHash "yaml_data") end = Some f0 /\
                f_kind f = f_kind f0 /\ text_result w n sc (f_name f0) (f_name f)
    end;
  rn_datadir : ran_dir w n sc (e_datadir e)
                 (match d with Some d => e_datadir d | None => default_datadir (w_env w) end) (e_datadir e');
  rn_plugindir : exists p, ran_dir w n sc (e_plugindir e)
                   (match d with Some d => e_plugindir d | None => default_plugindir (w_env w) end) p /\
                   e_plugindir e' = below root p;
  rn_options : match e_options e with
               | Some o => exists o', value_result w n sc (VMap o) (VMap o') /\ e_options e' = Some o'
               | None => e_options e' = match d with
                                        | Some d => Some (match e_options d with Some o => o | None => [] end)
                                        | None => Some []
                                        end
               end;
  rn_locations : match e_locations e with
                 | Some ls => exists lss, Forall2 (ran_location w n sc (below root (e_datadir e'))) ls lss /\
                                          e_locations e' = Some (concat lss)
                 | None => e_locations e' = None
                 end
}.
