(** What must hold of the world for the requests to a session not to influence
    each other. *)

From Coq Require Import String List.
From Verif Require Import Str Value Outcome Key Merge Fpath Config State.
Import ListNotations.

(** The answers do not change while the session lasts. *)
Record lasting (w : world) : Prop := mk_lasting {
  la_stat : forall t p, w_stat w t p = w_stat w [] p;
  la_glob : forall t p, w_glob w t p = w_glob w [] p;
  la_config : forall t p, w_config w t p = w_config w [] p;
  la_yaml : forall t p, w_yaml w t p = w_yaml w [] p;
  la_json : forall t p, w_json w t p = w_json w [] p;
  la_readdir : forall t p, w_readdir w t p = w_readdir w [] p;
  la_lstat : forall t p, w_lstat w t p = w_lstat w [] p;
  la_fun : forall t p, w_fun w t p = w_fun w [] p;
  la_plugin : forall t p q, w_plugin w t p q = w_plugin w [] p q;
  la_call : forall t f a, w_call w t f a = w_call w [] f a;
  la_dig : forall t f ps, w_dig w t f ps = w_dig w [] f ps
}.

(** A function that remembers nothing: it uses neither Cache nor
    CachedValue. *)
Inductive remembers_nothing : prog -> Prop :=
| rn_ret : forall v, remembers_nothing (PRet v)
| rn_panic : forall e, remembers_nothing (PPanic e)
| rn_interpolate : forall v k, (forall x, remembers_nothing (k x)) -> remembers_nothing (PInterpolate v k)
| rn_lookup : forall key o k, (forall x, remembers_nothing (k x)) -> remembers_nothing (PLookup key o k)
| rn_scope : forall key k, (forall x, remembers_nothing (k x)) -> remembers_nothing (PScope key k)
| rn_mode : forall k, (forall x, remembers_nothing (k x)) -> remembers_nothing (PMode k)
| rn_explain : forall t k, remembers_nothing k -> remembers_nothing (PExplain t k).

(** No function of the session remembers anything. *)
Definition without_memory (w : world) : Prop := forall f a, remembers_nothing (w_call w [] f a).

(** The configuration at [p] can be read, and is then [c]. *)
Definition can_be_read (w : world) (p : string) (c : config) : Prop :=
  config_new (w_env w) p (w_config w [] p) = Ok c.

(** Every configuration the session has read so far could be read. *)
Definition all_could_be_read (w : world) (s : st) : Prop :=
  forall p, In (EvConfig p) (s_trace s) -> exists c, can_be_read w p c.
