(** Every successful resolution is as described in [SpecResolve]. *)

From Coq Require Import String Ascii List ZArith Bool Arith Lia.
From Verif Require Import Str Value Outcome Key Merge Fpath Config Ipl Explain State Engine Meta
  SpecKey SpecIpl SpecInterp SpecConfig SpecResolve KeyFacts ValueFacts MergeFacts StrFacts IplFacts InterpFacts IplExact ResolveFacts.
Import ListNotations.
Open Scope nat_scope.
Open Scope string_scope.
Open Scope list_scope.

Section Run.
  Variables (w : world) (n : nat).

  Let is := fun s => run w n (RStr s false).
  Let ivl := interpolate (run w n) false.
  Let isc := in_scope (run w n) false.
  Let wv := fun (k : string) v (m : M st location) =>
              bind (run_op OScope) (fun sc => run_scoped (SScope (ScVar sc k v)) m).
  Let sta := fun p => ask (EvStat p) (fun t => w_stat w t p).
  Let gl := fun p => ask (EvGlob p) (fun t => w_glob w t p).
  Let show := vstring w.

  (** What a piece of code gives when it succeeds, starting in scope [sc], and
      that it leaves the invocation as it was. *)
  Definition made_of (sc : scope) {A} (m : M st A) (P : A -> Prop) : Prop :=
    forall s a s', iv_scope (s_iv s) = sc -> m s = (Ok a, s') -> s_iv s' = s_iv s /\ P a.

  Lemma mo_ret sc A (a : A) (P : A -> Prop) : P a -> made_of sc (ret a) P.
  Proof. intros H s b s' _ E. injection E as <- <-. auto. Qed.
  Lemma mo_panic sc A e (P : A -> Prop) : made_of sc (panic e) P.
  Proof. intros s b s' _ E. discriminate. Qed.

  Lemma mo_bind sc A B (m : M st A) (f : A -> M st B) (P : A -> Prop) (Q : B -> Prop) :
    made_of sc m P -> (forall a, P a -> made_of sc (f a) Q) -> made_of sc (bind m f) Q.
  Proof.
    intros Hm Hf s b s' Hs E. apply bind_ok in E as (a & s1 & E1 & E2).
    destruct (Hm _ _ _ Hs E1) as [I1 Pa]. destruct (Hf a Pa s1 b s') as [I2 Qb]; [ rewrite I1; exact Hs | exact E2 | ].
    split; [ congruence | exact Qb ].
  Qed.

  Lemma mo_quiet sc A (m : M st A) (P : A -> Prop) :
    quiet m -> (forall s a s', iv_scope (s_iv s) = sc -> m s = (Ok a, s') -> P a) -> made_of sc m P.
  Proof. intros Q H s a s' Hs E. split; [ exact (Q _ _ _ E) | exact (H _ _ _ Hs E) ]. Qed.

  Lemma mo_text sc t A (f : string -> M st A) (Q : A -> Prop) :
    (forall t', text_result w n sc t t' -> made_of sc (f t') Q) ->
    made_of sc (bind (is t) (fun x => bind (show_opt show (fst x)) f)) Q.
  Proof.
    intros Hf. apply mo_bind with (P := fun r => forall o, fst r = Some o -> text_result w n sc t (show o)).
    - apply mo_quiet; [ apply quiet_run | ]. intros s [o b] s' Hs E o' Eo. cbn in Eo. subst o.
      exists s, s', o', b. auto.
    - intros [o b] Ho. cbn [fst] in *. apply mo_bind with (P := fun x => text_result w n sc t x).
      + destruct o as [o|]; [ apply mo_ret; apply Ho; reflexivity | apply mo_panic ].
      + exact Hf.
  Qed.

  Lemma mo_string sc t : made_of sc (is t) (fun r =>
    (snd r = false -> text_result w n sc t t) /\ (forall o, fst r = Some o -> text_result w n sc t (show o))).
  Proof.
    apply mo_quiet; [ apply quiet_run | ]. intros s [o b] s' Hs E. cbn [fst snd]. split.
    - intros ->. pose proof (run_unchanged w n t false s o s' E) as ->. exists s, s', (VStr t), false. auto.
    - intros o' ->. exists s, s', o', b. auto.
  Qed.

  Lemma mo_function_resolve sc f : made_of sc (function_resolve is show f) (fun f' =>
    f_kind f' = f_kind f /\ text_result w n sc (f_name f) (f_name f')).
  Proof.
    unfold function_resolve. eapply mo_bind; [ apply mo_string | ]. intros [o b] [H1 H2]. cbn [fst snd] in *. destruct b.
    - eapply mo_bind with (P := fun x => text_result w n sc (f_name f) x).
      + destruct o as [o|]; [ apply mo_ret; apply H2; reflexivity | apply mo_panic ].
      + intros x Hx. apply mo_ret. cbn. auto.
    - apply mo_ret. auto.
  Qed.

  Lemma mo_interp_dir sc d : made_of sc (interp_dir is show d) (text_result w n sc d).
  Proof.
    unfold interp_dir. eapply mo_bind; [ apply mo_string | ]. intros [o b] [H1 H2]. cbn [fst snd] in *. destruct b.
    - destruct o as [o|]; [ apply mo_ret; apply H2; reflexivity | apply mo_panic ].
    - apply mo_ret. auto.
  Qed.

  Lemma mo_stat sc p : made_of sc (sta p) (fun _ => True).
  Proof. apply mo_quiet; [ apply quiet_ask; reflexivity | auto ]. Qed.
  Lemma mo_glob sc p : made_of sc (gl p) (fun fs => exists tr, fs = w_glob w tr p).
  Proof.
    apply mo_quiet; [ apply quiet_ask; reflexivity | ]. intros s a s' _ E.
    unfold gl, ask, bind, run_op, ret in E. injection E as <- _. eauto.
  Qed.

  Lemma mo_wv sc k v m P : made_of (ScVar sc k v) m P -> made_of sc (wv k v m) P.
  Proof.
    intros H s a s' Hs E. unfold wv, bind, run_op in E. rewrite Hs in E. unfold run_scoped in E.
    destruct (m (with_iv (iv_with_scope (ScVar sc k v) (s_iv s)) s)) as [[x|x| |] s1] eqn:E1; try discriminate.
    injection E as <- <-. destruct (H _ _ _ (eq_refl : iv_scope (s_iv (with_iv (iv_with_scope (ScVar sc k v) (s_iv s)) s)) = _) E1) as [I1 Pa].
    split; [ | exact Pa ]. cbn [s_iv with_iv]. rewrite I1. cbn [s_iv with_iv]. apply iv_scope_twice.
  Qed.

  Lemma mapped_is v : elements v (mapped_vars v).
  Proof. destruct v as [[]|]; cbn; constructor; intros; discriminate. Qed.

  Lemma bound_var sc key x : bound sc key x (ScVar sc key x).
  Proof. intro k. cbn. rewrite (String.eqb_sym key k). reflexivity. Qed.

  Lemma mo_location sc dr l : made_of sc (resolve_location is isc wv sta gl show dr l) (ran_location w n sc dr l).
  Proof.
    destruct l as [o r e|p|o r|src key template]; cbn [resolve_location].
    - apply mo_text. intros t Ht. eapply mo_bind; [ apply mo_stat | ]. intros ok _. apply mo_ret. constructor. exact Ht.
    - apply mo_text. intros t Ht. eapply mo_bind; [ apply mo_glob | ]. intros fs [tr Hf]. apply mo_ret. exact (rl_glob _ _ _ _ _ _ _ _ Ht Hf).
    - apply mo_text. intros t Ht. apply mo_ret. constructor. exact Ht.
    - eapply mo_bind with (P := fun v => scope_result w n sc src v).
      + apply mo_quiet; [ apply quiet_in_scope; apply quiet_run | ]. intros s a s' Hs E. exists s, s'. auto.
      + intros v Hv.
        assert (G : forall l, made_of sc (resolve_mapped is wv sta show dr key template l)
          (Forall2 (fun x loc => exists sc' t ok, bound sc key x sc' /\ text_result w n sc' template t /\
                          loc = LPath template (join2 dr t) ok) l)).
        { induction l as [|x l IH]; cbn [resolve_mapped]; [ apply mo_ret; constructor | ].
          eapply mo_bind with (P := fun loc => exists sc' t ok, bound sc key x sc' /\ text_result w n sc' template t /\
                          loc = LPath template (join2 dr t) ok).
          - apply mo_wv. apply mo_text. intros t Ht. eapply mo_bind; [ apply mo_stat | ]. intros ok _. apply mo_ret.
            exists (ScVar sc key x), t, ok. split; [ apply bound_var | auto ].
          - intros loc Hloc. eapply mo_bind; [ exact IH | ]. intros ls Hls. apply mo_ret. constructor; assumption. }
        intros s a s' Hs E. destruct (G (mapped_vars v) s a s' Hs E) as [I Hl]. split; [ exact I | ].
        exact (rl_mapped _ _ _ _ _ _ _ _ _ _ Hv (mapped_is v) Hl).
  Qed.

  Lemma mo_all sc dr ls : made_of sc (resolve_all is isc wv sta gl show dr ls)
    (fun r => exists lss, Forall2 (ran_location w n sc dr) ls lss /\ r = concat lss).
  Proof.
    induction ls as [|l ls IH]; cbn [resolve_all].
    - apply mo_ret. exists []. split; [ constructor | reflexivity ].
    - eapply mo_bind; [ apply mo_location | ]. intros a Ha. eapply mo_bind; [ exact IH | ].
      intros b (lss & Hb & ->). apply mo_ret. exists (a :: lss). split; [ constructor; assumption | reflexivity ].
  Qed.

  Lemma mo_resolve_function sc d e : made_of sc (resolve_function is show d e) (fun e' =>
    exists f, e' = set_function (Some f) e /\
    match e_function e with
    | Some f0 => f_kind f = f_kind f0 /\ text_result w n sc (f_name f0) (f_name f)
    | None => match d with Some d => e_function d | None => Some (mk_fdef KDataHash "yaml_data") end = Some f
    end).
  Proof.
    unfold resolve_function. destruct (e_function e) as [f0|].
    - eapply mo_bind with (P := fun o => exists f, o = Some f /\ f_kind f = f_kind f0 /\ text_result w n sc (f_name f0) (f_name f)).
      + eapply mo_bind; [ apply mo_function_resolve | ]. intros f H. apply mo_ret. exists f. auto.
      + intros o (f & -> & H). apply mo_ret. exists f. auto.
    - destruct d as [d|].
      + eapply mo_bind with (P := fun o => o = e_function d); [ apply mo_ret; reflexivity | ].
        intros o ->. destruct (e_function d) as [f|]; [ apply mo_ret; exists f; auto | apply mo_panic ].
      + eapply mo_bind with (P := fun o => o = Some (mk_fdef KDataHash "yaml_data")); [ apply mo_ret; reflexivity | ].
        intros o ->. apply mo_ret. eexists. auto.
  Qed.

  Lemma mo_dir sc d inh : made_of sc (if String.eqb d "" then ret inh else interp_dir is show d) (ran_dir w n sc d inh).
  Proof.
    destruct (String.eqb_spec d "") as [->|H]; [ apply mo_ret; apply rd_inherited | ].
    intros s a s' Hs E. destruct (mo_interp_dir sc d s a s' Hs E) as [I T]. split; [ exact I | apply rd_own; assumption ].
  Qed.

  Lemma mo_entry sc root d e : made_of sc (resolve_entry w (run w n) root d e) (ran_entry w n sc root d e).
  Proof.
    unfold resolve_entry.
    change (made_of sc (entry_resolve is ivl isc wv sta gl show (w_env w) root d e) (ran_entry w n sc root d e)).
    unfold entry_resolve.
    eapply mo_bind; [ apply mo_resolve_function | ]. intros e1 (f1 & -> & H1).
    eapply mo_bind with (P := fun e2 => exists f dd, e2 = set_datadir dd (set_function (Some f) e) /\
      f_kind f = f_kind f1 /\ text_result w n sc (f_name f1) (f_name f) /\
      ran_dir w n sc (e_datadir e) (match d with Some d => e_datadir d | None => default_datadir (w_env w) end) dd).
    { unfold resolve_datadir. eapply mo_bind; [ apply mo_resolve_function | ]. intros e2 (f & -> & Hk & Ht).
      cbn [set_function e_datadir e_function] in *.
      pose proof (mo_dir sc (e_datadir e) (match d with Some d => e_datadir d | None => default_datadir (w_env w) end)) as D.
      destruct (String.eqb (e_datadir e) "").
      - intros s a s' Hs E. injection E as <- <-. split; [ reflexivity | ].
        exists f, (match d with Some d => e_datadir d | None => default_datadir (w_env w) end).
        destruct (D s _ s Hs eq_refl) as [_ D']. split; [ destruct d; reflexivity | auto ].
      - eapply mo_bind; [ exact D | ]. intros dd Hd. apply mo_ret. exists f, dd. auto. }
    intros e2 (f & dd & -> & Hk & Ht & Hd).
    eapply mo_bind with (P := fun e3 => exists p, e3 = set_plugindir (below root p) (set_datadir dd (set_function (Some f) e)) /\
      ran_dir w n sc (e_plugindir e) (match d with Some d => e_plugindir d | None => default_plugindir (w_env w) end) p).
    { unfold resolve_plugindir. cbn [set_datadir set_function e_plugindir].
      eapply mo_bind; [ apply mo_dir | ]. intros p Hp. apply mo_ret. exists p. auto. }
    intros e3 (p & -> & Hp).
    eapply mo_bind with (P := fun e4 => exists o, e4 = set_options (Some o) (set_plugindir (below root p) (set_datadir dd (set_function (Some f) e))) /\
      match e_options e with
      | Some o0 => value_result w n sc (VMap o0) (VMap o)
      | None => o = match d with Some d => match e_options d with Some o => o | None => [] end | None => [] end
      end).
    { unfold resolve_options. cbn [set_plugindir set_datadir set_function e_options].
      destruct (e_options e) as [o0|] eqn:Eo.
      - eapply mo_bind with (P := fun r => exists o, r = Some o /\ value_result w n sc (VMap o0) (VMap o)).
        + destruct o0 as [|kv o0].
          * intros s a s' Hs E. injection E as <- <-. split; [ reflexivity | ]. exists []. split; [ reflexivity | ].
            exists s, s. split; [ exact Hs | reflexivity ].
          * eapply mo_bind with (P := fun r => forall o, r = Some (VMap o) -> value_result w n sc (VMap (kv :: o0)) (VMap o)).
            -- apply mo_quiet; [ apply quiet_interpolate; apply quiet_run | ]. intros s a s' Hs E o ->. exists s, s'. auto.
            -- intros r Hr. destruct r as [[]|]; try apply mo_panic. apply mo_ret. eexists. split; [ reflexivity | apply Hr; reflexivity ].
        + intros r (o & -> & Ho). apply mo_ret. exists o. auto.
      - destruct d as [d|].
        + eapply mo_bind with (P := fun r => r = e_options d); [ apply mo_ret; reflexivity | ].
          intros r ->. apply mo_ret. eexists. split; reflexivity.
        + eapply mo_bind with (P := fun r => r = None); [ apply mo_ret; reflexivity | ].
          intros r ->. apply mo_ret. eexists. split; reflexivity. }
    intros e4 (o & -> & Ho).
    unfold resolve_locations. cbn [set_options set_plugindir set_datadir set_function e_locations e_datadir].
    assert (F : exists f', Some f = Some f' /\
      match e_function e with
      | Some f0 => f_kind f' = f_kind f0 /\ exists t, text_result w n sc (f_name f0) t /\ text_result w n sc t (f_name f')
      | None => exists f0, match d with Some d => e_function d | None => Some (mk_fdef KDataHash "yaml_data") end = Some f0 /\
                  f_kind f' = f_kind f0 /\ text_result w n sc (f_name f0) (f_name f')
      end).
    { exists f. split; [ reflexivity | ]. destruct (e_function e) as [f0|].
      - destruct H1 as [K1 T1]. split; [ congruence | ]. exists (f_name f1). auto.
      - exists f1. auto. }
    assert (O : match e_options e with
               | Some o0 => exists o', value_result w n sc (VMap o0) (VMap o') /\ Some o = Some o'
               | None => Some o = match d with
                                        | Some d => Some (match e_options d with Some o => o | None => [] end)
                                        | None => Some []
                                        end
               end).
    { destruct (e_options e); [ exists o; auto | rewrite Ho; destruct d; reflexivity ]. }
    destruct (e_locations e) as [ls|] eqn:El.
    - eapply mo_bind; [ apply mo_all | ]. intros ne (lss & Hl & ->). apply mo_ret.
      constructor; cbn; try reflexivity; try assumption; [ exists p; auto | ]. rewrite El. exists lss. auto.
    - apply mo_ret. constructor; cbn; try reflexivity; try assumption; [ exists p; auto | ]. rewrite El. reflexivity.
  Qed.

  Lemma resolve_ran root d e s e' s' : resolve_entry w (run w n) root d e s = (Ok e', s') ->
    s_iv s' = s_iv s /\ ran_entry w n (iv_scope (s_iv s)) root d e e'.
  Proof. intro E. exact (mo_entry _ root d e s e' s' eq_refl E). Qed.
End Run.

(** Text without expressions stays. *)
Lemma text_plain w n sc t t' : ~ has "%{" t -> text_result w n sc t t' -> t' = t.
Proof.
  intros H (s1 & s2 & o & b & _ & E & ->). destruct n as [|n]; [ discriminate | ].
  rewrite run_plain in E by exact H. injection E as <- _ _. reflexivity.
Qed.

(** ** Providers *)

Lemma create_each_ran w n root d : forall es s ps s', create_each w (run w n) root d es s = (Ok ps, s') ->
  s_iv s' = s_iv s /\ Forall2 (fun e p => ran_entry w n (iv_scope (s_iv s)) root (Some d) e (p_entry p)) es ps.
Proof.
  induction es as [|e es IH]; intros s ps s' E; cbn [create_each] in E.
  - injection E as <- <-. split; [ reflexivity | constructor ].
  - apply bind_ok in E as (e' & s1 & E1 & E). apply bind_ok in E as (p & s2 & E2 & E). apply bind_ok in E as (ps' & s3 & E3 & E).
    injection E as <- <-. destruct (resolve_ran w n root (Some d) e s e' s1 E1) as [I1 R1].
    pose proof (quiet_create_provider e' _ _ _ E2) as I2. destruct (IH _ _ _ E3) as [I3 R3].
    rewrite I2, I1 in *. split; [ exact I3 | ]. constructor; [ | exact R3 ].
    unfold create_provider in E2. destruct (e_function e'); [ | discriminate ]. apply bind_ok in E2 as (id & s4 & _ & E2).
    injection E2 as <- _. exact R1.
Qed.

Lemma create_providers_ran w n c es s ps s' : create_providers w (run w n) c es s = (Ok ps, s') ->
  s_iv s' = s_iv s /\ exists d, ran_entry w n (iv_scope (s_iv s)) (c_root c) None (c_defaults c) d /\
    Forall2 (fun e p => ran_entry w n (iv_scope (s_iv s)) (c_root c) (Some d) e (p_entry p)) es ps.
Proof.
  intro E. unfold create_providers in E. apply bind_ok in E as (d & s1 & E1 & E2).
  destruct (resolve_ran _ _ _ _ _ _ _ _ E1) as [I1 R1]. apply create_each_ran in E2 as [I2 R2]. rewrite I1 in *.
  split; [ exact I2 | ]. exists d. auto.
Qed.
