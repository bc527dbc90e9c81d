(** Resolving a configuration whose variables are settled. *)

From Coq Require Import String Ascii List ZArith Bool Arith Lia.
From Verif Require Import Str Value Outcome Key Merge Fpath Config Ipl Explain State Engine Meta
  SpecKey SpecIpl SpecInterp SpecConfig KeyFacts ValueFacts MergeFacts StrFacts IplFacts InterpFacts IplExact.
Import ListNotations.
Open Scope nat_scope.
Open Scope string_scope.
Open Scope list_scope.

(** Only questions are asked. *)
Definition asked (s s' : st) : Prop := exists l, s' = with_trace (s_trace s ++ l) s.

Lemma asked_refl s : asked s s.
Proof. exists []. rewrite app_nil_r. destruct s; reflexivity. Qed.
Lemma asked_trans s s' s'' : asked s s' -> asked s' s'' -> asked s s''.
Proof. intros [l ->] [l' ->]. exists (l ++ l'). cbn. rewrite app_assoc. reflexivity. Qed.
Lemma asked_iv s s' : asked s s' -> s_iv s' = s_iv s.
Proof. intros [l ->]. reflexivity. Qed.

(** Code that gives a value, in scope [sc] without an explainer, and only asks
    questions. *)
Definition gives (sc : scope) {A} (m : M st A) (a : A) : Prop :=
  forall s, iv_scope (s_iv s) = sc -> off s -> exists s', m s = (Ok a, s') /\ asked s s'.

Lemma gives_ret sc A (a : A) : gives sc (ret a) a.
Proof. intros s _ _. exists s. split; [ reflexivity | apply asked_refl ]. Qed.

Lemma gives_bind sc A B (m : M st A) (f : A -> M st B) a b :
  gives sc m a -> gives sc (f a) b -> gives sc (bind m f) b.
Proof.
  intros Hm Hf s Hs Ho. destruct (Hm s Hs Ho) as (s1 & E1 & A1). unfold bind. rewrite E1.
  destruct (Hf s1) as (s2 & E2 & A2).
  - rewrite (asked_iv _ _ A1). exact Hs.
  - unfold off. rewrite (asked_iv _ _ A1). exact Ho.
  - exists s2. split; [ exact E2 | exact (asked_trans _ _ _ A1 A2) ].
Qed.

Lemma gives_ask sc A e (f : list event -> A) a : (forall t, f t = a) -> gives sc (ask e f) a.
Proof.
  intros H s _ _. unfold ask, bind, run_op, ret. rewrite H. eexists. split; [ reflexivity | ]. exists [e]. reflexivity.
Qed.

Lemma gives_node sc A k i (m : M st A) a : gives sc m a -> gives sc (run_scoped (SNode k i) m) a.
Proof. intros H s Hs Ho. rewrite node_off by exact Ho. exact (H s Hs Ho). Qed.

Lemma iv_scope_twice i sc : iv_with_scope (iv_scope i) (iv_with_scope sc i) = i.
Proof. destruct i; reflexivity. Qed.

Lemma gives_scope sc sc' A (m : M st A) a : gives sc' m a -> gives sc (run_scoped (SScope sc') m) a.
Proof.
  intros H s Hs Ho. unfold run_scoped.
  destruct (H (with_iv (iv_with_scope sc' (s_iv s)) s) eq_refl Ho) as (s1 & E1 & A1). rewrite E1.
  eexists. split; [ reflexivity | ]. destruct A1 as [l ->]. exists l.
  unfold with_iv, with_trace. cbn. rewrite iv_scope_twice. reflexivity.
Qed.

Lemma contains_nil t : contains "%{" t = false -> forall cut last, t = assembled cut last -> cut = [].
Proof.
  intros H cut last E. destruct cut as [|[a b] cut]; [ reflexivity | ].
  apply contains_not in H. exfalso. apply H. exists a, (b ++ "}" ++ assembled cut last)%string. exact E.
Qed.

(** ** Strings and values *)

Lemma run_expands w n sc t t' : expands w sc t t' ->
  exists b, (b = false -> t' = t) /\
  forall s, iv_scope (s_iv s) = sc -> off s -> run w (S (S n)) (RStr t false) s = (Ok (Some (VStr t'), b), s).
Proof.
  intros (cut & rs & last & Hw & -> & -> & H). destruct cut as [|c cut].
  - inversion H; subst. cbn [assembled filled].
    destruct (contains "%{" last) eqn:E.
    + exists true. split; [ discriminate | ]. intros s Hs Ho.
      change (run w (S (S n))) with (body w (run w (S n))). cbn [body]. unfold istr. rewrite E. cbn [negb].
      unfold bind at 1. rewrite node_off by exact Ho. pose proof (tokens_cut [] last Hw) as Ht. cbn [assembled toks] in Ht.
      rewrite Ht. reflexivity.
    + exists false. split; [ reflexivity | ]. intros s _ _. apply run_plain. apply contains_not. exact E.
  - exists true. split; [ discriminate | ]. intros s Hs Ho. apply string_known; try assumption; [ discriminate | ].
    rewrite Hs. exact H.
Qed.

Lemma gives_string w n sc t t' : expands w sc t t' ->
  exists b, (b = false -> t' = t) /\ gives sc (run w (S (S n)) (RStr t false)) (Some (VStr t'), b).
Proof.
  intro H. destruct (run_expands w n sc t t' H) as (b & Hb & E). exists b. split; [ exact Hb | ].
  intros s Hs Ho. exists s. split; [ exact (E s Hs Ho) | apply asked_refl ].
Qed.

Lemma gives_value w n sc : forall v v', value_expands w sc v v' ->
  exists b, (b = false -> v' = v) /\ gives sc (do_interp (run w (S (S n))) false v) (Some v', b).
Proof.
  fix IH 1. intros v v' H. destruct v as [|x|z|z|t|l|m|v].
  all: try (inversion H; subst; exists false; split; [ reflexivity | apply gives_ret ]; fail).
  - inversion H as [t0 t' Ht| | |v H1 _ _]; subst; [ | destruct (H1 t eq_refl) ].
    destruct (gives_string w n sc t t' Ht) as (b & Hb & E). exists b. split; [ | exact E ].
    intro Eb. rewrite (Hb Eb). reflexivity.
  - inversion H as [|l0 l' Hl| |v _ H1 _]; subst; [ | destruct (H1 l eq_refl) ]. clear H.
    assert (Q : exists b, (b = false -> l' = l) /\ (forall r, b = true -> fst (l', r : bool) = l') /\
                exists l2, gives sc (each_arr (run w (S (S n))) false l) (l2, b) /\ l2 = l').
    { induction l as [|x l IHl] in l', Hl |- *; inversion Hl as [|? y ? l1 Hx Hr]; subst.
      - exists false. split; [ reflexivity | split; [ discriminate | ] ]. exists []. split; [ apply gives_ret | reflexivity ].
      - destruct (IH x y Hx) as (b1 & B1 & G1). destruct (IHl l1 Hr) as (b2 & B2 & _ & l2 & G2 & E2). subst l2.
        exists (b1 || b2)%bool. split.
        + intro Eb. apply orb_false_iff in Eb as [Eb1 Eb2]. rewrite (B1 Eb1), (B2 Eb2). reflexivity.
        + split; [ reflexivity | ]. exists (y :: l1). split; [ | reflexivity ].
          cbn [each_arr]. eapply gives_bind; [ exact G1 | ]. eapply gives_bind; [ exact G2 | ]. cbn [fst snd nil_to_null].
          replace (if b1 then y else x) with y by (destruct b1; [ reflexivity | exact (B1 eq_refl) ]). apply gives_ret. }
    destruct Q as (b & B & _ & l2 & G & ->). exists b. split; [ intro Eb; rewrite (B Eb); reflexivity | ].
    rewrite do_interp_arr. eapply gives_bind; [ exact G | ]. cbn [fst snd].
    replace (if b then l' else l) with l' by (destruct b; [ reflexivity | exact (B eq_refl) ]). apply gives_ret.
  - inversion H as [| |m0 m' W Hm|v _ _ H1]; subst; [ | destruct (H1 m eq_refl) ]. clear H.
    assert (Q : forall cp, exists b, (b = false -> m' = m) /\
                gives sc (each_map (run w (S (S n))) false m cp) (mputall cp m', b)).
    { clear W. induction m as [|[k x] m IHm] in m', Hm |- *; intro cp;
        inversion Hm as [|? [k' x'] ? m1 [Hk Hx] Hr]; subst.
      - exists false. split; [ reflexivity | apply gives_ret ].
      - cbn [fst snd] in *.
        destruct (IH k k' Hk) as (b1 & B1 & G1). destruct (IH x x' Hx) as (b2 & B2 & G2).
        destruct (IHm m1 Hr (mput k' x' cp)) as (b3 & B3 & G3).
        exists (b1 || b2 || b3)%bool. split.
        + intro Eb. apply orb_false_iff in Eb as [Eb Eb3]. apply orb_false_iff in Eb as [Eb1 Eb2].
          specialize (B1 Eb1). specialize (B2 Eb2). specialize (B3 Eb3). congruence.
        + cbn [each_map]. eapply gives_bind; [ exact G1 | ]. eapply gives_bind; [ exact G2 | ].
          cbn [fst snd nil_to_null]. eapply gives_bind; [ exact G3 | ]. apply gives_ret. }
    destruct (Q []) as (b & B & G).
    exists b. split.
    + intro Eb. rewrite (B Eb). rewrite mputall_nil_self by exact W. reflexivity.
    + rewrite do_interp_map. eapply gives_bind; [ exact G | ]. cbn [fst snd].
      destruct b; [ apply gives_ret | ]. rewrite (B eq_refl), mputall_nil_self by exact W. apply gives_ret.
Qed.

(** ** Entries *)

Section Entry.
  Variables (w : world) (n : nat) (on_disk : string -> bool) (matching : string -> list string).
  Hypothesis Hstat : forall t p, w_stat w t p = on_disk p.
  Hypothesis Hglob : forall t p, w_glob w t p = matching p.

  Let is := fun s => run w (S (S n)) (RStr s false).
  Let ivl := interpolate (run w (S (S n))) false.
  Let isc := in_scope (run w (S (S n))) false.
  Let wv := fun (k : string) v (m : M st location) =>
              bind (run_op OScope) (fun sc => run_scoped (SScope (ScVar sc k v)) m).
  Let sta := fun p => ask (EvStat p) (fun t => w_stat w t p).
  Let gl := fun p => ask (EvGlob p) (fun t => w_glob w t p).
  Let show := vstring w.

  Lemma gives_stat sc p : gives sc (sta p) (on_disk p).
  Proof. apply gives_ask. intro. apply Hstat. Qed.
  Lemma gives_glob sc p : gives sc (gl p) (matching p).
  Proof. apply gives_ask. intro. apply Hglob. Qed.

  (** The text of an interpolated string. *)
  Lemma gives_text sc t t' A (f : string -> M st A) a : expands w sc t t' -> gives sc (f t') a ->
    gives sc (bind (is t) (fun x => bind (show_opt show (fst x)) f)) a.
  Proof.
    intros H Hf. destruct (gives_string w n sc t t' H) as (b & _ & G).
    eapply gives_bind; [ exact G | ]. cbn [fst]. eapply gives_bind; [ apply gives_ret | ]. exact Hf.
  Qed.

  Lemma gives_interp_dir sc d d' : expands w sc d d' -> gives sc (interp_dir is show d) d'.
  Proof.
    intro H. destruct (gives_string w n sc d d' H) as (b & B & G). unfold interp_dir.
    eapply gives_bind; [ exact G | ]. cbn [fst snd]. destruct b; [ apply gives_ret | ].
    rewrite (B eq_refl). apply gives_ret.
  Qed.

  Lemma gives_function_resolve sc f n' : expands w sc (f_name f) n' ->
    gives sc (function_resolve is show f) (mk_fdef (f_kind f) n').
  Proof.
    intro H. destruct (gives_string w n sc _ _ H) as (b & B & G). unfold function_resolve.
    eapply gives_bind; [ exact G | ]. cbn [fst snd]. destruct b.
    - eapply gives_bind; [ apply gives_ret | apply gives_ret ].
    - rewrite (B eq_refl). destruct f. apply gives_ret.
  Qed.

  Lemma expands_plain sc t : ~ has "%{" t -> expands w sc t t.
  Proof.
    intro H. exists [], [], t. repeat split; try constructor.
    intros (a & b & c & E). apply H. exists a, (b ++ "}" ++ c)%string. exact E.
  Qed.

  Lemma gives_in_scope sc src v : variable sc src v -> gives sc (isc src) v.
  Proof.
    intros H s Hs Ho. exists s. split; [ | apply asked_refl ].
    inversion H as [x ps Hk Hg|x ps y z Hk Hg Hv Hp|x ps y Hk Hg Hv Hp]; subst; unfold isc.
    - exact (in_scope_unset _ _ _ _ _ _ Hk Hg).
    - rewrite (in_scope_set w (S n) false _ _ _ _ _ Ho Hk Hg Hv). apply dig_parts_path in Hp. rewrite Hp. reflexivity.
    - rewrite (in_scope_set w (S n) false _ _ _ _ _ Ho Hk Hg Hv).
      destruct (dig_parts ps y) as [z|] eqn:E; [ apply dig_parts_path in E; destruct (Hp _ E) | reflexivity ].
  Qed.

  Lemma mapped_elements v l : elements v l -> mapped_vars v = l.
  Proof.
    intros [t|l'| |v' H1 H2]; try reflexivity. destruct v'; try reflexivity; [ destruct (H1 _ eq_refl) | destruct (H2 _ eq_refl) ].
  Qed.

  Lemma gives_wv sc k v m a : gives (ScVar sc k v) m a -> gives sc (wv k v m) a.
  Proof.
    intros H s Hs Ho. unfold wv, bind, run_op. rewrite Hs. exact (gives_scope sc _ _ _ _ H s Hs Ho).
  Qed.

  Lemma gives_location sc dr l ls : locates w on_disk matching sc dr l ls ->
    gives sc (resolve_location is isc wv sta gl show dr l) ls.
  Proof.
    intros H. inversion H as [o r e t Ht|p t Ht|o r t Ht|src key template v l' ts Hv Hl Hts]; subst; cbn [resolve_location].
    - apply (gives_text _ _ _ _ _ _ Ht). eapply gives_bind; [ apply gives_stat | apply gives_ret ].
    - apply (gives_text _ _ _ _ _ _ Ht). eapply gives_bind; [ apply gives_glob | apply gives_ret ].
    - apply (gives_text _ _ _ _ _ _ Ht). apply gives_ret.
    - eapply gives_bind; [ exact (gives_in_scope _ _ _ Hv) | ]. rewrite (mapped_elements _ _ Hl). clear Hl Hv H.
      induction Hts as [|x t l' ts Hx _ IH]; cbn [resolve_mapped map]; [ apply gives_ret | ].
      eapply gives_bind.
      + apply gives_wv. apply (gives_text _ _ _ _ _ _ Hx). eapply gives_bind; [ apply gives_stat | apply gives_ret ].
      + eapply gives_bind; [ exact IH | apply gives_ret ].
  Qed.

  Lemma gives_all sc dr ls lss : Forall2 (locates w on_disk matching sc dr) ls lss ->
    gives sc (resolve_all is isc wv sta gl show dr ls) (concat lss).
  Proof.
    induction 1 as [|l x ls lss H _ IH]; cbn [resolve_all concat]; [ apply gives_ret | ].
    eapply gives_bind; [ exact (gives_location _ _ _ _ H) | ]. eapply gives_bind; [ exact IH | apply gives_ret ].
  Qed.

  Lemma gives_resolve_function sc d e f :
    match e_function e with
    | Some f0 => expands w sc (f_name f0) (f_name f) /\ f_kind f = f_kind f0
    | None => match d with Some d => e_function d | None => Some (mk_fdef KDataHash "yaml_data") end = Some f
    end ->
    gives sc (resolve_function is show d e) (set_function (Some f) e).
  Proof.
    intro H. unfold resolve_function. destruct (e_function e) as [f0|].
    - destruct H as [H1 H2]. eapply gives_bind.
      + eapply gives_bind; [ exact (gives_function_resolve _ _ _ H1) | apply gives_ret ].
      + rewrite <- H2. destruct f. apply gives_ret.
    - destruct d as [d|].
      + rewrite H. eapply gives_bind; [ apply gives_ret | ]. apply gives_ret.
      + injection H as <-. eapply gives_bind; [ apply gives_ret | ]. apply gives_ret.
  Qed.

  Lemma directory_cases sc d inh d' : directory w sc d inh d' -> (d <> "" /\ expands w sc d d') \/ (d = "" /\ d' = inh).
  Proof. intros [? ? ? H1 H2|]; auto. Qed.

  Lemma gives_entry sc root d e e' :
    entry_resolved w on_disk matching sc (w_env w) root d e e' ->
    gives sc (resolve_entry w (run w (S (S n))) root d e) e'.
  Proof.
    intros [Hn Hp (f & Ef & Pf & F) Hd (pd & Hpd & Ep) Ho Hl]. unfold resolve_entry.
    change (gives sc (entry_resolve is ivl isc wv sta gl show (w_env w) root d e) e'). unfold entry_resolve.
    eapply gives_bind; [ apply (gives_resolve_function sc d e f); exact F | ].
    eapply gives_bind with (a := set_datadir (e_datadir e') (set_function (Some f) e)).
    { unfold resolve_datadir. eapply gives_bind.
      { apply (gives_resolve_function sc d (set_function (Some f) e) f). cbn [set_function e_function].
        split; [ apply expands_plain; exact Pf | reflexivity ]. }
      cbn [set_function e_datadir].
      destruct (directory_cases _ _ _ _ Hd) as [[Hne Hx]|[E1 E2]].
      - destruct (String.eqb_spec (e_datadir e) "") as [C|_]; [ contradiction | ].
        eapply gives_bind; [ exact (gives_interp_dir _ _ _ Hx) | apply gives_ret ].
      - rewrite E1, E2. cbn [String.eqb]. destruct d; apply gives_ret. }
    eapply gives_bind with (a := set_plugindir (e_plugindir e') (set_datadir (e_datadir e') (set_function (Some f) e))).
    { unfold resolve_plugindir. rewrite Ep.
      eapply gives_bind with (a := pd); [ | unfold below; apply gives_ret ].
      cbn [set_datadir set_function e_plugindir].
      destruct (directory_cases _ _ _ _ Hpd) as [[Hne Hx]|[E1 E2]].
      - destruct (String.eqb_spec (e_plugindir e) "") as [C|_]; [ contradiction | ]. exact (gives_interp_dir _ _ _ Hx).
      - rewrite E1, E2. cbn [String.eqb]. destruct d; apply gives_ret. }
    eapply gives_bind with (a := set_options (e_options e') (set_plugindir (e_plugindir e') (set_datadir (e_datadir e') (set_function (Some f) e)))).
    { unfold resolve_options. cbn [set_plugindir set_datadir set_function e_options].
      destruct (e_options e) as [o|] eqn:Eo.
      - destruct Ho as (o' & Ho & ->). eapply gives_bind with (a := Some o'); [ | apply gives_ret ].
        destruct o as [|kv o].
        + inversion Ho as [| |m0 m' _ Hm|]; subst; [ inversion Hm; subst; apply gives_ret | ].
          match goal with H : forall m, VMap [] <> VMap m |- _ => destruct (H [] eq_refl) end.
        + destruct (gives_value w n sc _ _ Ho) as (b & B & G).
          eapply gives_bind with (a := Some (VMap o')); [ | apply gives_ret ].
          unfold ivl, interpolate. eapply gives_bind; [ exact G | ]. cbn [fst snd].
          destruct b; [ apply gives_ret | ]. rewrite (B eq_refl). apply gives_ret.
      - rewrite Ho. destruct d; (eapply gives_bind; [ apply gives_ret | apply gives_ret ]). }
    unfold resolve_locations. cbn [set_options set_plugindir set_datadir set_function e_locations e_datadir].
    destruct (e_locations e) as [ls|] eqn:El.
    - destruct Hl as (lss & Hl & El'). eapply gives_bind; [ exact (gives_all _ _ _ _ Hl) | ].
      replace e' with (set_locations (Some (concat lss)) (set_options (e_options e') (set_plugindir (e_plugindir e')
        (set_datadir (e_datadir e') (set_function (Some f) e))))); [ apply gives_ret | ].
      destruct e, e'; cbn in *; subst; reflexivity.
    - replace e' with (set_options (e_options e') (set_plugindir (e_plugindir e')
        (set_datadir (e_datadir e') (set_function (Some f) e)))) at 4; [ apply gives_ret | ].
      destruct e, e'; cbn in *; subst; reflexivity.
  Qed.
End Entry.

(** ** Providers *)

(** Questions were asked and providers made, with new identities. *)
Record made (s s' : st) : Prop := mk_made {
  m_iv : s_iv s' = s_iv s;
  m_configs : s_configs s' = s_configs s;
  m_shared : s_shared s' = s_shared s;
  m_next : s_next s <= s_next s';
  m_old : forall id, id < s_next s -> s_provs s' id = s_provs s id;
  m_new : forall id, s_next s <= id < s_next s' -> s_provs s' id = new_pstate;
  m_mods : s_mods s' = s_mods s;
  m_tpc : s_tpc s' = s_tpc s
}.

Lemma made_asked s s' : asked s s' -> made s s'.
Proof. intros [l ->]. constructor; try reflexivity. cbn. intros id H. lia. Qed.

Lemma made_trans s s' s'' : made s s' -> made s' s'' -> made s s''.
Proof.
  intros [A1 A2 A3 A4 A5 A6 A7 A8] [B1 B2 B3 B4 B5 B6 B7 B8]. constructor; try congruence; [ lia | | ].
  - intros id H. rewrite B5 by lia. apply A5. exact H.
  - intros id H. destruct (le_lt_dec (s_next s') id); [ apply B6; lia | ]. rewrite B5 by lia. apply A6. lia.
Qed.

(** New providers for some entries. *)
Record news (s s' : st) (es : list entry) (ps : list provider) : Prop := mk_news {
  n_entries : map p_entry ps = es;
  n_made : made s s';
  n_ids : Forall (fun p => s_next s <= p_id p < s_next s') ps;
  n_distinct : NoDup (map p_id ps)
}.

Section Providers.
  Variables (w : world) (n : nat) (on_disk : string -> bool) (matching : string -> list string).
  Hypothesis Hstat : forall t p, w_stat w t p = on_disk p.
  Hypothesis Hglob : forall t p, w_glob w t p = matching p.

  Lemma create_each_run sc root d : forall es es', 
    Forall2 (entry_resolved w on_disk matching sc (w_env w) root (Some d)) es es' ->
    forall s, iv_scope (s_iv s) = sc -> off s ->
    exists ps s', create_each w (run w (S (S n))) root d es s = (Ok ps, s') /\ news s s' es' ps.
  Proof.
    intros es es' H. induction H as [|e e' es es' He _ IH]; intros s Hs Ho.
    - exists [], s. split; [ reflexivity | ]. constructor; try constructor; try reflexivity; try lia.
    - cbn [create_each].
      destruct (gives_entry w n on_disk matching Hstat Hglob sc root (Some d) e e' He s Hs Ho) as (s1 & E1 & A1).
      unfold bind at 1. rewrite E1.
      pose proof (er_function _ _ _ _ _ _ _ _ _ He) as (f & Hf & _).
      unfold bind at 1. unfold create_provider. rewrite Hf. unfold bind at 1. unfold run_op at 1. unfold ret at 1.
      set (s2 := with_next (S (s_next s1)) (with_prov (s_next s1) new_pstate s1)).
      assert (M2 : made s1 s2).
      { constructor; try reflexivity; cbn; [ lia | | ].
        - intros id H. destruct (Nat.eqb_spec id (s_next s1)); [ lia | reflexivity ].
        - intros id H. destruct (Nat.eqb_spec id (s_next s1)); [ reflexivity | lia ]. }
      pose proof (made_trans _ _ _ (made_asked _ _ A1) M2) as M.
      destruct (IH s2) as (ps & s3 & E3 & [N1 N2 N3 N4]).
      + rewrite (m_iv _ _ M). exact Hs.
      + unfold off. rewrite (m_iv _ _ M). exact Ho.
      + unfold bind. rewrite E3. exists (mk_provider (s_next s1) e' :: ps), s3. split; [ reflexivity | ].
        assert (Ei : s_next s1 = s_next s) by (destruct A1 as [l ->]; reflexivity).
        pose proof (m_next _ _ N2) as Hn. change (s_next s2) with (S (s_next s1)) in *. rewrite Ei in *.
        constructor.
        * cbn [map p_entry]. rewrite N1. reflexivity.
        * exact (made_trans _ _ _ M N2).
        * constructor; cbn [p_id]; [ lia | ]. eapply Forall_impl; [ | exact N3 ]. cbn. intros; lia.
        * cbn [map p_id]. constructor; [ | exact N4 ]. intro C. apply in_map_iff in C as (p & Ep & Hp).
          pose proof (proj1 (Forall_forall _ _) N3 p Hp) as C. cbn in C. lia.
  Qed.

  Lemma create_providers_run sc c es d es' :
    entry_resolved w on_disk matching sc (w_env w) (c_root c) None (c_defaults c) d ->
    Forall2 (entry_resolved w on_disk matching sc (w_env w) (c_root c) (Some d)) es es' ->
    forall s, iv_scope (s_iv s) = sc -> off s ->
    exists ps s', create_providers w (run w (S (S n))) c es s = (Ok ps, s') /\ news s s' es' ps.
  Proof.
    intros Hd He s Hs Ho. unfold create_providers.
    destruct (gives_entry w n on_disk matching Hstat Hglob sc (c_root c) None (c_defaults c) d Hd s Hs Ho) as (s1 & E1 & A1).
    unfold bind. rewrite E1.
    destruct (create_each_run sc (c_root c) d es es' He s1) as (ps & s2 & E2 & [N1 N2 N3 N4]).
    - rewrite (asked_iv _ _ A1). exact Hs.
    - unfold off. rewrite (asked_iv _ _ A1). exact Ho.
    - exists ps, s2. split; [ exact E2 | ]. assert (Ei : s_next s1 = s_next s) by (destruct A1 as [l ->]; reflexivity).
      rewrite Ei in *. constructor; try assumption. exact (made_trans _ _ _ (made_asked _ _ A1) N2).
  Qed.
End Providers.
