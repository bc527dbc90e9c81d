(** Facts about the lookup command and the REST service for any names and any
    outcome of their lookups. *)

From Coq Require Import String Ascii List ZArith Bool Arith Lia.
From Verif Require Import Str Value Outcome Key Merge Fpath Config Ipl Explain State Engine Session Api Rest Cmd
  SpecKey SpecKeyErr SpecConfig SpecLookup SpecFail SpecMux SpecMany SpecWorld SpecDeep SpecApi SpecPrograms
  KeyFacts KeyErrFacts ValueFacts StrFacts IplExact Fuel P_Api P_Command P_Rest P_Cmd P_FromFiles.
Import ListNotations.
Open Scope nat_scope.
Open Scope string_scope.
Open Scope list_scope.

Lemma same_failure_not {A B} (o : outcome A) (o' : outcome B) : same_failure o o' -> forall a, o <> Ok a.
Proof. intros [x|] a; discriminate. Qed.
Lemma same_failure_ends {A B} (o : outcome A) (o' : outcome B) : same_failure o o' -> forall b, o' <> Ok b.
Proof. intros [x|] a; discriminate. Qed.
Lemma same_failure_bind {A B} (m : M st A) (f : A -> M st B) s o o' s' : m s = (o, s') -> same_failure o o' -> bind m f s = (o', s').
Proof. intros E H. unfold bind. rewrite E. destruct H; reflexivity. Qed.
Lemma same_failure_self {A} (o : outcome A) : (forall a, o <> Ok a) -> o <> NoFuel -> same_failure o o.
Proof. intros H N. destruct o as [a|x| |]; [ destruct (H a eq_refl) | constructor | constructor | contradiction ]. Qed.

(** ** What a run comes to, or, if [loose], that it needs more steps *)
Definition comes_to {A} (loose : Prop) (P Q : st -> Prop) (m : M st A) (s : st) (o : outcome A) : Prop :=
  (loose /\ fst (m s) = NoFuel) \/ exists s', m s = (o, s') /\ P s' /\ forall v, o = Ok v -> Q s'.

Lemma comes_bind {A B} loose (P Q R : st -> Prop) (m : M st A) (f : A -> M st B) s a o :
  comes_to loose P Q m s (Ok a) -> (forall s', P s' -> Q s' -> comes_to loose P R (f a) s' o) -> comes_to loose P R (bind m f) s o.
Proof.
  intros [[L E]|(s1 & E & H1 & H2)] H.
  - left. split; [ exact L | ]. unfold bind. destruct (m s) as [r s']. cbn in E. subst r. reflexivity.
  - destruct (H s1 H1 (H2 a eq_refl)) as [[L E']|(s2 & E' & H3)].
    + left. split; [ exact L | ]. unfold bind. rewrite E. exact E'.
    + right. exists s2. split; [ | exact H3 ]. unfold bind. rewrite E. exact E'.
Qed.
Lemma comes_fails {A B} loose (P Q R : st -> Prop) (m : M st A) (f : A -> M st B) s o o' :
  comes_to loose P Q m s o -> same_failure o o' -> comes_to loose P R (bind m f) s o'.
Proof.
  intros [[L E]|(s1 & E & H1 & H2)] H.
  - left. split; [ exact L | ]. unfold bind. destruct (m s) as [r s']. cbn in E. subst r. reflexivity.
  - right. exists s1. split; [ exact (same_failure_bind m f s o o' s1 E H) | ]. split; [ exact H1 | ]. intros v ->. destruct (same_failure_ends _ _ H v eq_refl).
Qed.
Lemma comes_lift {A} loose (P Q : st -> Prop) (o : outcome A) s : P s -> Q s -> comes_to loose P Q (lift o) s o.
Proof. intros H1 H2. right. exists s. auto. Qed.

Lemma ran_out {A B} (m : M st A) (f : A -> M st B) s : fst (m s) = NoFuel -> fst (bind m f s) = NoFuel.
Proof. unfold bind. destruct (m s) as [o s']. cbn. intros ->. reflexivity. Qed.

Section Names.
  Variables (loose : Prop) (P Q : st -> Prop) (ask : string -> M st (option value)) (other : key -> outcome (option value) -> Prop).
  Hypothesis HPQ : forall s, Q s -> P s.
  Hypothesis Hone : forall name o s, name_comes other name o -> Q s -> comes_to loose P Q (ask name) s o.

  Lemma first_run names : forall o s, first_comes other names o -> Q s -> comes_to loose P Q (ask_each ask names) s o.
  Proof.
    intros o s H. revert s. induction H as [|n l v H|n l o H _ IH|n l o o' H Hf]; intros s Hs.
    - right. exists s. auto.
    - cbn [ask_each]. apply (comes_bind loose P Q Q _ _ s (Some v)); [ exact (Hone _ _ _ H Hs) | ]. intros s' H1 H2. apply (comes_lift _ _ _ (Ok (Some v))); auto.
    - cbn [ask_each]. apply (comes_bind loose P Q Q _ _ s None); [ exact (Hone _ _ _ H Hs) | ]. intros s' _ H2. exact (IH s' H2).
    - cbn [ask_each]. exact (comes_fails _ _ _ _ _ _ s _ _ (Hone _ _ _ H Hs) Hf).
  Qed.

  Context {T : Type}.
  Variable inst : T -> option value -> bool.
  Variable conv : T -> option value -> outcome (option value).

  (** One entry. *)
  Definition entry_step (types : option (list (string * T))) (n : string) : M st (option value) :=
    bind (ask n) (fun found => match found with
      | Some v => bind (lift (ensure_type_from_map inst conv types n v)) (fun x => ret (Some (or_null x)))
      | None => ret None end).

  Lemma all_step types n r resp s :
    all_of inst conv ask (n :: r) types None None resp s =
    bind (entry_step types n) (fun e => match e with
      | Some v => all_of inst conv ask r types None None (mput (VStr n) v resp)
      | None => all_of inst conv ask r types None None resp end) s.
  Proof.
    cbn [all_of lookup_in_map]. unfold entry_step, bind, lift, ret.
    destruct (ask n s) as [[[v|]|x| |] s']; try reflexivity.
    destruct (ensure_type_from_map inst conv types n v); reflexivity.
  Qed.

  Lemma entry_ensured types n t v r : entry_type types n t -> of_type inst conv t (Some v) r -> ensure_type_from_map inst conv types n v = r.
  Proof.
    intros [->|pre t' post -> N] H.
    - inversion H; reflexivity.
    - assert (F : find (fun e : string * T => String.eqb (fst e) n) (pre ++ (n, t') :: post) = Some (n, t')).
      { induction pre as [|[a b] pre IH]; cbn [app find fst]; [ rewrite String.eqb_refl; reflexivity | ].
        destruct (String.eqb_spec a n) as [->|_]; [ elim N; left; reflexivity | ]. apply IH. intro I. apply N. right. exact I. }
      cbn [ensure_type_from_map]. rewrite F. cbn [snd ensure_type]. inversion H as [|t0 v0 E|t0 v0 r0 E C]; subst; rewrite E; reflexivity.
  Qed.
  Lemma entry_untyped l n v : ~ In n (map fst l) ->
    ensure_type_from_map inst conv (Some l) n v = Panic (EErr ("key '" ++ n ++ "' was not found in the type map")).
  Proof.
    intro N. assert (F : find (fun e : string * T => String.eqb (fst e) n) l = None).
    { induction l as [|[a b] l IH]; [ reflexivity | ]. cbn [find fst]. destruct (String.eqb_spec a n) as [->|_]; [ elim N; left; reflexivity | ].
      apply IH. intro I. apply N. right. exact I. }
    cbn [ensure_type_from_map]. rewrite F. reflexivity.
  Qed.

  Lemma entry_run types n o s : entry_comes other inst conv types n o -> Q s -> comes_to loose P Q (entry_step types n) s o.
  Proof.
    intros H Hs. unfold entry_step. destruct H as [H|o o' H Hf|v t r H Ht Ho|v t r o H Ht Ho Hf|v l H -> N].
    - apply (comes_bind loose P Q Q _ _ s None); [ exact (Hone _ _ _ H Hs) | ]. intros s' H1 H2. apply (comes_lift _ _ _ (Ok None)); auto.
    - exact (comes_fails _ _ _ _ _ _ s _ _ (Hone _ _ _ H Hs) Hf).
    - apply (comes_bind loose P Q Q _ _ s (Some v)); [ exact (Hone _ _ _ H Hs) | ]. intros s' H1 H2.
      rewrite (entry_ensured types n t v (Ok r) Ht Ho). right. exists s'. auto.
    - apply (comes_bind loose P Q Q _ _ s (Some v)); [ exact (Hone _ _ _ H Hs) | ]. intros s' H1 H2.
      rewrite (entry_ensured types n t v r Ht Ho). apply (comes_fails loose P Q Q _ _ s' r o); [ apply comes_lift; auto | exact Hf ].
    - apply (comes_bind loose P Q Q _ _ s (Some v)); [ exact (Hone _ _ _ H Hs) | ]. intros s' H1 H2.
      rewrite (entry_untyped l n v N). right. exists s'. split; [ reflexivity | ]. split; [ exact H1 | discriminate ].
  Qed.

  Lemma all_map types shown : forall names done s,
    (forall n, In n names -> entry_comes other inst conv types n (Ok (shown n))) -> Q s ->
    comes_to loose P Q (all_of inst conv ask names types None None (map (fun n => (VStr n, match shown n with Some v => v | None => VNil end)) done)) s
      (Ok (map (fun n => (VStr n, match shown n with Some v => v | None => VNil end))
        (fold_left (fun acc n => acc ++ if existsb (String.eqb n) acc then [] else [n])
           (filter (fun n => match shown n with Some _ => true | None => false end) names) done))).
  Proof.
    induction names as [|n names IH]; intros done s He Hs; [ right; exists s; auto | ].
    assert (G : comes_to loose P Q (bind (entry_step types n) (fun e => match e with
        | Some v => all_of inst conv ask names types None None (mput (VStr n) v (map (fun n => (VStr n, match shown n with Some v => v | None => VNil end)) done))
        | None => all_of inst conv ask names types None None (map (fun n => (VStr n, match shown n with Some v => v | None => VNil end)) done) end)) s
      (Ok (map (fun n => (VStr n, match shown n with Some v => v | None => VNil end))
        (fold_left (fun acc n => acc ++ if existsb (String.eqb n) acc then [] else [n])
           (filter (fun n => match shown n with Some _ => true | None => false end) (n :: names)) done)))).
    { apply (comes_bind loose P Q Q _ _ s (shown n)); [ exact (entry_run types n _ s (He n (or_introl eq_refl)) Hs) | ]. intros s' _ Hs'.
      cbn [filter]. destruct (shown n) as [v|] eqn:E.
      - pose proof (put_shown (fun n => match shown n with Some v => v | None => VNil end) n done) as K. cbv beta in K. rewrite E in K. rewrite K. cbn [fold_left].
        apply IH; [ intros m I; apply He; right; exact I | exact Hs' ].
      - apply IH; [ intros m I; apply He; right; exact I | exact Hs' ]. }
    unfold comes_to in *. rewrite all_step. exact G.
  Qed.

  Lemma all_stops types n post o o' : entry_comes other inst conv types n o -> same_failure o o' -> forall pre resp s,
    (forall m, In m pre -> exists v, entry_comes other inst conv types m (Ok v)) -> Q s ->
    comes_to loose P Q (all_of inst conv ask (pre ++ n :: post) types None None resp) s o'.
  Proof.
    intros He Hf. induction pre as [|m pre IH]; intros resp s Hp Hs; unfold comes_to; cbn [app]; rewrite all_step.
    - exact (comes_fails _ _ _ _ _ _ s _ _ (entry_run types n o s He Hs) Hf).
    - destruct (Hp m (or_introl eq_refl)) as (v & Hv).
      apply (comes_bind loose P Q Q _ _ s v); [ exact (entry_run types m _ s Hv Hs) | ]. intros s' _ Hs'.
      destruct v as [v|]; apply IH; try exact Hs'; intros x I; apply Hp; right; exact I.
  Qed.

  Lemma all_run types names o s : all_come other inst conv types names o -> Q s ->
    comes_to loose P Q (bind (lookup_all inst conv ask names types None None) (fun v => ret (Some v))) s o.
  Proof.
    intros [shown He|pre n post o1 o' -> Hp He Hf] Hs.
    - unfold lookup_all.
      assert (K : comes_to loose P Q (bind (all_of inst conv ask names types None None []) (fun m => ret (VMap m))) s
        (Ok (VMap (map (fun n => (VStr n, match shown n with Some v => v | None => VNil end))
        (firsts (filter (fun n => match shown n with Some _ => true | None => false end) names)))))).
      { eapply comes_bind; [ exact (all_map types shown names [] s He Hs) | ]. intros s' H1 H2.
        rewrite firsts_app. cbn [existsb negb app].
        match goal with |- context [filter (fun _ => true) ?l] => replace (filter (fun _ => true) l) with l end.
        - right. exists s'. auto.
        - match goal with |- ?l = _ => induction l as [|y q IHq]; [ reflexivity | ] end. cbn [filter]. f_equal. exact IHq. }
      eapply comes_bind; [ exact K | ]. intros s' H1 H2. right. exists s'. auto.
    - unfold lookup_all. destruct Hf as [x|].
      + apply (comes_fails loose P Q Q _ _ s (Panic x)); [ | constructor ]. apply (comes_fails loose P Q Q _ _ s (Panic x)); [ | constructor ].
        exact (all_stops types n post _ _ He (sf_panic x) pre [] s Hp Hs).
      + apply (comes_fails loose P Q Q _ _ s Hang); [ | constructor ]. apply (comes_fails loose P Q Q _ _ s Hang); [ | constructor ].
        exact (all_stops types n post _ _ He sf_hang pre [] s Hp Hs).
  Qed.
End Names.

Section Total.
  Variables (P Q : st -> Prop) (ask : string -> M st (option value)) (other : key -> outcome (option value) -> Prop).
  Hypothesis HPQ : forall s, Q s -> P s.
  Hypothesis Hone : forall name o s, name_comes other name o -> Q s -> comes_to True P Q (ask name) s o.
  Hypothesis Hends : forall name o, name_comes other name o -> o <> NoFuel.
  Hypothesis Htotal : forall name s, Q s -> fst (ask name s) = NoFuel \/ exists o, name_comes other name o.

  Lemma first_total names : forall s, Q s -> fst (ask_each ask names s) = NoFuel \/ exists o, first_comes other names o.
  Proof.
    induction names as [|n l IH]; intros s Hs; [ right; exists (Ok None); constructor | ]. cbn [ask_each].
    destruct (Htotal n s Hs) as [E|(o & Ho)]; [ left; exact (ran_out _ _ s E) | ].
    destruct (Hone n o s Ho Hs) as [[_ E]|(s' & E & _ & HQ)]; [ left; exact (ran_out _ _ s E) | ].
    destruct o as [[v|]|x| |].
    - right. exists (Ok (Some v)). exact (fc_found _ _ _ _ Ho).
    - destruct (IH s' (HQ _ eq_refl)) as [E'|(o & Ho')].
      + left. unfold bind. rewrite E. exact E'.
      + right. exists o. exact (fc_next _ _ _ _ Ho Ho').
    - right. exists (Panic x). exact (fc_fails _ _ _ _ _ Ho (sf_panic x)).
    - right. exists Hang. exact (fc_fails _ _ _ _ _ Ho sf_hang).
    - destruct (Hends _ _ Ho eq_refl).
  Qed.

  Lemma first_ends names o : first_comes other names o -> o <> NoFuel.
  Proof.
    induction 1 as [|n l v H|n l o H _ IH|n l o o' H Hf]; try discriminate; [ exact IH | ]. destruct Hf; discriminate.
  Qed.

  Context {T : Type}.
  Variable inst : T -> option value -> bool.
  Variable conv : T -> option value -> outcome (option value).
  Hypothesis Hconv : forall t v, works (conv t v).

  Lemma typed_works t v : exists r, of_type inst conv t v r /\ works r.
  Proof.
    destruct t as [t|]; [ | exists (Ok v); split; [ constructor | left; eauto ] ].
    destruct (inst t v) eqn:E; [ exists (Ok v); split; [ apply ot_instance; exact E | left; eauto ] | ].
    exists (conv t v). split; [ exact (ot_converted _ _ _ _ _ E eq_refl) | apply Hconv ].
  Qed.

  Lemma entry_type_total (types : option (list (string * T))) n : (exists t, entry_type types n t) \/ exists l, types = Some l /\ ~ In n (map fst l).
  Proof.
    destruct types as [l|]; [ | left; exists None; constructor; reflexivity ].
    induction l as [|[a b] l IH]; [ right; exists []; split; [ reflexivity | intros [] ] | ].
    destruct (String.eqb_spec a n) as [->|N]; [ left; exists (Some b); apply (et_typed _ n [] b l); [ reflexivity | intros [] ] | ].
    destruct IH as [(t & Ht)|(l' & E & Nl)].
    - left. exists t. inversion Ht as [E|pre t' post E Np]; subst; [ discriminate E | ]. injection E as ->.
      apply (et_typed _ n ((a, b) :: pre) t' post); [ reflexivity | ]. cbn. intros [I|I]; [ exact (N I) | exact (Np I) ].
    - injection E as <-. right. exists ((a, b) :: l). split; [ reflexivity | ]. cbn. intros [I|I]; [ exact (N I) | exact (Nl I) ].
  Qed.

  Lemma entry_ends types n o : entry_comes other inst conv types n o -> o <> NoFuel.
  Proof. intros [H|o0 o' H Hf|v t r H Ht Ho|v t r o0 H Ht Ho Hf|v l H E N]; try discriminate; destruct Hf; discriminate. Qed.

  Lemma entry_total types n s : Q s -> fst (entry_step ask inst conv types n s) = NoFuel \/ exists o, entry_comes other inst conv types n o.
  Proof.
    intro Hs. unfold entry_step. destruct (Htotal n s Hs) as [E|(o & Ho)]; [ left; exact (ran_out _ _ s E) | ]. right.
    destruct o as [[v|]|x| |].
    - destruct (entry_type_total types n) as [(t & Ht)|(l & E & Nl)]; [ | eexists; exact (ec_untyped _ _ _ _ _ v l Ho E Nl) ].
      destruct (typed_works t (Some v)) as (r & Hr & [(a & ->)|(x & ->)]); [ eexists; exact (ec_value _ _ _ _ _ v t a Ho Ht Hr) | ].
      eexists. exact (ec_no_such _ _ _ _ _ v t _ _ Ho Ht Hr (sf_panic x)).
    - eexists. exact (ec_nothing _ _ _ _ _ Ho).
    - eexists. exact (ec_fails _ _ _ _ _ _ _ Ho (sf_panic x)).
    - eexists. exact (ec_fails _ _ _ _ _ _ _ Ho sf_hang).
    - destruct (Hends _ _ Ho eq_refl).
  Qed.

  Lemma all_total types names : forall resp s, Q s -> fst (all_of inst conv ask names types None None resp s) = NoFuel \/
    (exists shown, forall n, In n names -> entry_comes other inst conv types n (Ok (shown n))) \/
    (exists pre n post o (o' : outcome (option value)), names = pre ++ n :: post /\ (forall m, In m pre -> exists v, entry_comes other inst conv types m (Ok v)) /\
       entry_comes other inst conv types n o /\ same_failure o o').
  Proof.
    induction names as [|n names IH]; intros resp s Hs; [ right; left; exists (fun _ => None); intros n [] | ].
    rewrite all_step. destruct (entry_total types n s Hs) as [E|(o & Ho)]; [ left; exact (ran_out _ _ s E) | ].
    destruct (entry_run True P Q ask other Hone inst conv types n o s Ho Hs) as [[_ E]|(s' & E & _ & HQ)]; [ left; exact (ran_out _ _ s E) | ].
    destruct o as [v|x| |].
    - assert (K : forall resp', fst (all_of inst conv ask names types None None resp' s') = NoFuel \/
        (exists shown, forall m, In m (n :: names) -> entry_comes other inst conv types m (Ok (shown m))) \/
        (exists pre m post o (o' : outcome (option value)), n :: names = pre ++ m :: post /\ (forall m, In m pre -> exists v, entry_comes other inst conv types m (Ok v)) /\
           entry_comes other inst conv types m o /\ same_failure o o')).
      { intro resp'. destruct (IH resp' s' (HQ v eq_refl)) as [E'|[(shown & H)|(pre & m & post & o & o' & -> & Hp & Hm & Hf)]]; [ left; exact E' | right; left | right; right ].
        - exists (fun m => if String.eqb m n then v else shown m). intros m I.
          destruct (String.eqb_spec m n) as [->|Nm]; [ exact Ho | ]. destruct I as [I|I]; [ congruence | exact (H m I) ].
        - exists (n :: pre), m, post, o, o'. split; [ reflexivity | ]. split; [ | split; [ exact Hm | exact Hf ] ].
          intros y [<-|I]; [ exists v; exact Ho | exact (Hp y I) ]. }
      destruct v as [v|]; [ destruct (K (mput (VStr n) v resp)) as [E'|K'] | destruct (K resp) as [E'|K'] ]; try (right; exact K');
        left; unfold bind; rewrite E; exact E'.
    - right. right. exists [], n, names, (Panic x), (Panic x). split; [ reflexivity | ]. split; [ intros m [] | ]. split; [ exact Ho | constructor ].
    - right. right. exists [], n, names, Hang, Hang. split; [ reflexivity | ]. split; [ intros m [] | ]. split; [ exact Ho | constructor ].
    - destruct (entry_ends _ _ _ Ho eq_refl).
  Qed.

  Lemma all_comes types names s : Q s ->
    fst (bind (lookup_all inst conv ask names types None None) (fun v => ret (Some v)) s) = NoFuel \/ exists o, all_come other inst conv types names o.
  Proof.
    intro Hs. destruct (all_total types names [] s Hs) as [E|[(shown & H)|(pre & n & post & o & o' & E & Hp & Hn & Hf)]].
    - left. apply ran_out. unfold lookup_all. apply ran_out. exact E.
    - right. eexists. exact (al_map _ _ _ _ _ shown H).
    - right. exists o'. exact (al_fails _ _ _ _ _ pre n post o o' E Hp Hn Hf).
  Qed.
End Total.

Section Look.
  Context {T : Type}.
  Variable inst : T -> option value -> bool.
  Variable conv : T -> option value -> outcome (option value).
  Variable any : T.
  Variable parse_type : string -> outcome T.
  Variable struct_of : T -> option (list (string * T)).
  Variable parse : string -> outcome value.
  Variable file : string -> var_file.
  Variable stdin : var_file.
  Variable render : string -> value -> outcome string.
  Variable render_explainer : string -> M st string.
  Variable session : scope.
  Variable ask_with : option entries -> string -> M st (option value).

  Notation look := (lookup_and_render inst conv any parse_type struct_of parse file stdin (engine_invoke session) ask_with render render_explainer).
  Notation scope_for opts := (create_scope parse file (co_variables opts) (co_var_paths opts) (co_fact_paths opts) stdin).
  Notation looking keys := (looked_up inst conv any parse_type struct_of parse file stdin render keys session).

  (** The lookups, when everything else is in order. *)
  Definition find_step (mo : option entries) (opts : command_options) (args : list string) (t : T) (dv : option value) : M st (option value) :=
    if co_lookup_all opts then
      match struct_of t with
      | None => if String.eqb (co_type opts) "" then bind (lookup_all inst conv (ask_with mo) args None None None) (fun v => ret (Some v))
                else panic (EErr "type must be a map")
      | Some st => bind (lookup_all inst conv (ask_with mo) args (Some st) None None) (fun v => ret (Some v))
      end
    else lookup2 inst conv (ask_with mo) args (Some t) dv None None None.
  Definition write_step (format : string) (found : option value) : M st (bool * string) :=
    match found with
    | None => ret (false, "")
    | Some v => bind (lift (render format v)) (fun out => ret (true, out))
    end.
  Definition format_of (opts : command_options) : string := if String.eqb (co_render_as opts) "" then "yaml" else co_render_as opts.

  Lemma type_asked opts t : asked_type any parse_type opts t -> (if String.eqb (co_type opts) "" then Ok any else parse_type (co_type opts)) = Ok t.
  Proof. intros [(-> & ->)|(N & E)]; [ reflexivity | ]. destruct (String.eqb_spec (co_type opts) ""); [ contradiction | exact E ]. Qed.
  Lemma default_asked opts dv : asked_default parse opts dv ->
    match co_default opts with
    | None => Ok None
    | Some s => if String.eqb s "" then Ok (Some (VStr "")) else omap Some (parse_command_line_value parse s)
    end = Ok dv.
  Proof.
    unfold asked_default. destruct (co_default opts) as [d|]; [ | intros ->; reflexivity ].
    destruct (String.eqb d ""); [ intros ->; reflexivity | ]. intros (x & -> & C). apply (command_value_ok _ file) in C. rewrite C. reflexivity.
  Qed.
  Lemma merge_asked opts mo : asked_merge opts mo ->
    (if (String.eqb (co_merge opts) "" || String.eqb (co_merge opts) "first")%bool then @None entries else Some [(VStr "merge", VStr (co_merge opts))]) = mo.
  Proof.
    intros [I|N].
    - destruct I as [<-|[<-|[]]]; reflexivity.
    - destruct (String.eqb_spec (co_merge opts) "") as [Y|N1]; [ elim N; left; congruence | ].
      destruct (String.eqb_spec (co_merge opts) "first") as [Y|N2]; [ elim N; right; left; congruence | reflexivity ].
  Qed.
  Lemma starts_with c r d : (c = "{"%char \/ c = "["%char \/ c = """"%char \/ c = "'"%char) -> trim_space d = String c r ->
    parse_command_line_value parse d = parse (trim_space d) /\ d <> "".
  Proof.
    intros Hc E. split; [ | intros ->; discriminate E ]. unfold parse_command_line_value. cbv zeta.
    assert (H : has_prefix (String c "") (trim_space d) = true) by (apply (has_prefix_char c); exists r; exact E).
    destruct Hc as [->|[->|[->| ->]]]; rewrite H, ?orb_true_r; reflexivity.
  Qed.

  Lemma look_early opts args x s : co_type opts <> "" /\ parse_type (co_type opts) = Panic x \/
    (exists t, asked_type any parse_type opts t /\ default_fails parse opts x) \/
    (exists t dv, asked_type any parse_type opts t /\ asked_default parse opts dv /\ scope_for opts = Panic x) ->
    look opts args s = (Panic x, s).
  Proof.
    unfold lookup_and_render. intros [[N E]|[(t & Ht & d & c & r & Ed & Et & Hc & Ep)|(t & dv & Ht & Hd & E)]].
    - apply String.eqb_neq in N. rewrite N, E. reflexivity.
    - rewrite (type_asked opts t Ht). unfold bind at 1, lift at 1. rewrite Ed. destruct (starts_with c r d Hc Et) as [Ed' Nd].
      apply String.eqb_neq in Nd. rewrite Nd, Ed', Ep. reflexivity.
    - rewrite (type_asked opts t Ht). unfold bind at 1, lift at 1. rewrite (default_asked opts dv Hd). unfold bind at 1, lift at 1. rewrite E. reflexivity.
  Qed.

  Lemma look_late opts args t dv vars mo s : co_explain_data opts = false -> co_explain_options opts = false ->
    asked_type any parse_type opts t -> asked_default parse opts dv -> scope_for opts = Ok vars -> asked_merge opts mo ->
    look opts args s = bind (find_step mo opts args t dv) (write_step (format_of opts)) (invocation (ScNest session vars) false s).
  Proof.
    intros X1 X2 Ht Hd Hv Hm. unfold lookup_and_render. rewrite (type_asked opts t Ht). unfold bind at 1, lift at 1.
    rewrite (default_asked opts dv Hd). unfold bind at 1, lift at 1. rewrite Hv. unfold bind at 1, lift at 1.
    rewrite X1, X2. cbn [orb]. unfold bind at 1, engine_invoke at 1. cbv zeta. rewrite (merge_asked opts mo Hm). reflexivity.
  Qed.

  Hypothesis Hconv : forall t v, works (conv t v).
  Hypothesis Htypes : forall t, works (parse_type t).
  Hypothesis Hparse : forall t, works (parse t).
  Hypothesis Hrender : forall f v, works (render f v).

  Lemma value_works d : works (parse_command_line_value parse d).
  Proof.
    unfold parse_command_line_value. match goal with |- works (if ?b then _ else _) => destruct b end; [ apply Hparse | left; eauto ].
  Qed.
  Lemma paths_work paths : forall s m, works (add_var_paths file paths s m).
  Proof.
    induction paths as [|p paths IH]; intros s m; [ left; eexists; reflexivity | ]. cbn [add_var_paths].
    destruct (if String.eqb p "-" then s else file p); [ right; eauto | apply IH | apply IH | right; eauto ].
  Qed.
  Lemma scope_works opts : works (scope_for opts).
  Proof.
    unfold create_scope.
    assert (V : forall l m, works (add_variables parse l m)).
    { induction l as [|e l IH]; intro m; [ left; eexists; reflexivity | ]. cbn [add_variables].
      destruct (var_split e) as [[k v]|]; [ | right; eexists; reflexivity ].
      destruct (value_works v) as [(a & E)|(x & E)]; rewrite E; [ apply IH | right; exists x; reflexivity ]. }
    destruct (V (co_variables opts) []) as [(m & E)|(x & E)]; rewrite E; [ cbn [obind] | right; exists x; reflexivity ].
    destruct (paths_work (co_var_paths opts) stdin m) as [(ms & E2)|(x & E2)]; rewrite E2; [ cbn [obind] | right; exists x; reflexivity ].
    destruct (co_fact_paths opts) as [|p l]; [ left; eexists; reflexivity | ].
    destruct (paths_work (p :: l) (snd ms) []) as [(fs & E3)|(x & E3)]; rewrite E3; [ left; eexists; reflexivity | right; exists x; reflexivity ].
  Qed.

  Lemma merge_total opts : exists mo, asked_merge opts mo.
  Proof.
    destruct (in_dec String.string_dec (co_merge opts) [""; "first"]) as [I|N]; eexists; [ apply am_none; exact I | apply am_some; exact N ].
  Qed.

  (** Something is not in order before the lookups, or everything is. *)
  Lemma look_cases opts args :
    (exists x, (forall s, look opts args s = (Panic x, s)) /\ forall keys, looking keys opts args (Panic x)) \/
    exists t dv vars mo, asked_type any parse_type opts t /\ asked_default parse opts dv /\ scope_for opts = Ok vars /\ asked_merge opts mo.
  Proof.
    assert (Ht : (exists t, asked_type any parse_type opts t) \/ exists x, co_type opts <> "" /\ parse_type (co_type opts) = Panic x).
    { destruct (String.eqb_spec (co_type opts) "") as [Y|N]; [ left; exists any; left; auto | ].
      destruct (Htypes (co_type opts)) as [(t & E)|(x & E)]; [ left; exists t; right; auto | right; exists x; auto ]. }
    destruct Ht as [(t & Ht)|(x & N & E)].
    2: { left. exists x. split; [ intro s; apply look_early; left; auto | intro keys; apply lu_type; assumption ]. }
    assert (Hd : (exists dv, asked_default parse opts dv) \/ exists x, default_fails parse opts x).
    { unfold asked_default, default_fails. destruct (co_default opts) as [d|]; [ | left; eauto ].
      destruct (String.eqb_spec d "") as [Y|N]; [ left; eauto | ].
      destruct (value_works d) as [(a & E)|(x & E)].
      - left. exists (Some a), a. split; [ reflexivity | ]. exact (proj1 (command_value_ok _ file _ _) E).
      - right. unfold parse_command_line_value in E. cbv zeta in E.
        match type of E with (if ?b then _ else _) = _ => destruct b eqn:B end; [ | discriminate E ].
        assert (C : exists c r, trim_space d = String c r /\ (c = "{"%char \/ c = "["%char \/ c = """"%char \/ c = "'"%char)).
        { rewrite !orb_true_iff in B. destruct B as [[[B|B]|B]|B].
          - apply (has_prefix_char "{") in B. destruct B as [r B]. eauto 6.
          - apply (has_prefix_char "[") in B. destruct B as [r B]. eauto 6.
          - apply (has_prefix_char """") in B. destruct B as [r B]. eauto 8.
          - apply (has_prefix_char "'") in B. destruct B as [r B]. eauto 8. }
        destruct C as (c & r & C1 & C2). exists x, d, c, r. auto. }
    destruct Hd as [(dv & Hd)|(x & Hx)].
    2: { left. exists x. split; [ intro s; apply look_early; right; left; eauto | intro keys; exact (lu_default _ _ _ _ _ _ _ _ _ _ _ _ _ t x Ht Hx) ]. }
    destruct (scope_works opts) as [(vars & Hv)|(x & Hx)].
    2: { left. exists x. split; [ intro s; apply look_early; right; right; eauto | intro keys; exact (lu_scope _ _ _ _ _ _ _ _ _ _ _ _ _ t dv x Ht Hd Hx) ]. }
    right. destruct (merge_total opts) as (mo & Hm). exists t, dv, vars, mo. auto.
  Qed.

  (** *** What is found and written *)
  Section Found.
    Variables (loose : Prop) (P Q : st -> Prop) (mo : option entries) (other : key -> outcome (option value) -> Prop).
    Hypothesis HPQ : forall s, Q s -> P s.
    Hypothesis Hone : forall name o s, name_comes other name o -> Q s -> comes_to loose P Q (ask_with mo name) s o.

    Lemma ensured t v r : of_type inst conv t v r -> ensure_type inst conv t v = r.
    Proof. intros [v0|t0 v0 E|t0 v0 r0 E C]; cbn [ensure_type]; rewrite ?E; auto. Qed.

    Lemma found_run opts args t dv o s : found_comes inst conv struct_of other opts args t dv o -> Q s ->
      comes_to loose P Q (find_step mo opts args t dv) s o.
    Proof.
      intros H Hs. unfold find_step. destruct H as [v r L Hf Ho|v r L Hf -> Ho|L Hf ->|o o' L Hf Hsf|o L Hc Ha|L N E]; rewrite L.
      - unfold lookup2. cbn [lookup_in_map]. apply (comes_bind loose P Q Q _ _ s (Some v)); [ exact (first_run loose P Q _ other HPQ Hone args _ s Hf Hs) | ].
        intros s' H1 H2. rewrite (ensured _ _ _ Ho). apply comes_lift; auto.
      - unfold lookup2. cbn [lookup_in_map]. apply (comes_bind loose P Q Q _ _ s None); [ exact (first_run loose P Q _ other HPQ Hone args _ s Hf Hs) | ].
        intros s' H1 H2. rewrite (ensured _ _ _ Ho). apply comes_lift; auto.
      - unfold lookup2. cbn [lookup_in_map]. apply (comes_bind loose P Q Q _ _ s None); [ exact (first_run loose P Q _ other HPQ Hone args _ s Hf Hs) | ].
        intros s' H1 H2. apply (comes_lift _ _ _ (Ok None)); auto.
      - unfold lookup2. cbn [lookup_in_map]. exact (comes_fails _ _ _ _ _ _ s _ _ (first_run loose P Q _ other HPQ Hone args _ s Hf Hs) Hsf).
      - pose proof (all_run loose P Q (ask_with mo) other HPQ Hone inst conv (struct_of t) args o s Ha Hs) as K.
        destruct (struct_of t) as [l|]; [ exact K | ]. destruct Hc as [-> |C]; [ exact K | congruence ].
      - rewrite E. apply String.eqb_neq in N. rewrite N. right. exists s. split; [ reflexivity | ]. split; [ auto | discriminate ].
    Qed.

    Lemma written_run opts args t dv o r s : found_comes inst conv struct_of other opts args t dv o -> written render (format_of opts) o r -> Q s ->
      comes_to loose P (fun _ => True) (bind (find_step mo opts args t dv) (write_step (format_of opts))) s r.
    Proof.
      intros Hf Hw Hs. pose proof (found_run opts args t dv o s Hf Hs) as K.
      destruct Hw as [|v out E|v o r E Hsf|o r Hsf].
      - eapply comes_bind; [ exact K | ]. intros s' H1 _. right. exists s'. auto.
      - eapply comes_bind; [ exact K | ]. intros s' H1 _. right. exists s'. cbn [write_step]. unfold bind, lift. rewrite E. auto.
      - eapply comes_bind; [ exact K | ]. intros s' H1 _. cbn [write_step]. rewrite E.
        apply (comes_fails loose P P _ _ _ s' o r); [ apply comes_lift; auto | exact Hsf ].
      - exact (comes_fails _ _ _ _ _ _ s _ _ K Hsf).
    Qed.
  End Found.

  Section FoundTotal.
    Variables (P Q : st -> Prop) (mo : option entries) (other : key -> outcome (option value) -> Prop).
    Hypothesis HPQ : forall s, Q s -> P s.
    Hypothesis Hone : forall name o s, name_comes other name o -> Q s -> comes_to True P Q (ask_with mo name) s o.
    Hypothesis Hends : forall name o, name_comes other name o -> o <> NoFuel.
    Hypothesis Htotal : forall name s, Q s -> fst (ask_with mo name s) = NoFuel \/ exists o, name_comes other name o.

    Lemma found_total opts args t dv s : Q s -> fst (find_step mo opts args t dv s) = NoFuel \/
      exists o, found_comes inst conv struct_of other opts args t dv o /\ o <> NoFuel.
    Proof.
      intro Hs. unfold find_step. destruct (co_lookup_all opts) eqn:L.
      - pose proof (all_comes P Q (ask_with mo) other Hone Hends Htotal inst conv Hconv (struct_of t) args s Hs) as K.
        assert (Ne : forall o, all_come other inst conv (struct_of t) args o -> o <> NoFuel).
        { intros o [shown He|pre n post o1 o' _ _ _ Hf]; [ discriminate | destruct Hf; discriminate ]. }
        destruct (struct_of t) as [l|] eqn:E.
        + destruct K as [K|(o & Ho)]; [ left; exact K | right; exists o; split; [ | exact (Ne o Ho) ] ].
          apply fo_all; [ exact L | right; congruence | rewrite E; exact Ho ].
        + destruct (String.eqb_spec (co_type opts) "") as [Y|N].
          * destruct K as [K|(o & Ho)]; [ left; exact K | right; exists o; split; [ | exact (Ne o Ho) ] ].
            apply fo_all; [ exact L | left; exact Y | rewrite E; exact Ho ].
          * right. eexists. split; [ exact (fo_no_map _ _ _ _ _ _ _ _ L N E) | discriminate ].
      - unfold lookup2. cbn [lookup_in_map].
        destruct (first_total P Q (ask_with mo) other Hone Hends Htotal args s Hs) as [E|(o & Ho)]; [ left; exact (ran_out _ _ s E) | right ].
        pose proof (first_ends other args o Ho) as Ne.
        assert (Nw : forall r : outcome (option value), works r -> r <> NoFuel) by (intros r [(a & ->)|(x & ->)]; discriminate).
        destruct o as [[v|]|x| |]; [ | | | | contradiction ].
        + destruct (typed_works inst conv Hconv (Some t) (Some v)) as (r & Hr & Wr). exists r. split; [ exact (fo_value _ _ _ _ _ _ _ _ v r L Ho Hr) | exact (Nw r Wr) ].
        + destruct dv as [v|]; [ | exists (Ok None); split; [ exact (fo_nothing _ _ _ _ _ _ _ _ L Ho eq_refl) | discriminate ] ].
          destruct (typed_works inst conv Hconv (Some t) (Some v)) as (r & Hr & Wr). exists r. split; [ exact (fo_default _ _ _ _ _ _ _ _ v r L Ho eq_refl Hr) | exact (Nw r Wr) ].
        + exists (Panic x). split; [ exact (fo_fails _ _ _ _ _ _ _ _ _ _ L Ho (sf_panic x)) | discriminate ].
        + exists Hang. split; [ exact (fo_fails _ _ _ _ _ _ _ _ _ _ L Ho sf_hang) | discriminate ].
    Qed.

    Lemma written_total format o : o <> NoFuel -> exists r, written render format o r.
    Proof.
      intro Ne. destruct o as [[v|]|x| |]; [ | exists (Ok (false, "")); constructor | exists (Panic x); apply wn_failed; constructor
        | exists Hang; apply wn_failed; constructor | contradiction ].
      destruct (Hrender format v) as [(out & E)|(x & E)].
      - exists (Ok (true, out)). exact (wn_value _ _ _ _ E).
      - exists (Panic x). exact (wn_unrendered _ _ _ _ _ E (sf_panic x)).
    Qed.
  End FoundTotal.
End Look.
