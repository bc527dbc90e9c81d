(** The program yaml2json: C69. *)

From Coq Require Import String List Bool.
From Verif Require Import Str Outcome Yaml2json.
Import ListNotations.
Open Scope string_scope.

Section Spec.
  Variable scalar : Type.
  Variable scalar_json : scalar -> option string.
  Variable key_json : string -> string.
  Variable array_json : list string -> string.
  Variable object_json : list (string * string) -> string.

  (** [json_of d t]: [t] is the JSON text of the document.  There is one when
      all keys are strings and all scalars have a text. *)
  Inductive json_of : document scalar -> string -> Prop :=
  | jo_scalar x t : scalar_json x = Some t -> json_of (DScalar x) t
  | jo_seq l ts : json_elements l ts -> json_of (DSeq l) (array_json ts)
  | jo_map m ts : json_entries m ts -> json_of (DMap m) (object_json ts)
  with json_elements : list (document scalar) -> list string -> Prop :=
  | je_nil : json_elements [] []
  | je_cons d l t ts : json_of d t -> json_elements l ts -> json_elements (d :: l) (t :: ts)
  with json_entries : list (yaml_key scalar * document scalar) -> list (string * string) -> Prop :=
  | jn_nil : json_entries [] []
  | jn_cons s d m t ts : json_of d t -> json_entries m ts -> json_entries ((KStr s, d) :: m) ((key_json s, t) :: ts).

  (** A map with a key that is not a string, somewhere in the document. *)
  Inductive other_key : document scalar -> Prop :=
  | ok_here k d m : In (KOther k, d) m -> other_key (DMap m)
  | ok_seq d l : In d l -> other_key d -> other_key (DSeq l)
  | ok_map k d m : In (k, d) m -> other_key d -> other_key (DMap m).

  (** The same, in no map but in sequences only. *)
  Inductive other_key_on_top : document scalar -> Prop :=
  | ot_here k d m : In (KOther k, d) m -> other_key_on_top (DMap m)
  | ot_seq d l : In d l -> other_key_on_top d -> other_key_on_top (DSeq l).

  Notation conv := (yaml2json scalar scalar_json key_json array_json object_json).
  Notation marshal := (marshal scalar scalar_json key_json array_json object_json).
  Notation unmarshal := (unmarshal scalar).
  Notation string_keys := (string_keys scalar).

  (** Induction over documents. *)
  Lemma doc_ind (P : document scalar -> Prop) :
    (forall x, P (DScalar x)) -> (forall l, (forall d, In d l -> P d) -> P (DSeq l)) ->
    (forall m, (forall k d, In (k, d) m -> P d) -> P (DMap m)) -> forall d, P d.
  Proof.
    intros Hs Hl Hm d.
    assert (Hl' : forall l, Forall P l -> P (DSeq l)) by (intros l F; apply Hl; apply Forall_forall; exact F).
    assert (Hm' : forall m, Forall (fun e => P (snd e)) m -> P (DMap m))
      by (intros m F; apply Hm; intros k e I; exact (proj1 (Forall_forall _ _) F (k, e) I)).
    revert d. exact (fix F (d : document scalar) : P d :=
      match d with
      | DScalar x => Hs x
      | DSeq l => Hl' l ((fix go (l : list (document scalar)) : Forall P l :=
                            match l with [] => Forall_nil _ | x :: r => Forall_cons x (F x) (go r) end) l)
      | DMap m => Hm' m ((fix go (m : list (yaml_key scalar * document scalar)) : Forall (fun e => P (snd e)) m :=
                            match m with [] => Forall_nil _ | e :: r => Forall_cons e (F (snd e)) (go r) end) m)
      end).
  Qed.

  Lemma string_keyed_none {A} (m : list (yaml_key scalar * A)) :
    string_keyed scalar m = None <-> exists k v, In (KOther k, v) m.
  Proof.
    induction m as [|[[s|k] v] r IH]; cbn.
    - split; [ discriminate | intros (k & v & []) ].
    - destruct (string_keyed scalar r) as [x|]; cbn.
      + split; [ discriminate | ]. intros (k & w & [E|H]); [ discriminate E | ].
        assert (X : Some x = None) by (apply IH; eauto). discriminate X.
      + split; [ | reflexivity ]. intros _. destruct (proj1 IH eq_refl) as (k & w & H). eauto.
    - split; [ | reflexivity ]. eauto.
  Qed.

  Lemma string_keyed_some {A} (m : list (yaml_key scalar * A)) l :
    string_keyed scalar m = Some l -> m = map (fun e => (KStr (fst e), snd e)) l.
  Proof.
    revert l. induction m as [|[[s|k] v] r IH]; cbn; intros l E.
    - injection E as <-. reflexivity.
    - destruct (string_keyed scalar r) as [x|]; [ | discriminate E ]. injection E as <-. cbn. f_equal. apply IH. reflexivity.
    - discriminate E.
  Qed.

  (** Converting keys changes nothing or fails, and it fails for keys on top. *)
  Lemma string_keys_spec d :
    (string_keys (unmarshal d) = Ok (unmarshal d) /\ ~ other_key_on_top d) \/
    (string_keys (unmarshal d) = Panic (EStr "interface conversion") /\ other_key_on_top d).
  Proof.
    induction d as [x|l IH|m IH] using doc_ind.
    - left. split; [ reflexivity | ]. intro H. inversion H.
    - cbn. induction l as [|d r IHr].
      + left. split; [ reflexivity | ]. intro H. inversion H as [|? ? I]; subst. destruct I.
      + assert (IHr' : forall d, In d r -> (string_keys (unmarshal d) = Ok (unmarshal d) /\ ~ other_key_on_top d) \/
                                           (string_keys (unmarshal d) = Panic (EStr "interface conversion") /\ other_key_on_top d))
          by (intros e He; apply IH; right; exact He).
        specialize (IHr IHr').
        destruct (IH d (or_introl eq_refl)) as [[E N]|[E T]]; cbn; rewrite E; cbn.
        * match type of IHr with (omap _ ?X = _ /\ _) \/ (omap _ ?X = _ /\ _) => destruct X eqn:EX end;
            cbn in *; destruct IHr as [[A B]|[A B]]; try discriminate A.
          -- left. injection A as ->. split; [ reflexivity | ]. intro H. inversion H as [|e l' I T]; subst.
             destruct I as [->|I]; [ exact (N T) | ]. apply B. econstructor; eassumption.
          -- right. injection A as ->. split; [ reflexivity | ]. inversion B as [|e' l' I T]; subst.
             econstructor; [ right; exact I | exact T ].
        * right. split; [ reflexivity | ]. econstructor; [ left; reflexivity | exact T ].
    - cbn. destruct (string_keyed scalar (map (fun e => (fst e, unmarshal (snd e))) m)) as [s|] eqn:E.
      + left. split; [ reflexivity | ]. intro H. inversion H as [k d m' I|]; subst.
        enough (string_keyed scalar (map (fun e => (fst e, unmarshal (snd e))) m) = None) by congruence.
        apply string_keyed_none. exists k, (unmarshal d). apply in_map_iff. exists (KOther k, d). auto.
      + apply string_keyed_none in E. destruct E as (k & v & I). right.
        apply in_map_iff in I. destruct I as ([k' d] & E & I). injection E as -> <-. cbn in *.
        split; [ | econstructor; exact I ].
        assert (T : forall k d, In (k, d) m -> (string_keys (unmarshal d) = Ok (unmarshal d) \/
                      string_keys (unmarshal d) = Panic (EStr "interface conversion")))
          by (intros k1 d1 H1; destruct (IH k1 d1 H1) as [[? _]|[? _]]; auto).
        clear IH. induction m as [|[k1 d1] r IHr]; [ destruct I | ]. cbn.
        destruct k1 as [s|k1]; [ | reflexivity ].
        destruct (T (KStr s) d1 (or_introl eq_refl)) as [E|E]; rewrite E; cbn; [ | reflexivity ].
        destruct I as [I|I]; [ discriminate I | ].
        specialize (IHr I (fun k d H => T k d (or_intror H))).
        match type of IHr with omap _ ?X = _ => destruct X; cbn in *; try discriminate IHr; injection IHr as ->; reflexivity end.
  Qed.

  Lemma all_some_elements l :
    (forall d, In d l -> forall t, marshal (unmarshal d) = Some t <-> json_of d t) ->
    forall ts, all_some (map marshal (map unmarshal l)) = Some ts <-> json_elements l ts.
  Proof.
    induction l as [|d r IH]; intros H ts; cbn.
    - split; intro E; [ injection E as <-; constructor | inversion E; reflexivity ].
    - destruct (marshal (unmarshal d)) as [t|] eqn:E.
      + destruct (all_some (map marshal (map unmarshal r))) as [us|] eqn:Er; cbn.
        * split; intro Q.
          -- injection Q as <-. constructor; [ apply (H d (or_introl eq_refl)); exact E | ].
             apply IH; [ intros; apply H; right; assumption | reflexivity ].
          -- inversion Q as [|? ? t' us' J1 J2]; subst. apply (H d (or_introl eq_refl)) in J1. rewrite E in J1. injection J1 as ->.
             apply IH in J2; [ | intros; apply H; right; assumption ]. injection J2 as ->. reflexivity.
        * split; [ discriminate | ]. intro Q. inversion Q as [|? ? t' us' J1 J2]; subst.
          apply IH in J2; [ discriminate J2 | intros; apply H; right; assumption ].
      + split; [ discriminate | ]. intro Q. inversion Q as [|? ? t' us' J1 J2]; subst.
        apply (H d (or_introl eq_refl)) in J1. congruence.
  Qed.

  Lemma all_some_entries m :
    (forall k d, In (k, d) m -> forall t, marshal (unmarshal d) = Some t <-> json_of d t) ->
    forall s, string_keyed scalar (map (fun e => (fst e, unmarshal (snd e))) m) = Some s -> forall ts,
    all_some (map (fun e => option_map (pair (key_json (fst e))) (marshal (snd e))) s) = Some ts <-> json_entries m ts.
  Proof.
    induction m as [|[[k|k] d] r IH]; intros H s E ts; cbn in E.
    - injection E as <-. cbn. split; intro Q; [ injection Q as <-; constructor | inversion Q; reflexivity ].
    - destruct (string_keyed scalar (map (fun e => (fst e, unmarshal (snd e))) r)) as [s'|] eqn:Es; [ | discriminate E ].
      injection E as <-. cbn.
      assert (IH' := IH (fun k d I => H k d (or_intror I)) s' eq_refl).
      assert (Hd := H (KStr k) d (or_introl eq_refl)).
      destruct (marshal (unmarshal d)) as [t|] eqn:Em; cbn.
      + destruct (all_some (map (fun e => option_map (pair (key_json (fst e))) (marshal (snd e))) s')) as [us|] eqn:Er; cbn.
        * split; intro Q.
          -- injection Q as <-. constructor; [ apply Hd; reflexivity | apply IH'; reflexivity ].
          -- inversion Q as [|? ? ? t' us' J1 J2]; subst. apply Hd in J1. injection J1 as ->. apply IH' in J2. injection J2 as ->. reflexivity.
        * split; [ discriminate | ]. intro Q. inversion Q as [|? ? ? t' us' J1 J2]; subst. apply IH' in J2. discriminate J2.
      + split; [ discriminate | ]. intro Q. inversion Q as [|? ? ? t' us' J1 J2]; subst. apply Hd in J1. discriminate J1.
    - discriminate E.
  Qed.

  Lemma marshal_spec d t : marshal (unmarshal d) = Some t <-> json_of d t.
  Proof.
    revert t. induction d as [x|l IH|m IH] using doc_ind; intro t.
    - cbn. split; intro H; [ constructor; exact H | inversion H; assumption ].
    - cbn. assert (A := all_some_elements l IH).
      destruct (all_some (map marshal (map unmarshal l))) as [ts|]; cbn.
      + split; intro H; [ injection H as <-; constructor; apply A; reflexivity | ].
        inversion H as [|? us J|]; subst. apply A in J. injection J as ->. reflexivity.
      + split; [ discriminate | ]. intro H. inversion H as [|? us J|]; subst. apply A in J. discriminate J.
    - cbn. destruct (string_keyed scalar (map (fun e => (fst e, unmarshal (snd e))) m)) as [s|] eqn:E.
      + assert (A := all_some_entries m IH s E). cbn.
        destruct (all_some (map (fun e => option_map (pair (key_json (fst e))) (marshal (snd e))) s)) as [ts|]; cbn.
        * split; intro H; [ injection H as <-; constructor; apply A; reflexivity | ].
          inversion H as [| |? us J]; subst. apply A in J. injection J as ->. reflexivity.
        * split; [ discriminate | ]. intro H. inversion H as [| |? us J]; subst. apply A in J. discriminate J.
      + split; [ discriminate | ]. intro H. exfalso. inversion H as [| |? us J]; subst.
        apply string_keyed_none in E. destruct E as (k & v & I). apply in_map_iff in I. destruct I as ([k' d] & E & I).
        injection E as -> _. clear - J I. induction J as [|s d' m t ts J1 J2 IH]; [ exact I | ].
        destruct I as [I|I]; [ discriminate I | auto ].
  Qed.

  Lemma json_no_other d t : json_of d t -> ~ other_key d.
  Proof.
    intros J O. revert t J. induction O as [k d m I|d l I O IH|k d m I O IH]; intros t J; inversion J as [|? us Q|? us Q]; subst.
    - clear J. induction Q as [|s d' m t ts J1 J2 IHq]; [ exact I | ]. destruct I as [I|I]; [ discriminate I | auto ].
    - clear J. induction Q as [|d' l t ts J1 J2 IHq]; [ exact I | ].
      destruct I as [->|I]; [ exact (IH _ J1) | auto ].
    - clear J. induction Q as [|s d' m t ts J1 J2 IHq]; [ exact I | ].
      destruct I as [E|I]; [ injection E as _ ->; exact (IH _ J1) | auto ].
  Qed.

  (** ** C69: yaml2json writes the JSON of a document with string keys, and only
      that *)

  (** What is written is the JSON of a document, and it is written whenever
      there is one; nothing is written for an input that is no document. *)
  Theorem C69_written input t : conv input = CvWritten t <-> exists d, input = Some d /\ json_of d t.
  Proof.
    destruct input as [d|]; [ | split; [ discriminate | intros (d & E & _); discriminate E ] ].
    enough (H : conv (Some d) = CvWritten t <-> json_of d t).
    { rewrite H. split; [ eauto | intros (d' & E & J); injection E as <-; exact J ]. }
    unfold yaml2json. rewrite <- marshal_spec. destruct (string_keys_spec d) as [[E N]|[E T]]; rewrite E.
    - destruct (marshal (unmarshal d)); split; congruence.
    - split; [ discriminate | ]. intro M. apply marshal_spec in M. exfalso. apply (json_no_other _ _ M).
      clear - T. induction T as [k d m I|d l I T IH]; [ eapply ok_here; eassumption | eapply ok_seq; eassumption ].
  Qed.

  (** A document with a key that is not a string is never converted, whatever
      JSON looks like. *)
  Theorem C69_other_keys d t : other_key d -> conv (Some d) <> CvWritten t.
  Proof. intros O E. apply C69_written in E as (d' & E & J). injection E as <-. exact (json_no_other _ _ J O). Qed.

  (** When the program crashes instead of saying what is wrong. *)
  Theorem C69_crash_partial input : conv input = CvPanic <-> exists d, input = Some d /\ other_key_on_top d.
  Proof.
    destruct input as [d|]; [ | split; [ discriminate | intros (d & E & _); discriminate E ] ].
    enough (H : conv (Some d) = CvPanic <-> other_key_on_top d).
    { rewrite H. split; [ eauto | intros (d' & E & J); injection E as <-; exact J ]. }
    unfold yaml2json. destruct (string_keys_spec d) as [[E N]|[E T]]; rewrite E.
    - destruct (marshal (unmarshal d)); split; try discriminate; intro T; destruct (N T).
    - split; auto.
  Qed.

  (** Every other input is reported as an error. *)
  Theorem C69_reported_partial input : conv input = CvFatal <->
    (forall d, input = Some d -> (forall t, ~ json_of d t) /\ ~ other_key_on_top d).
  Proof.
    split.
    - intros E d ->. split.
      + intros t J. assert (X : conv (Some d) = CvWritten t) by (apply C69_written; eauto). congruence.
      + intro T. assert (X : conv (Some d) = CvPanic) by (apply C69_crash_partial; eauto). congruence.
    - intro H. destruct (conv input) as [t| |] eqn:E; [ | reflexivity | ].
      + apply C69_written in E as (d & -> & J). destruct (proj1 (H d eq_refl) t J).
      + apply C69_crash_partial in E as (d & -> & T). destruct (proj2 (H d eq_refl) T).
  Qed.
End Spec.

(** Numbers stand for the scalars: 0 has no JSON. *)
Definition num_json (n : nat) : option string := match n with 0 => None | 1 => Some "1" | _ => Some "n" end.
Definition brackets (l : list string) : string := "[" ++ String.concat "," l ++ "]".
Definition braces (l : list (string * string)) : string :=
  "{" ++ String.concat "," (map (fun e => fst e ++ ":" ++ snd e) l) ++ "}".
Definition quoted (s : string) : string := """" ++ s ++ """".
Definition y2j : option (document nat) -> conversion := yaml2json nat num_json quoted brackets braces.

Example C69_ex :
  y2j (Some (DMap [(KStr "a", DSeq [DScalar 1; DMap [(KStr "b", DScalar 1)]]); (KStr "c", DMap [])]))
    = CvWritten "{""a"":[1,{""b"":1}],""c"":{}}" /\
  y2j (Some (DMap [(KStr "a", DScalar 0)])) = CvFatal /\
  y2j None = CvFatal.
Proof. vm_compute. auto. Qed.
Example C69_written_ex :
  json_of nat num_json quoted brackets braces (DMap [(KStr "a", DSeq [DScalar 1])]) "{""a"":[1]}".
Proof.
  assert (E : y2j (Some (DMap [(KStr "a", DSeq [DScalar 1])])) = CvWritten "{""a"":[1]}") by (vm_compute; reflexivity).
  apply C69_written in E as (d & E & J). injection E as <-. exact J.
Qed.
Example C69_reported_ex : y2j None = CvFatal /\ let d := DSeq [DScalar 1; DScalar 0] in (forall t, ~ json_of nat num_json quoted brackets braces d t) /\ ~ other_key_on_top nat d.
Proof.
  split; [ reflexivity | ]. exact (proj1 (C69_reported_partial nat num_json quoted brackets braces (Some (DSeq [DScalar 1; DScalar 0]))) eq_refl _ eq_refl).
Qed.
Example C69_other_keys_ex :
  let d := DMap [(KStr "a", DMap [(KOther 1, DScalar 1)])] in other_key nat d /\ y2j (Some d) = CvFatal.
Proof.
  split; [ | reflexivity ]. eapply ok_map; [ left; reflexivity | ]. eapply ok_here. left. reflexivity.
Qed.
Example C69_crash_ex :
  let d := DSeq [DScalar 1; DMap [(KStr "a", DScalar 1); (KOther 1, DScalar 1)]] in other_key_on_top nat d /\ y2j (Some d) = CvPanic.
Proof.
  split; [ | reflexivity ]. eapply ot_seq; [ right; left; reflexivity | ]. eapply ot_here. right. left. reflexivity.
Qed.

(** The full statement: a document that cannot be converted is reported as an
    error. *)
Definition C69_full : Prop :=
  forall d, (forall t, ~ json_of nat num_json quoted brackets braces d t) -> y2j (Some d) = CvFatal.

(** It is not: the assertion that a key is a string panics. *)
Theorem C69_error_refuted : exists d,
  (forall t, ~ json_of nat num_json quoted brackets braces d t) /\ y2j (Some d) = CvPanic.
Proof.
  exists (DMap [(KOther 1, DScalar 1)]). split; [ | reflexivity ].
  intros t J. apply json_no_other in J. apply J. eapply ok_here. left. reflexivity.
Qed.

Print Assumptions C69_written.
Print Assumptions C69_other_keys.
Print Assumptions C69_crash_partial.
Print Assumptions C69_reported_partial.
Print Assumptions C69_error_refuted.
