(** Facts about the reader of arguments, for P_Flags.v and P_RestArgs.v. *)

From Coq Require Import String Ascii List Bool Lia Arith.
From Verif Require Import Str State Args SpecArgs.
Import ListNotations.
Open Scope string_scope.

(** The last setting, computed (/repo/cli/hiera.go:90-115, /repo/hieraserver/rest/rest.go:56-69). *)
Fixpoint final (n : string) (ss : list (string * string)) : option string :=
  match ss with
  | [] => None
  | (n', v) :: r =>
      match final n r with
      | Some w => Some w
      | None => if String.eqb n' n then Some v else None
      end
  end.

(** All settings, computed (/repo/cli/hiera.go:107-113, /repo/hieraserver/rest/rest.go:60-63). *)
Fixpoint collect (n : string) (ss : list (string * string)) : list string :=
  match ss with
  | [] => []
  | (n', v) :: r => if String.eqb n' n then v :: collect n r else collect n r
  end.

Lemma final_last : forall n ss, last_set n ss (final n ss).
Proof.
  intros n ss. induction ss as [|[n' v] r IH]; cbn.
  - intros [].
  - destruct (final n r) as [w|] eqn:E; cbn in *.
    + destruct IH as (b & a & -> & Ha). exists ((n', v) :: b), a. split; [reflexivity|exact Ha].
    + destruct (String.eqb_spec n' n) as [->|Hne]; cbn.
      * exists [], r. split; [reflexivity|exact IH].
      * intros [H|H]; [exact (Hne H)|exact (IH H)].
Qed.

Lemma last_set_det : forall n ss o, last_set n ss o -> o = final n ss.
Proof.
  intros n ss. induction ss as [|[n' v] r IH]; intros o H; cbn.
  - destruct o as [w|]; [|reflexivity]. destruct H as ([|x b] & a & H & _); discriminate.
  - destruct o as [w|]; cbn in H.
    + destruct H as ([|x b] & a & H & Ha); cbn in H.
      * injection H as -> -> ->.
        rewrite <- (IH None); [|exact Ha]. rewrite String.eqb_refl. reflexivity.
      * injection H as _ Hr. rewrite <- (IH (Some w)); [reflexivity|]. exists b, a. split; [exact Hr|exact Ha].
    + rewrite <- (IH None); [|intro Hi; apply H; right; exact Hi].
      destruct (String.eqb_spec n' n) as [->|Hne]; [|reflexivity]. exfalso. apply H. left. reflexivity.
Qed.

Lemma collect_all : forall n ss, all_set n ss (collect n ss).
Proof.
  intros n ss. induction ss as [|[n' v] r IH]; cbn; [constructor|].
  destruct (String.eqb_spec n' n) as [->|Hne]; constructor; assumption.
Qed.

Lemma all_set_det : forall n ss vs, all_set n ss vs -> vs = collect n ss.
Proof.
  intros n ss vs H. induction H as [|v ss vs H IH|n' v ss vs Hne H IH]; cbn.
  - reflexivity.
  - rewrite String.eqb_refl. now rewrite IH.
  - destruct (String.eqb_spec n' n) as [E|_]; [contradiction|exact IH].
Qed.

Lemma contains_in : forall l s, contains_string l s = true <-> In s l.
Proof.
  intros l s. unfold contains_string. rewrite existsb_exists. split.
  - intros (x & Hx & E). apply String.eqb_eq in E. now subst.
  - intro H. exists s. split; [exact H|apply String.eqb_refl].
Qed.

Lemma parse_bool_yes : forall v, parse_bool v = Some true <-> yes v.
Proof.
  intro v. unfold parse_bool, yes. rewrite <- contains_in.
  destruct (contains_string ["1"; "t"; "T"; "TRUE"; "true"; "True"] v); [tauto|].
  destruct (contains_string ["0"; "f"; "F"; "FALSE"; "false"; "False"] v); split; discriminate.
Qed.

Lemma parse_bool_no : forall v, parse_bool v = Some false <-> no v.
Proof.
  intro v. unfold parse_bool, no. split.
  - intro H. rewrite <- contains_in.
    destruct (contains_string ["1"; "t"; "T"; "TRUE"; "true"; "True"] v); [discriminate|].
    destruct (contains_string ["0"; "f"; "F"; "FALSE"; "false"; "False"] v); [reflexivity|discriminate].
  - cbn. intros [<-|[<-|[<-|[<-|[<-|[<-|[]]]]]]]; reflexivity.
Qed.

Ltac each_in H :=
  cbn in H;
  repeat match type of H with
         | _ \/ _ => destruct H as [<-|H]
         | False => destruct H
         end.

Lemma aget_in : forall {A} n (l : list (string * A)) k, aget n l = Some k -> In (n, k) l.
Proof.
  intros A n l k. induction l as [|[n' k'] r IH]; cbn; [discriminate|].
  destruct (String.eqb_spec n n') as [->|_]; [intros [= ->]; now left|intro H; right; exact (IH H)].
Qed.

Lemma split_back : forall t n v, split_equals t = (n, v) ->
  t = n ++ match v with Some v => "=" ++ v | None => "" end.
Proof.
  induction t as [|c r IH]; intros n v H; cbn in H.
  - injection H as <- <-. reflexivity.
  - destruct (ceq c "=") eqn:E.
    + injection H as <- <-. apply Ascii.eqb_eq in E. now subst c.
    + destruct (split_equals r) as [a b] eqn:Er. injection H as <- <-. cbn. now rewrite (IH _ _ eq_refl).
Qed.

(** Which kind of argument an argument is. *)
Lemma arg_cases : forall a, plain a \/ a = "--" \/ (exists t, t <> "" /\ a = "--" ++ t) \/ short a.
Proof.
  intros [|c t]; [left; right; intros t H; discriminate|].
  destruct (ascii_dec c "-") as [->|Hc].
  2:{ left. right. intros t' [= H _]. contradiction. }
  destruct t as [|c2 t]; [left; left; reflexivity|].
  destruct (ascii_dec c2 "-") as [->|Hc2].
  - right. destruct t as [|c3 t]; [left; reflexivity|]. right. left. exists (String c3 t). split; [discriminate|reflexivity].
  - right. right. right. exists c2, t. split; [exact Hc2|reflexivity].
Qed.

Lemma append_nil : forall s, s ++ "" = s.
Proof. induction s as [|c s IH]; cbn; [reflexivity|now rewrite IH]. Qed.

(** A value, or another if there is none; for the variables of
    /repo/cli/hiera.go:70-76 and /repo/hieraserver/rest/rest.go:34-44. *)
Definition or_else {A} (o : option A) (d : A) : A := match o with Some a => a | None => d end.
(** The value of a switch (/repo/cli/hiera.go:104-115, /repo/hieraserver/rest/rest.go:68). *)
Definition on_off (n : string) (ss : list (string * string)) (d : bool) : bool :=
  match final n ss with
  | Some v => match parse_bool v with Some b => b | None => d end
  | None => d
  end.

Lemma final_cons : forall n nv ss, final n (nv :: ss) = match final n ss with Some w => Some w | None => final n [nv] end.
Proof. intros n [n' v] ss. reflexivity. Qed.

Lemma collect_cons : forall n nv ss, collect n (nv :: ss) = (collect n [nv] ++ collect n ss)%list.
Proof. intros n [n' v] ss. cbn. destruct (String.eqb n' n); reflexivity. Qed.

Lemma final_in : forall n ss v, final n ss = Some v -> In (n, v) ss.
Proof.
  intros n ss v H. pose proof (final_last n ss) as L. rewrite H in L.
  destruct L as (b & a & -> & _). apply in_or_app. right. left. reflexivity.
Qed.


Lemma split_equals_app : forall n v, split_equals n = (n, None) -> split_equals (n ++ "=" ++ v) = (n, Some v).
Proof.
  induction n as [|c n IH]; intros v H; cbn in *; [reflexivity|].
  destruct (ceq c "="); [discriminate|]. destruct (split_equals n) as [a b] eqn:E. injection H as -> ->.
  now rewrite (IH v eq_refl).
Qed.

Lemma option_is_final : forall n d ss v, option_is n d ss v <-> v = or_else (final n ss) d.
Proof.
  intros n d ss v. split.
  - intros (o & Ho & ->). apply last_set_det in Ho. subst o. reflexivity.
  - intros ->. exists (final n ss). split; [apply final_last|reflexivity].
Qed.

Lemma switched_on : forall n ss, on_off n ss false = true <-> switched n ss.
Proof.
  intros n ss. unfold on_off, switched. split.
  - destruct (final n ss) as [v|] eqn:E; [|discriminate].
    intro H. exists v. split.
    + pose proof (final_last n ss) as L. rewrite E in L. exact L.
    + apply parse_bool_yes. destruct (parse_bool v) as [b|]; [now subst b|discriminate].
  - intros (v & Hl & Hy). apply last_set_det in Hl. rewrite <- Hl.
    apply parse_bool_yes in Hy. now rewrite Hy.
Qed.

Lemma switched_dec : forall n ss, switched n ss \/ ~ switched n ss.
Proof.
  intros n ss. destruct (on_off n ss false) eqn:E; [left; now apply switched_on|].
  right. intro H. apply switched_on in H. congruence.
Qed.

Lemma on_off_cons : forall n nv ss d, (forall v, In (n, v) ss -> parse_bool v <> None) ->
  on_off n (nv :: ss) d = on_off n ss (on_off n [nv] d).
Proof.
  intros n nv ss d Hs. unfold on_off. rewrite final_cons.
  destruct (final n ss) as [w|] eqn:E; [|reflexivity].
  specialize (Hs _ (final_in _ _ _ E)).
  destruct (parse_bool w); [reflexivity|contradiction].
Qed.

Section Reader.
  Context {G : Type}.
  Variable kinds : list (string * flag_kind).
  Variable set : string -> string -> G -> option G.
  Variables valued switch : string -> Prop.
  Hypothesis kind_switch : forall n, switch n -> aget n kinds = Some FkSwitch.
  Hypothesis kind_valued : forall n, valued n -> exists k, aget n kinds = Some k /\ k <> FkSwitch.
  Hypothesis kind_known : forall n k, aget n kinds = Some k -> (k = FkSwitch /\ switch n) \/ (k <> FkSwitch /\ valued n).
  Hypothesis known_text : forall n, valued n \/ switch n -> n <> "" /\ split_equals n = (n, None).

  (** The arguments read (/repo/lookup/lookup.go:12, /repo/hieraserver/rest/rest.go:27). *)
  Let parse := read_args kinds set.
  (** A setting of an option that there is (/repo/cli/hiera.go:90-115,
      /repo/hieraserver/rest/rest.go:56-69). *)
  Definition known (nv : string * string) : Prop := valued (fst nv) \/ switch (fst nv).

  (** The settings one after the other (/repo/cli/hiera.go:90-115,
      /repo/hieraserver/rest/rest.go:56-69). *)
  Fixpoint apply_sets (ss : list (string * string)) (g : G) : option G :=
    match ss with
    | [] => Some g
    | (n, v) :: r => match set n v g with Some g' => apply_sets r g' | None => None end
    end.

  (** One step of the reader, as equations. *)
  Lemma parse_plain : forall a r ns g, plain a -> parse (a :: r) ns g = parse r (a :: ns) g.
  Proof.
    intros a r ns g [-> | H]; [reflexivity|].
    destruct a as [|c t]; [reflexivity|].
    destruct (ascii_dec c "-") as [->|Hc]; [exfalso; exact (H t eq_refl)|].
    destruct c as [[] [] [] [] [] [] [] []]; try reflexivity; exfalso; apply Hc; reflexivity.
  Qed.

  (** What the reader does with a long flag (/repo/cli/hiera.go:80-117,
      /repo/hieraserver/rest/rest.go:46-71). *)
  Definition long_step (t : string) (r ns : list string) (g : G) : parsed G :=
    let (n, v) := split_equals t in
    match aget n kinds, v with
    | None, _ => Refused g
    | Some _, Some v => match set n v g with Some g' => read_args kinds set r ns g' | None => Refused g end
    | Some FkSwitch, None => match set n "true" g with Some g' => read_args kinds set r ns g' | None => Refused g end
    | Some _, None =>
        match r with
        | [] => Refused g
        | v :: r' => match set n v g with Some g' => read_args kinds set r' ns g' | None => Refused g end
        end
    end.

  Lemma parse_long : forall t r ns g, t <> "" -> parse (("--" ++ t) :: r) ns g = long_step t r ns g.
  Proof. intros [|c t] r ns g H; [contradiction|reflexivity]. Qed.

  Lemma parse_short : forall a r ns g, short a -> parse (a :: r) ns g = Short.
  Proof.
    intros a r ns g (c & t & Hc & ->). cbn.
    destruct c as [[] [] [] [] [] [] [] []]; try reflexivity; exfalso; apply Hc; reflexivity.
  Qed.

  Lemma reads_known : forall args ss ns, reading valued switch args ss ns -> Forall known ss.
  Proof.
    intros args ss ns H. induction H; try constructor; try assumption; unfold known; cbn; tauto.
  Qed.

  Lemma reads_parse : forall args ss ns, reading valued switch args ss ns -> forall acc g,
    match apply_sets ss g with
    | Some g' => parse args acc g = Parsed g' (rev acc ++ ns)%list
    | None => exists g', parse args acc g = Refused g'
    end.
  Proof.
    intros args ss ns H.
    induction H as [|a r ss ns Hp H IH|r|n v r ss ns Hk H IH|n r ss ns Hk H IH|n v r ss ns Hk H IH]; intros acc g.
    - cbn. now rewrite app_nil_r.
    - rewrite parse_plain by exact Hp. specialize (IH (a :: acc) g). cbn [rev] in IH.
      rewrite <- app_assoc in IH. exact IH.
    - reflexivity.
    - destruct (known_text n Hk) as [Hne Hsp]. rewrite parse_long.
      2:{ intro E. apply Hne. destruct n; [reflexivity|discriminate]. }
      unfold long_step. rewrite split_equals_app by exact Hsp. cbn [apply_sets].
      assert (Hg : exists k, aget n kinds = Some k).
      { destruct Hk as [Hk|Hk]; [destruct (kind_valued _ Hk) as (k & E & _); eauto|rewrite (kind_switch _ Hk); eauto]. }
      destruct Hg as (k & ->).
      destruct (set n v g) as [g'|] eqn:Es; [|destruct k; eauto].
      specialize (IH acc g'). destruct k; exact IH.
    - destruct (known_text n (or_intror Hk)) as [Hne Hsp]. rewrite parse_long by exact Hne.
      unfold long_step. rewrite Hsp, (kind_switch _ Hk). cbn [apply_sets].
      destruct (set n "true" g) as [g'|]; [apply IH|eauto].
    - destruct (known_text n (or_introl Hk)) as [Hne Hsp]. rewrite parse_long by exact Hne.
      unfold long_step. rewrite Hsp.
      destruct (kind_valued _ Hk) as (k & -> & Hns). cbn [apply_sets].
      destruct (set n v g) as [g'|]; [specialize (IH acc g')|]; destruct k; try contradiction; eauto.
  Qed.

  Lemma parse_reads : forall m args acc g g' ns, length args <= m ->
    parse args acc g = Parsed g' ns ->
    exists ss ns', reading valued switch args ss ns' /\ apply_sets ss g = Some g' /\ ns = (rev acc ++ ns')%list.
  Proof.
    induction m as [|m IH]; intros args acc g g' ns Hl H.
    - destruct args; [|cbn in Hl; lia]. cbn in H. injection H as <- <-.
      exists [], []. rewrite app_nil_r. repeat split; constructor.
    - destruct args as [|a r].
      { cbn in H. injection H as <- <-. exists [], []. rewrite app_nil_r. repeat split; constructor. }
      cbn in Hl. destruct (arg_cases a) as [Hp|[-> |[(t & Ht & ->)|Hs]]].
      + rewrite parse_plain in H by exact Hp. apply IH in H; [|lia].
        destruct H as (ss & ns' & Hr & Ha & ->). exists ss, (a :: ns').
        split; [constructor; assumption|]. split; [exact Ha|]. cbn [rev]. now rewrite <- app_assoc.
      + cbn in H. injection H as <- <-. exists [], r. repeat split; constructor.
      + rewrite parse_long in H by exact Ht. unfold long_step in H.
        destruct (split_equals t) as [n v] eqn:Es. apply split_back in Es.
        destruct (aget n kinds) as [k|] eqn:Ek; [|discriminate].
        apply kind_known in Ek. destruct v as [v|].
        * assert (H' : match set n v g with Some g' => parse r acc g' | None => Refused g end = Parsed g' ns)
            by (destruct k; exact H). clear H.
          destruct (set n v g) as [g1|] eqn:E1; [|discriminate].
          apply IH in H'; [|lia]. destruct H' as (ss & ns' & Hr & Ha & ->).
          exists ((n, v) :: ss), ns'. rewrite Es. split; [constructor; [tauto|exact Hr]|].
          cbn. rewrite E1. split; [exact Ha|reflexivity].
        * rewrite append_nil in Es. subst t. destruct Ek as [[-> Hk]|[Hne Hk]].
          -- destruct (set n "true" g) as [g1|] eqn:E1; [|discriminate].
             apply IH in H; [|lia]. destruct H as (ss & ns' & Hr & Ha & ->).
             exists ((n, "true") :: ss), ns'. split; [constructor; assumption|].
             cbn [apply_sets]. rewrite E1. split; [exact Ha|reflexivity].
          -- assert (H' : match r with
                          | [] => Refused g
                          | v :: r' => match set n v g with Some g' => parse r' acc g' | None => Refused g end
                          end = Parsed g' ns) by (destruct k; try exact H; contradiction). clear H.
             destruct r as [|v r]; [discriminate|].
             destruct (set n v g) as [g1|] eqn:E1; [|discriminate].
             cbn in Hl. apply IH in H'; [|lia]. destruct H' as (ss & ns' & Hr & Ha & ->).
             exists ((n, v) :: ss), ns'. split; [constructor; assumption|].
             cbn [apply_sets]. rewrite E1. split; [exact Ha|reflexivity].
      + rewrite parse_short in H by exact Hs. discriminate.
  Qed.

  Lemma parse_not_short : forall m args acc g, length args <= m -> (forall a, In a args -> ~ short a) ->
    parse args acc g <> Short.
  Proof.
    induction m as [|m IH]; intros args acc g Hl Hs.
    - destruct args; [discriminate|cbn in Hl; lia].
    - destruct args as [|a r]; [discriminate|]. cbn in Hl.
      assert (Hr : forall a, In a r -> ~ short a) by (intros b Hb; apply Hs; right; exact Hb).
      destruct (arg_cases a) as [Hp|[-> |[(t & Ht & ->)|Ha]]].
      + rewrite parse_plain by exact Hp. apply IH; [lia|exact Hr].
      + discriminate.
      + rewrite parse_long by exact Ht. unfold long_step.
        destruct (split_equals t) as [n [v|]]; destruct (aget n kinds) as [k|]; try discriminate.
        * assert (H : match set n v g with Some g' => parse r acc g' | None => Refused g end <> Short).
          { destruct (set n v g); [apply IH; [lia|exact Hr]|discriminate]. }
          destruct k; exact H.
        * destruct k.
          2:{ destruct (set n "true" g); [apply IH; [lia|exact Hr]|discriminate]. }
          all: destruct r as [|v r]; [discriminate|]; destruct (set n v g);
               [cbn in Hl; apply IH; [lia|intros b Hb; apply Hr; right; exact Hb]|discriminate].
      + exfalso. apply (Hs a); [left; reflexivity|exact Ha].
  Qed.

  (** Which settings are accepted. *)
  Variable sane : string * string -> Prop.
  Hypothesis set_sane : forall n v g g', set n v g = Some g' -> sane (n, v).
  Hypothesis set_total : forall n v g, known (n, v) -> sane (n, v) -> exists g', set n v g = Some g'.

  Lemma apply_sane : forall ss g g', apply_sets ss g = Some g' -> Forall sane ss.
  Proof.
    induction ss as [|[n v] r IH]; intros g g' H; [constructor|]. cbn in H.
    destruct (set n v g) as [g1|] eqn:E; [|discriminate].
    constructor; [exact (set_sane _ _ _ _ E)|exact (IH _ _ H)].
  Qed.

  Lemma apply_total : forall ss g, Forall known ss -> Forall sane ss -> exists g', apply_sets ss g = Some g'.
  Proof.
    induction ss as [|[n v] r IH]; intros g Hk Hs; [eexists; reflexivity|].
    inversion Hk; inversion Hs; subst. cbn.
    destruct (set_total n v g) as (g1 & ->); [assumption|assumption|]. apply IH; assumption.
  Qed.
End Reader.
