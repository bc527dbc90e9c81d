(** Facts about the roots of keys that are read as keys once more. *)

From Coq Require Import String Ascii List ZArith Bool.
From Verif Require Import Str Value Outcome Key Merge Fpath Config State Engine
  SpecKey SpecIpl SpecInterp SpecConfig KeyFacts SpecLookup.
Import ListNotations.
Open Scope string_scope.
Open Scope list_scope.

Lemma written_new t ps : written_key t ps -> new_key t = Ok (mk_key t ps).
Proof. intro H. apply new_key_written. exists ps. auto. Qed.

Lemma written_det t ps qs : written_key t ps -> written_key t qs -> ps = qs.
Proof. intros H1 H2. apply written_new in H1, H2. congruence. Qed.

Lemma root_det r x y : root_is r x -> root_is r y -> x = y.
Proof. intros (ps & H1) (qs & H2). pose proof (written_det _ _ _ H1 H2). congruence. Qed.

Lemma plain_root r : plain_key r -> root_is r r.
Proof. intro H. exists []. exact H. Qed.

Lemma plain_root_only r x : plain_key r -> root_is r x -> x = r.
Proof. intros H1 H2. exact (root_det _ _ _ H2 (plain_root r H1)). Qed.

Lemma plain_correct r : plain_key r -> correct_key r.
Proof. intro H. exists [PStr r]. exact H. Qed.

Lemma correct_new r : correct_key r -> exists x ps, written_key r (PStr x :: ps) /\ new_key r = Ok (mk_key r (PStr x :: ps)).
Proof.
  intros (parts & H). pose proof (written_new _ _ H) as E. destruct (new_key_root _ _ E) as (x & ps & Ep & _).
  cbn [k_parts] in Ep. subst parts. exists x, ps. auto.
Qed.

Lemma root_correct r x : root_is r x -> correct_key r.
Proof. intros (ps & H). exists (PStr x :: ps). exact H. Qed.

Lemma options_key_plain : plain_key "lookup_options".
Proof.
  assert (H : new_key "lookup_options" = Ok (mk_key "lookup_options" [PStr "lookup_options"])) by reflexivity.
  apply new_key_written in H as (parts & E & H). injection E as <-. exact H.
Qed.

Lemma plain_options all r lo : plain_key r -> options_for all r lo -> options_of all r lo.
Proof. intros H Ho. exists r. split; [ exact (plain_root r H) | exact Ho ]. Qed.

Lemma options_plain all r lo : plain_key r -> options_of all r lo -> options_for all r lo.
Proof. intros H (x & Hx & Ho). rewrite <- (plain_root_only r x H Hx). exact Ho. Qed.
