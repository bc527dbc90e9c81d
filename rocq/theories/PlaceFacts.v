(** The flag of a location tells whether there is something. *)

From Coq Require Import Bool.
From Verif Require Outcome.
From Verif Require Import Config SpecPlace.

Lemma there_exists l : there l <-> loc_exists l = true.
Proof. destruct l as [o r b|p|o r|a b c]; cbn; split; auto; try discriminate; contradiction. Qed.
Lemma not_there l : ~ there l <-> loc_exists l = false.
Proof. rewrite there_exists. apply not_true_iff_false. Qed.
Lemma resolved_place l p : resolved_as l p <-> loc_resolved l = Outcome.Ok p.
Proof. destruct l as [o r b|q|o r|a b c]; cbn; split; intro H; try contradiction; try discriminate; congruence. Qed.
