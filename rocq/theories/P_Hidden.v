(** C21, exactly: which keys give what the files have under lookup_options. *)

From Coq Require Import String Ascii List ZArith Bool Arith Lia.
From Verif Require Import SpecPlace PlaceFacts.
From Verif Require Import Str Value Outcome Key Merge Fpath Config Ipl Explain State Engine Meta Session Worlds
  SpecKey SpecIpl SpecInterp SpecConfig SpecMerge SpecLookup
  KeyFacts ValueFacts MergeLookup StrFacts IplFacts InterpFacts IplExact Fuel ResolveFacts LookupExact HierarchyExact LookupTop
  SettledLookup ExLevels LookupFail Kept P_Lookup P_Nested P_Options RootFacts.
Import ListNotations.
Open Scope nat_scope.
Open Scope string_scope.
Open Scope list_scope.

(** For every key but one with the root lookup_options the root is read as a key
    once more, and its first part is what the files and the lookup options are
    asked for.  So the files give what they have under lookup_options exactly to
    the keys whose root is another text that reads as a key with that first part. *)
Theorem C21_exactly : forall w on_disk matching c sc es files k r ps opts N,
  steady w on_disk matching c -> hierarchy_is w on_disk matching sc c es ->
  k_parts k = PStr r :: ps ->
  Forall2 (level_is w) es files ->
  Forall (fun f => forall v, under "lookup_options" f = Some v -> wf v = true /\ settled v) files ->
  (r = "lookup_options" -> fst (run_lookup w (4 + N) k opts (init_st sc None)) = Ok None) /\
  (r <> "lookup_options" -> forall x others lo mo s o, written_key r (PStr x :: others) ->
     Forall (fun f => forall v, under x f = Some v -> wf v = true /\ settled v) files ->
     options_for (pure_lookup (SDeep []) (map (under "lookup_options") files)) x lo -> conversion_is lo None ->
     merge_option opts lo mo -> strategy_is mo s ->
     digs ps (pure_lookup s (map (under x) files)) o ->
     fst (run_lookup w (4 + N) k opts (init_st sc None)) = Ok o).
Proof.
  intros w od mt c sc es files k r ps opts N Hw Hh Hk Hf Ho. split.
  - intros ->. destruct (C21_lookup_options_not_found w (3 + N) k ps opts (init_st sc None) Hk eq_refl) as (x & E & _).
    change (4 + N)%nat with (S (3 + N)). rewrite E. reflexivity.
  - intros Hr x others lo mo s o Hx Hq Hlo Hcv Hm Hs Hd.
    apply (one_lookup w od mt c sc es 1 k opts o N Hw Hh).
    assert (Rx : root_is r x) by (exists others; exact Hx).
    exists r, ps, (pure_lookup (SDeep []) (map (under "lookup_options") files)), lo, mo, s, None,
      (pure_lookup s (map (under x) files)), (pure_lookup s (map (under x) files)).
    split; [ exact Hk | ]. split; [ exact Hr | ]. split; [ exact (root_correct r x Rx) | ]. split.
    { apply picks_pure. clear - Hf Ho.
      induction Hf as [|e l es ls H1 Hl IH]; [ constructor | ]. inversion Ho as [|? ? Hv H']; subst. constructor; [ | apply IH; assumption ].
      apply level_gives; [ exact options_key_plain | exact H1 | ]. intros v E. apply quiet_answers. apply Hv. exact E. }
    split; [ exists x; split; [ exact Rx | exact Hlo ] | ]. split; [ exact Hm | ]. split; [ exact Hs | ]. split; [ exact Hcv | ].
    split.
    { unfold hierarchy_gives. apply picks_pure. clear - Rx Hf Hq.
      induction Hf as [|e l es ls H Hl IH]; [ constructor | ]. inversion Hq as [|? ? Hv Hq']; subst. constructor; [ | apply IH; assumption ].
      apply root_gives; [ exact Rx | exact H | ]. intros v E. apply quiet_answers. apply Hv. exact E. }
    split; [ apply cv_no_conversion | ].
    destruct (pure_lookup s (map (under x) files)) as [y|] eqn:E.
    + exists (Some y). split; [ | exact Hd ]. apply quiet_answers. apply (quiet_pure s (map (under x) files)); [ | exact E ].
      clear - Hq. induction Hq as [|l ls H Hq IH]; [ constructor | ]. simpl. constructor; assumption.
    + inversion Hd. reflexivity.
Qed.
Print Assumptions C21_exactly.

(** Two files with lookup options: a quoted root that starts with lookup_options
    gives the options of the first file with strategy first and the options of
    both with strategy deep; the key after the root is followed from there. *)
Example C21_exactly_ex : forall N,
  fst (run_lookup opt_w (4 + N) (mk_key "'lookup_options.x'" [PStr "lookup_options.x"]) None (init_st (ScMap []) None)) =
    Ok (Some (vmap [("a", vmap [("merge", VStr "unique")])])) /\
  fst (run_lookup opt_w (4 + N) (mk_key "'lookup_options.x'.b.merge" [PStr "lookup_options.x"; PStr "b"; PStr "merge"])
         (Some [(VStr "merge", VStr "deep")]) (init_st (ScMap []) None)) = Ok (Some (VStr "best")).
Proof.
  intro N.
  assert (Wk : written_key "lookup_options.x" [PStr "lookup_options"; PStr "x"]).
  { apply written_by. reflexivity. }
  assert (Lo : options_for (pure_lookup (SDeep []) (map (under "lookup_options") opt_files)) "lookup_options" None).
  { eapply of_other; [ vm_compute; reflexivity | intros o E; vm_compute in E; discriminate E ]. }
  split.
  - refine (proj2 (C21_exactly opt_w opt_disk (fun _ => []) (levels_in ["node"; "common"]) (ScMap []) opt_es opt_files
              (mk_key "'lookup_options.x'" [PStr "lookup_options.x"]) "lookup_options.x" [] None N
              opt_steady opt_hierarchy eq_refl opt_levels (opt_settled "lookup_options" (or_introl eq_refl))) _
              "lookup_options" [PStr "x"] None None SFirst _ Wk (opt_settled "lookup_options" (or_introl eq_refl)) Lo _ _ _ _).
    + discriminate.
    + apply ci_none; discriminate.
    + apply mo_none; discriminate.
    + apply si_none.
    + apply digs_path. constructor.
  - refine (proj2 (C21_exactly opt_w opt_disk (fun _ => []) (levels_in ["node"; "common"]) (ScMap []) opt_es opt_files
              (mk_key "'lookup_options.x'.b.merge" [PStr "lookup_options.x"; PStr "b"; PStr "merge"]) "lookup_options.x" [PStr "b"; PStr "merge"]
              (Some [(VStr "merge", VStr "deep")]) N
              opt_steady opt_hierarchy eq_refl opt_levels (opt_settled "lookup_options" (or_introl eq_refl))) _
              "lookup_options" [PStr "x"] None (Some (VStr "deep")) (SDeep []) _ Wk (opt_settled "lookup_options" (or_introl eq_refl)) Lo _ _ _ _).
    + discriminate.
    + apply ci_none; discriminate.
    + eapply mo_explicit; reflexivity.
    + apply si_name. constructor.
    + match goal with |- digs _ ?x _ => let y := eval vm_compute in x in change x with y end.
      apply digs_path.
      eapply path_cons; [ | eapply path_cons; [ | constructor ] ].
      * eapply (step_str_key _ [(VStr "a", _)] "b" _ []); [ reflexivity | ]. intros y [E|[]]. discriminate E.
      * eapply (step_str_key _ [] "merge" _ []); [ reflexivity | ]. intros y [].
Qed.
