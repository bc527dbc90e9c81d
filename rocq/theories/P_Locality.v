(** C95: a lookup depends on nothing but its settings and the answers to what it
    asked.  Files, directories and functions that it did not ask about may be
    there or not, and may hold or do anything. *)

From Coq Require Import String List ZArith Bool Arith.
From Verif Require Import Str Value Outcome Key Merge Fpath Config Ipl Explain State Engine Session Worlds Api.
From Verif Require Import Locality.
Import ListNotations.
Open Scope string_scope.

(** What is asked while the state goes from one to the other: [d] in this order. *)
Definition asked_between (s s' : st) (d : list event) : Prop := s_trace s' = (s_trace s ++ d)%list.

Lemma whole_trace : forall w v A (m m' : M st A) s d,
  follows w v A m m' -> asked_between s (snd (m s)) d -> alike_on w (answered_by w v) (s_trace s) d -> m' s = m s.
Proof.
  intros w v A m m' s d H E K. destruct (H s) as (d' & E' & F). unfold asked_between in E. rewrite E' in E.
  apply app_inv_head in E. subst d'. exact (F K).
Qed.

(** A lookup. *)
Theorem C95_lookup : forall w v n k opts s d,
  same_settings w v ->
  asked_between s (snd (run_lookup w n k opts s)) d ->
  alike_on w v (s_trace s) d ->
  run_lookup v n k opts s = run_lookup w n k opts s.
Proof.
  intros w v n k opts s d H E K. pose proof (whole_trace w v _ _ _ s d (l_run_lookup w v n k opts) E) as T.
  rewrite (answered_same w v H) in T. exact (T K).
Qed.
Print Assumptions C95_lookup.

(** Any number of lookups of one session, explained or not. *)
Theorem C95_session : forall w v n explain rs s d,
  same_settings w v ->
  asked_between s (snd (serve w n explain rs s)) d ->
  alike_on w v (s_trace s) d ->
  serve v n explain rs s = serve w n explain rs s.
Proof.
  intros w v n explain rs s d H E K.
  pose proof (whole_trace w v _ _ _ s d (l_serve w v n explain rs)) as T. cbv beta in T.
  rewrite (answered_same w v H) in T.
  destruct (serve w n explain rs s) as [os s1]. specialize (T E K).
  destruct (serve v n explain rs s) as [os' s1']. injection T as -> ->. reflexivity.
Qed.
Print Assumptions C95_session.

(** The second world is like the first one but for questions of this kind. *)
Definition differ_only (X : event -> Prop) (w v : world) : Prop :=
  same_settings w v /\ forall t e, ~ X e -> answer_alike w v t e.

Theorem C95_elsewhere : forall X w v n explain rs sc x,
  differ_only X w v ->
  Forall (fun e => ~ X e) (s_trace (snd (serve w n explain rs (init_st sc x)))) ->
  serve v n explain rs (init_st sc x) = serve w n explain rs (init_st sc x).
Proof.
  intros X w v n explain rs sc x [H D] F.
  apply (C95_session w v n explain rs _ _ H (eq_refl : asked_between (init_st sc x) _ _)).
  intros d1 e d2 E. apply D. rewrite Forall_forall in F. apply F. rewrite E. apply in_or_app. right. left. reflexivity.
Qed.
Print Assumptions C95_elsewhere.

(** What there is at a path, and what patterns match: all questions that the
    file at this path may have a part in. *)
Definition about_path (p : string) (e : event) : Prop :=
  match e with
  | EvStat q | EvConfig q | EvYaml q | EvJson q | EvReadDir q | EvLstat q => q = p
  | EvGlob _ => True
  | _ => False
  end.

(** A file that is created, removed or changed does not matter to a session that
    did not ask about its path and expands no patterns. *)
Theorem C95_other_file : forall p w v n explain rs sc x,
  differ_only (about_path p) w v ->
  (forall e, In e (s_trace (snd (serve w n explain rs (init_st sc x)))) -> ~ about_path p e) ->
  serve v n explain rs (init_st sc x) = serve w n explain rs (init_st sc x).
Proof.
  intros p w v n explain rs sc x D F. apply (C95_elsewhere (about_path p)); [ exact D | ]. apply Forall_forall. exact F.
Qed.
Print Assumptions C95_other_file.

(** The lookup command and a request to the service, with what they write. *)
Theorem C95_command : forall (T : Type) inst conv any parse_type struct_of parse file stdin session_scope render render_explainer
    (X : event -> Prop) w v n opts args s d,
  (forall f s, s_trace (snd (render_explainer f s)) = s_trace s) ->
  differ_only X w v ->
  let command := fun u => lookup_and_render (T := T) inst conv any parse_type struct_of parse file stdin (engine_invoke session_scope)
                            (engine_ask u n) render render_explainer opts args in
  asked_between s (snd (command w s)) d -> Forall (fun e => ~ X e) d ->
  command v s = command w s.
Proof.
  intros T inst conv any parse_type struct_of parse file stdin session_scope render render_explainer X w v n opts args s d Hr [H D] command E F.
  assert (Hr' : forall f, follows w v _ (render_explainer f) (render_explainer f)).
  { intro f. apply l_still. intro s0. split; [ apply Hr | reflexivity ]. }
  pose proof (whole_trace w v _ _ _ s d (l_lookup_and_render w v inst conv any parse_type struct_of parse file stdin session_scope
                render render_explainer Hr' n opts args) E) as Q.
  rewrite (answered_same w v H) in Q. apply Q.
  intros d1 e d2 Ed. apply D. rewrite Forall_forall in F. apply F. rewrite Ed. apply in_or_app. right. left. reflexivity.
Qed.
Print Assumptions C95_command.

(** *** Examples: two levels, one of them after a variable; the second world has
    another file, which only requests that set the variable to its name look at. *)
Definition lc_files : list (string * value) :=
  [("/h/data/x.yaml", vmap [("k", VStr "of x")]);
   ("/h/data/common.yaml", vmap [("k", VStr "common"); ("l", VStr "%{lookup('k')}!")])].
Definition lc_other : list (string * value) := (lc_files ++ [("/h/data/y.yaml", vmap [("k", VStr "of y")])])%list.
Definition lc_world (files : list (string * value)) : world :=
  file_world [("/h/hiera.yaml", levels ["%{env}"; "common"])] files.
Definition lc_ask (env k : string) : request :=
  mk_request (ScMap [(VStr "env", VStr env)]) (mk_key k [PStr k]) None.
Definition lc_requests : list request := [lc_ask "x" "k"; lc_ask "z" "l"; lc_ask "x" "l"].

Lemma lc_differ : differ_only (about_path "/h/data/y.yaml") (lc_world lc_files) (lc_world lc_other).
Proof.
  split; [ constructor; reflexivity | ].
  assert (G : forall p, p <> "/h/data/y.yaml" -> aget p lc_other = aget p lc_files).
  { intros p N. unfold lc_other, lc_files. cbn [app aget].
    destruct (String.eqb_spec p "/h/data/x.yaml"); [ reflexivity | ].
    destruct (String.eqb_spec p "/h/data/common.yaml"); [ reflexivity | ].
    destruct (String.eqb_spec p "/h/data/y.yaml"); [ contradiction | reflexivity ]. }
  intros t e N. destruct e; cbn [about_path] in N; try reflexivity;
    cbn [answer_alike lc_world file_world w_stat w_yaml w_json]; rewrite (G p N); reflexivity.
Qed.

Definition lc_quiet (e : event) : bool :=
  match e with
  | EvStat q | EvConfig q | EvYaml q | EvJson q | EvReadDir q | EvLstat q => negb (String.eqb q "/h/data/y.yaml")
  | EvGlob _ => false
  | _ => true
  end.

Lemma lc_unasked : forall l, forallb lc_quiet l = true -> Forall (fun e => ~ about_path "/h/data/y.yaml" e) l.
Proof.
  intros l H. rewrite forallb_forall in H. apply Forall_forall. intros e I. specialize (H e I). clear I.
  destruct e; cbn in *; try discriminate H; try (intro E; subst; discriminate H); tauto.
Qed.

Example C95_other_file_ex :
  differ_only (about_path "/h/data/y.yaml") (lc_world lc_files) (lc_world lc_other) /\
  Forall (fun e => ~ about_path "/h/data/y.yaml" e)
    (s_trace (snd (serve (lc_world lc_files) 20 false lc_requests (init_st (ScMap []) None)))) /\
  fst (serve (lc_world lc_other) 20 false lc_requests (init_st (ScMap []) None)) =
    [Ok (Some (VStr "of x")); Ok (Some (VStr "common!")); Ok (Some (VStr "of x!"))].
Proof.
  split; [ exact lc_differ | ]. split; [ | vm_compute; reflexivity ].
  apply lc_unasked. vm_compute. reflexivity.
Qed.

(** Where the file is asked about it does matter. *)
Example C95_other_file_asked :
  fst (serve (lc_world lc_files) 20 false [lc_ask "y" "k"] (init_st (ScMap []) None)) = [Ok (Some (VStr "common"))] /\
  fst (serve (lc_world lc_other) 20 false [lc_ask "y" "k"] (init_st (ScMap []) None)) = [Ok (Some (VStr "of y"))] /\
  existsb (fun e => match e with EvStat p => String.eqb p "/h/data/y.yaml" | _ => false end)
    (s_trace (snd (serve (lc_world lc_files) 20 false [lc_ask "y" "k"] (init_st (ScMap []) None)))) = true.
Proof. vm_compute. repeat split. Qed.

(** One lookup: the questions in order, each of them answered alike. *)
Example C95_lookup_ex :
  let s := init_st (ScMap [(VStr "env", VStr "x")]) None in
  let d := [EvConfig "/h/hiera.yaml"; EvStat "/h/data/x.yaml"; EvStat "/h/data/common.yaml"; EvYaml "/h/data/x.yaml"; EvYaml "/h/data/common.yaml"] in
  same_settings (lc_world lc_files) (lc_world lc_other) /\
  asked_between s (snd (run_lookup (lc_world lc_files) 20 (mk_key "k" [PStr "k"]) None s)) d /\
  alike_on (lc_world lc_files) (lc_world lc_other) (s_trace s) d /\
  fst (run_lookup (lc_world lc_files) 20 (mk_key "k" [PStr "k"]) None s) = Ok (Some (VStr "of x")).
Proof.
  cbv zeta. split; [ apply lc_differ | ]. split; [ vm_compute; reflexivity | ]. split; [ | vm_compute; reflexivity ].
  intros d1 e d2 E. apply lc_differ.
  assert (I : In e [EvConfig "/h/hiera.yaml"; EvStat "/h/data/x.yaml"; EvStat "/h/data/common.yaml"; EvYaml "/h/data/x.yaml"; EvYaml "/h/data/common.yaml"]).
  { rewrite E. apply in_or_app. right. left. reflexivity. }
  cbn [In] in I. repeat (destruct I as [<-|I]; [ cbn; discriminate | ]). contradiction.
Qed.

(** Explained: the same explanation is built, too. *)
Example C95_session_ex :
  serve (lc_world lc_other) 20 true lc_requests (init_st (ScMap []) (Some (new_explainer true false))) =
  serve (lc_world lc_files) 20 true lc_requests (init_st (ScMap []) (Some (new_explainer true false))) /\
  x_root (s_ex (snd (serve (lc_world lc_files) 20 true lc_requests (init_st (ScMap []) (Some (new_explainer true false)))))) <>
  x_root (new_explainer true false).
Proof.
  split.
  - apply (C95_elsewhere (about_path "/h/data/y.yaml")); [ exact lc_differ | ].
    apply lc_unasked. vm_compute. reflexivity.
  - vm_compute. discriminate.
Qed.

(** The command with a default in case nothing is found. *)
Definition lc_command (w : world) : M st (bool * string) :=
  lookup_and_render (T := unit) (fun _ _ => true) (fun _ v => Ok v) tt (fun _ => Ok tt) (fun _ => None) (fun t => Ok (VStr t))
    (fun _ => VfEmpty) VfEmpty (engine_invoke (ScMap [])) (engine_ask w 20)
    (fun _ v => Ok match v with VStr t => t | _ => "?" end) (fun _ => ret "explained")
    (mk_command "" "" (Some "none") [] [] ["env=x"] "s" false false false) ["m"; "l"].
Example C95_command_ex :
  (exists d, asked_between (init_st (ScMap []) None) (snd (lc_command (lc_world lc_files) (init_st (ScMap []) None))) d /\
             Forall (fun e => ~ about_path "/h/data/y.yaml" e) d) /\
  fst (lc_command (lc_world lc_other) (init_st (ScMap []) None)) = Ok (true, "of x!").
Proof.
  split; [ | vm_compute; reflexivity ].
  exists (s_trace (snd (lc_command (lc_world lc_files) (init_st (ScMap []) None)))). split; [ unfold asked_between; change (s_trace (init_st (ScMap []) None)) with (@nil event); rewrite app_nil_l; reflexivity | ].
  apply lc_unasked. vm_compute. reflexivity.
Qed.
