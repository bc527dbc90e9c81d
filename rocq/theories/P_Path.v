(** C74: where files are, and C75: which file is started for a function. *)

From Coq Require Import String Ascii List ZArith Bool Arith Lia.
From Verif Require Import Str Value Outcome Key Merge Fpath Loader Config Ipl Explain State Engine Meta Worlds
  SpecKey SpecPath SpecConfig SpecResolve SpecLookup StrFacts PathFacts LoaderFacts ResolveRun.
Import ListNotations.
Open Scope string_scope.
Open Scope list_scope.

(** ** C74 *)

Lemma names_nil : Forall name [].
Proof. constructor. Qed.

(** Cleaning a path keeps the place, from wherever, and removes detours. *)
Theorem C74_clean : forall p,
  direct (clean p) /\ (absolute (clean p) <-> absolute p) /\
  forall at_ to, Forall name at_ -> (reaches at_ (clean p) to <-> reaches at_ p to).
Proof.
  intro p. destruct (clean_direct p) as (D & A & P). split; [ exact D | ]. split.
  - rewrite !absolute_is, A. reflexivity.
  - intros at_ to H. rewrite !reaches_place by exact H. rewrite P by exact H. reflexivity.
Qed.
Print Assumptions C74_clean.

Example C74_clean_example : clean "/h/./data//../x/" = "/h/x" /\ clean "a/../../b" = "../b" /\
  reaches ["u"; "v"] "a/../../b" ["u"; "b"] /\ reaches ["u"; "v"] "/h/./data//../x/" ["h"; "x"].
Proof.
  assert (N : Forall name ["u"; "v"]).
  { repeat constructor; try discriminate; intros [C|[]]; discriminate. }
  split; [ reflexivity | ]. split; [ reflexivity | ]. split; apply reaches_place; auto.
Qed.

(** Two paths are cleaned to the same text exactly when they lead to the same
    place from wherever. *)
Theorem C74_same_text : forall p q,
  clean p = clean q <-> forall at_ to, Forall name at_ -> (reaches at_ p to <-> reaches at_ q to).
Proof.
  intros p q. split.
  - intros E at_ to H. rewrite <- (proj2 (proj2 (C74_clean p)) at_ to H), <- (proj2 (proj2 (C74_clean q)) at_ to H), E. reflexivity.
  - intro H. apply direct_unique; [ apply clean_direct | apply clean_direct | ]. intros at_ Ha. rewrite !place_clean by exact Ha.
    apply reaches_place; [ exact Ha | ]. apply H; [ exact Ha | ]. apply reaches_place; auto.
Qed.
Print Assumptions C74_same_text.

Example C74_same_text_example : clean "/h/a/../b" = clean "/h//b/." /\ clean "../a" <> clean "a".
Proof. split; [ reflexivity | discriminate ]. Qed.

(** A path joined to another starts where that one leads, even with a slash at
    its beginning. *)
Theorem C74_join : forall at_ a b d ps to,
  Forall name at_ -> a <> "" -> reaches at_ a d -> parts b ps ->
  (reaches at_ (join2 a b) to <-> walks d ps to) /\ direct (join2 a b) /\ (absolute (join2 a b) <-> absolute a).
Proof.
  intros at_ a b d ps to H N Ra Pb. apply reaches_place in Ra; [ | exact H ]. apply parts_split in Pb. subst d ps.
  split; [ | split; [ apply join_direct; exact N | rewrite !absolute_is, join_is_abs by exact N; reflexivity ] ].
  rewrite reaches_place by exact H. rewrite place_join by assumption. symmetry.
  apply walks_walk; [ apply place_names; exact H | apply split_pieces_ok ].
Qed.
Print Assumptions C74_join.

Example C74_join_example : join2 "/h/conf" "../data/a.yaml" = "/h/data/a.yaml" /\ join2 "/h" "/etc" = "/h/etc".
Proof. split; reflexivity. Qed.

(** *** The directory of a file *)

Lemma upto_slash_none b : ~ occurs "/"%char b -> upto_slash b = "".
Proof.
  induction b as [|c b IH]; intro H; [ reflexivity | ]. cbn [upto_slash]. rewrite IH by (intro C; apply H; right; exact C).
  unfold ceq. destruct (Ascii.eqb_spec c c_slash) as [->|_]; [ destruct H; left; reflexivity | reflexivity ].
Qed.

Lemma upto_slash_last a b : ~ occurs "/"%char b -> upto_slash (a ++ "/" ++ b) = (a ++ "/")%string.
Proof.
  intro H. induction a as [|c a IH].
  - cbn [String.append upto_slash]. rewrite upto_slash_none by exact H. reflexivity.
  - cbn [String.append upto_slash]. cbn [String.append] in IH. rewrite IH. destruct a; reflexivity.
Qed.

(** The root of a configuration is the directory of its file: where the path
    before the last slash leads; for a path without a slash, where the program
    is. *)
Theorem C74_root : forall env path content c, config_new env path content = Ok c ->
  direct (c_root c) /\
  (~ occurs "/"%char path -> c_root c = ".") /\
  (forall a b at_ to, path = (a ++ "/" ++ b)%string -> ~ occurs "/"%char b -> Forall name at_ ->
     (reaches at_ (c_root c) to <-> reaches at_ (a ++ "/") to)).
Proof.
  intros env path content c E.
  assert (R : c_root c = dir path).
  { destruct content as [|x|v]; cbn [config_new] in E; [ injection E as <-; reflexivity | discriminate | ].
    destruct v as [| | | | | |m|]; try discriminate. destruct (cfg_type (VMap m)); [ | discriminate ]. unfold create_config in E.
    destruct (match mgets "defaults" m with Some (VMap d) => _ | Some _ => _ | None => _ end); try discriminate.
    cbn [obind] in E. destruct (match mgets "hierarchy" m with Some (VArr d) => _ | Some _ => _ | None => _ end); try discriminate.
    cbn [obind] in E. destruct (match mgets "default_hierarchy" m with Some (VArr d) => _ | Some _ => _ | None => _ end); try discriminate.
    cbn [obind] in E. injection E as <-. reflexivity. }
  rewrite R. unfold dir. split; [ apply clean_direct | ]. split.
  - intro H. rewrite upto_slash_none by exact H. reflexivity.
  - intros a b at_ to -> H N. rewrite upto_slash_last by exact H. apply C74_clean. exact N.
Qed.
Print Assumptions C74_root.

Example C74_root_example : exists c, config_new [] "/etc/hiera/../h/hiera.yaml" CfMissing = Ok c /\ c_root c = "/etc/h".
Proof. eexists. split; reflexivity. Qed.

(** *** Locations *)

(** The file [t] in the directory [dd] of a configuration with the root [root]:
    written [p], it is where going from the root along [dd], and from there
    along [t], leads. *)
Definition located (root dd t p : string) : Prop :=
  direct p /\
  forall at_, Forall name at_ -> exists r d ps to,
    reaches at_ root r /\ reaches r dd d /\ parts t ps /\ walks d ps to /\ reaches at_ p to.

Lemma below_place root dd at_ : Forall name at_ -> root <> "" -> place at_ (below root dd) = place (place at_ root) dd.
Proof.
  intros H N. unfold below. destruct (is_abs dd) eqn:A.
  - unfold place. rewrite A. reflexivity.
  - rewrite place_join by assumption. unfold place at 2. rewrite A. reflexivity.
Qed.

Lemma below_not_empty root dd : root <> "" -> below root dd <> "".
Proof.
  intro N. unfold below. destruct (is_abs dd) eqn:A; [ intros ->; discriminate | apply join_not_empty; exact N ].
Qed.

Lemma located_join root dd t : root <> "" -> located root dd t (join2 (below root dd) t).
Proof.
  intro N. split; [ apply join_direct; apply below_not_empty; exact N | ]. intros at_ H.
  assert (H1 : Forall name (place at_ root)) by (apply place_names; exact H).
  assert (H2 : Forall name (place (place at_ root) dd)) by (apply place_names; exact H1).
  exists (place at_ root), (place (place at_ root) dd), (split_slash t), (walk (place (place at_ root) dd) (split_slash t)).
  split; [ apply reaches_place; auto | ]. split; [ apply reaches_place; auto | ]. split; [ apply parts_split; reflexivity | ].
  split; [ apply walks_walk; auto using split_pieces_ok | ]. apply reaches_place; [ exact H | ].
  rewrite place_join by (exact H || apply below_not_empty; exact N). rewrite below_place by assumption. reflexivity.
Qed.

(** Only one text is located there. *)
Lemma located_unique root dd t p q : located root dd t p -> located root dd t q -> p = q.
Proof.
  intros [Dp Hp] [Dq Hq]. apply direct_unique; [ exact Dp | exact Dq | ]. intros at_ H.
  destruct (Hp at_ H) as (r & d & ps & to & R1 & R2 & R3 & R4 & R5). destruct (Hq at_ H) as (r' & d' & ps' & to' & S1 & S2 & S3 & S4 & S5).
  apply parts_split in R3, S3. subst ps ps'.
  apply reaches_place in R1, S1; try exact H. subst r r'.
  apply reaches_place in R2, S2; try (apply place_names; exact H). subst d d'.
  assert (N : Forall name (place (place at_ root) dd)) by (apply place_names; apply place_names; exact H).
  apply walks_walk in R4, S4; try exact N; try apply split_pieces_ok. subst to to'.
  apply reaches_place in R5, S5; try exact H. congruence.
Qed.

(** The paths of a resolved entry, in order, are those of the entry, each
    interpolated and located in the data directory of the resolved entry. *)
Theorem C74_locations : forall w n root d e s e' s' ts ls,
  root <> "" -> resolve_entry w (run w n) root d e s = (Ok e', s') ->
  e_locations e = Some (map new_path ts) -> e_locations e' = Some ls ->
  Forall2 (fun t l => exists t' p ok, text_result w n (iv_scope (s_iv s)) t t' /\
             l = LPath t p ok /\ located root (e_datadir e') t' p) ts ls.
Proof.
  intros w n root d e s e' s' ts ls Hr E E0 El. apply resolve_ran in E as [_ R].
  pose proof (rn_locations _ _ _ _ _ _ _ R) as L. rewrite E0 in L. destruct L as (lss & F & El'). rewrite El in El'. injection El' as ->.
  clear - Hr F. revert lss F. induction ts as [|t ts IH]; intros lss F; inversion F as [|l0 x0 ? lss0 H F']; subst; [ constructor | ].
  unfold new_path in H. inversion H as [? ? ? t' ok Ht| | |]; subst. cbn [concat app]. constructor; [ | apply IH; exact F' ].
  exists t', (join2 (below root (e_datadir e')) t'), ok. split; [ exact Ht | ]. split; [ reflexivity | ]. apply located_join. exact Hr.
Qed.
Print Assumptions C74_locations.

(** The plugin directory of a resolved entry is where it leads from the root. *)
Theorem C74_plugindir : forall w n root d e s e' s',
  root <> "" -> resolve_entry w (run w n) root d e s = (Ok e', s') ->
  exists p, (e_plugindir e <> "" -> text_result w n (iv_scope (s_iv s)) (e_plugindir e) p) /\
    forall at_, Forall name at_ -> exists r to, reaches at_ root r /\ reaches r p to /\ reaches at_ (e_plugindir e') to.
Proof.
  intros w n root d e s e' s' Hr E. apply resolve_ran in E as [_ R].
  destruct (rn_plugindir _ _ _ _ _ _ _ R) as (p & D & Ep). exists p. split.
  - intro N. destruct D as [dd inh d' Hd Ht|inh]; [ exact Ht | congruence ].
  - intros at_ H. assert (H1 : Forall name (place at_ root)) by (apply place_names; exact H).
    exists (place at_ root), (place (place at_ root) p).
    split; [ apply reaches_place; auto | ]. split; [ apply reaches_place; auto | ]. apply reaches_place; [ exact H | ].
    rewrite Ep. symmetry. apply below_place; assumption.
Qed.
Print Assumptions C74_plugindir.

Example C74_locations_example :
  exists e' s', resolve_entry (file_world [] []) (run (file_world [] []) 5) "/h" None
      (mk_entry "d/../data" "plug" "" None None "node" (Some (map new_path ["a/%{v}.yaml"; "./c.yaml"])))
      (init_st (ScMap [(VStr "v", VStr "x")]) None) = (Ok e', s') /\
    e_locations e' = Some [LPath "a/%{v}.yaml" "/h/data/a/x.yaml" false; LPath "./c.yaml" "/h/data/c.yaml" false] /\
    located "/h" "d/../data" "a/x.yaml" "/h/data/a/x.yaml" /\ e_plugindir e' = "/h/plug".
Proof.
  eexists. eexists. split; [ vm_compute; reflexivity | ]. split; [ reflexivity | ]. split; [ | reflexivity ].
  exact (located_join "/h" "d/../data" "a/x.yaml" ltac:(discriminate)).
Qed.

(** *** Lists of directories *)

Lemma split_colon_pieces s : forall cur, ~ occurs ":"%char cur ->
  split_colon_acc cur s <> [] /\ Forall (fun e => ~ occurs ":"%char e) (split_colon_acc cur s) /\
  (cur ++ s)%string = String.concat ":" (split_colon_acc cur s).
Proof.
  induction s as [|c s IH]; intros cur H; cbn [split_colon_acc].
  - split; [ discriminate | ]. split; [ auto | ]. apply sapp_nil.
  - unfold ceq. destruct (Ascii.eqb_spec c c_colon) as [->|Hn].
    + destruct (IH "" (fun x => x)) as (N & F & E). split; [ discriminate | ]. split; [ constructor; assumption | ].
      cbn [String.append] in E. destruct (split_colon_acc "" s) as [|x l] eqn:G; [ congruence | ].
      change (String.concat ":" (cur :: x :: l)) with (cur ++ ":" ++ String.concat ":" (x :: l))%string. rewrite <- E. reflexivity.
    + destruct (IH (cur ++ str1 c)%string) as (N & F & E).
      { intro O. apply occurs_app in O as [O|[O|[]]]; [ exact (H O) | exact (Hn O) ]. }
      split; [ exact N | ]. split; [ exact F | ]. rewrite <- E, sapp_assoc. reflexivity.
Qed.

(** The directories of a module path are its parts between colons, none when it
    is empty. *)
Theorem C74_list : forall s,
  (s = "" -> split_list s = []) /\
  (s <> "" -> split_list s <> [] /\ Forall (fun e => ~ occurs ":"%char e) (split_list s) /\ s = String.concat ":" (split_list s)).
Proof.
  intro s. split; [ intros ->; reflexivity | ]. intro N. unfold split_list. destruct s as [|c s]; [ congruence | ].
  exact (split_colon_pieces (String c s) "" (fun x => x)).
Qed.
Print Assumptions C74_list.

Example C74_list_example : split_list "/m1:/m2::x" = ["/m1"; "/m2"; ""; "x"].
Proof. reflexivity. Qed.

(** ** C75 *)

(** The loaders hand the path of a plugin on unchanged, whatever the names of
    its directories are. *)
Theorem C75_loader : forall es, Forall name es -> es <> [] ->
  loader_path (spelled true es) = Some (spelled true es).
Proof. exact loader_path_is. Qed.
Print Assumptions C75_loader.

Example C75_loader_example : loader_path "/opt/plugin/hiera/plugin/vault" = Some "/opt/plugin/hiera/plugin/vault".
Proof. reflexivity. Qed.

(** What is asked when the function of an entry is loaded, and what comes out:
    the functions of the session are first, then the plugin in the file that
    the entry describes. *)
Theorem C75_load_function : forall w e n s, absolute (w_cwd w) ->
  exists path, plugin_file (w_cwd w) e n path /\
  let t1 := s_trace s in let t2 := s_trace s ++ [EvFun n] in
  match load_function w e n s with
  | (o, s') =>
      if w_fun w t1 n then o = Ok (Some (FnSession n)) /\ s_trace s' = t2
      else if String.eqb path "/" then o = Ok None /\ s_trace s' = t2
      else s_trace s' = t2 ++ [EvPlugin path n] /\
           o = match w_plugin w t2 path n with
               | Ok true => Ok (Some (FnPlugin path n))
               | Ok false => Ok None
               | Panic x => Panic x | Hang => Hang | NoFuel => NoFuel
               end
  end.
Proof.
  intros w e n s C. exists (plugin_path (w_cwd w) e n). split; [ apply plugin_path_file; exact C | ].
  intros t1 t2. unfold load_function. rewrite (loader_plugin _ _ _ _ (plugin_path_file _ e n C)).
  set (path := plugin_path (w_cwd w) e n). 
  assert (A : forall A ev (f : list event -> A) s, ask ev f s = (Ok (f (s_trace s)), with_trace (s_trace s ++ [ev]) s)) by reflexivity.
  unfold bind. rewrite A. fold t1. destruct (w_fun w t1 n); [ split; reflexivity | ].
  destruct (String.eqb path "/"); [ split; reflexivity | ]. rewrite A. change (s_trace (with_trace (t1 ++ [EvFun n]) s)) with t2. cbv beta iota.
  destruct (w_plugin w t2 path n) as [[|]|x| |]; split; reflexivity.
Qed.
Print Assumptions C75_load_function.

Example C75_load_function_example :
  plugin_file "/work" (mk_entry "" "plug" "" None (Some (mk_fdef KLookupKey "vault")) "v" None) "vault" "/work/plug/vault" /\
  plugin_file "/work" (mk_entry "" "/opt/p" "../bin/v" None None "v" None) "vault" "/opt/bin/v".
Proof.
  assert (C : absolute "/work") by (exists "work"; reflexivity).
  split; [ exact (plugin_path_file "/work" (mk_entry "" "plug" "" None (Some (mk_fdef KLookupKey "vault")) "v" None) "vault" C)
         | exact (plugin_path_file "/work" (mk_entry "" "/opt/p" "../bin/v" None None "v" None) "vault" C) ].
Qed.

(** Two entries get their functions from the same plugin exactly when the files
    that they describe are at the same place, however they are written. *)
Theorem C75_same_plugin : forall cwd e1 n1 e2 n2 p1 p2,
  plugin_file cwd e1 n1 p1 -> plugin_file cwd e2 n2 p2 ->
  (p1 = p2 <-> exists to, reaches [] p1 to /\ reaches [] p2 to).
Proof.
  intros cwd e1 n1 e2 n2 p1 p2 H1 H2. apply plugin_file_names in H1 as (es1 & N1 & ->), H2 as (es2 & N2 & ->). split.
  - intro E. exists es1. rewrite <- E. split; apply reaches_place; try constructor; symmetry; apply place_absolute; exact N1.
  - intros (to & R1 & R2). apply reaches_place in R1, R2; try constructor. rewrite place_absolute in R1, R2 by assumption. congruence.
Qed.
Print Assumptions C75_same_plugin.

(** A directory called plugin and a detour change nothing: both entries use one
    plugin. *)
Example C75_same_plugin_example :
  let e1 := mk_entry "" "/opt/plugin" "" None (Some (mk_fdef KLookupKey "vault")) "a" None in
  let e2 := mk_entry "" "x" "/opt/./x/../plugin//vault" None (Some (mk_fdef KDataHash "other")) "b" None in
  plugin_file "/work" e1 "vault" "/opt/plugin/vault" /\ plugin_file "/work" e2 "other" "/opt/plugin/vault".
Proof.
  intros e1 e2. assert (C : absolute "/work") by (exists "work"; reflexivity).
  split; [ exact (plugin_path_file "/work" e1 "vault" C) | exact (plugin_path_file "/work" e2 "other" C) ].
Qed.

(** A function of the session hides a plugin, and the root directory is no
    plugin. *)
Example C75_load_function_run :
  let e := mk_entry "" "/opt" "" None (Some (mk_fdef KLookupKey "vault")) "a" None in
  let s := init_st (ScMap []) None in
  fst (load_function (with_funs [("vault", fun _ => PRet None)] (file_world [] [])) e "vault" s) = Ok (Some (FnSession "vault")) /\
  s_trace (snd (load_function (file_world [] []) e "vault" s)) = [EvFun "vault"; EvPlugin "/opt/vault" "vault"] /\
  s_trace (snd (load_function (file_world [] []) (mk_entry "" "" "/" None None "a" None) "vault" s)) = [EvFun "vault"].
Proof. split; [ reflexivity | split; reflexivity ]. Qed.
