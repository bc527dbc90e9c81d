(** An explanation that is written as data can be read back: C59. *)

From Coq Require Import String Ascii List ZArith Bool Arith Lia.
From Verif Require Import Str Value Outcome Key Merge Config Explain ExplainData.
Import ListNotations.
Open Scope string_scope.
Open Scope list_scope.
Open Scope bool_scope.

(** ** The specification *)

(** The keys of sub lookups come from api.NewKey. *)
Definition key_made (k : key) : Prop := new_key (k_source k) = Ok k.

(** All keys in a tree do. *)
Inductive tree_made : node -> Prop :=
| tm_node : forall k bs ts e v key,
    (forall sk, k = NSubLookup sk -> key_made sk) -> Forall tree_made bs ->
    tree_made (Node k bs ts e v key).

Definition explainer_made (x : explainer) : Prop := Forall tree_made (fr_bs (x_root x)).

(** The tree with texts changed: the texts of nodes and the segments that are text. *)
Fixpoint retext (f : string -> string) (n : node) : node :=
  match n with
  | Node k bs ts e v key =>
      Node (match k with NSegment (PStr s) => NSegment (PStr (f s)) | _ => k end)
        (map (retext f) bs) (map f ts) e v key
  end.

Definition retext_frame (f : string -> string) (r : frame) : frame :=
  mk_frame (map (retext f) (fr_bs r)) (map f (fr_ts r)) (fr_e r) (fr_v r) (fr_k r).

(** Induction over trees. *)
Section Tree_ind.
  Variable P : node -> Prop.
  Hypothesis H : forall k bs ts e v key, Forall P bs -> P (Node k bs ts e v key).
  Fixpoint tree_ind (n : node) : P n :=
    match n with
    | Node k bs ts e v key =>
        H k bs ts e v key ((fix go (l : list node) : Forall P l :=
          match l with [] => Forall_nil _ | x :: r => Forall_cons x (tree_ind x) (go r) end) bs)
    end.
End Tree_ind.

(** ** Reading *)

Section Read.
  Variable show : value -> string.

  Definition make_list : list data -> outcome (list made) :=
    fix go (l : list data) : outcome (list made) :=
      match l with
      | [] => Ok []
      | x :: r => obind (make show x) (fun y => omap (cons y) (go r))
      end.
  Definition make_fields : list (string * data) -> outcome (list (string * made)) :=
    fix go (m : list (string * data)) : outcome (list (string * made)) :=
      match m with
      | [] => Ok []
      | (k, x) :: r => obind (make show x) (fun y => omap (cons (k, y)) (go r))
      end.

  Lemma make_arr l : make show (DArr l) = omap MArr (make_list l).
  Proof. reflexivity. Qed.
  Lemma make_obj ty m : make show (DObj ty m) = obind (make_fields m) (create show ty).
  Proof. reflexivity. Qed.

  Lemma make_fields_app a b : make_fields (a ++ b) = obind (make_fields a) (fun x => omap (app x) (make_fields b)).
  Proof.
    induction a as [|[k d] a IH]; cbn [app make_fields].
    - cbn [obind]. destruct (make_fields b); reflexivity.
    - destruct (make show d); cbn [obind]; try reflexivity. rewrite IH.
      destruct (make_fields a); cbn [obind omap]; try reflexivity. destruct (make_fields b); reflexivity.
  Qed.

  Let t (s : string) : string := show (VStr s).

  (** The fields that all nodes have, when they are read. *)
  Definition common_made (bs : list node) (ts : list string) (e : string) (v : option value) (k : string) : list (string * made) :=
    match bs with [] => [] | _ => [("branches", MArr (map MNode bs))] end ++
    (if String.eqb e "" then [] else [("event", MVal (VStr e))]) ++
    (if String.eqb k "" then [] else [("key", MVal (VStr k))]) ++
    match v with None => [] | Some v => [("value", MVal v)] end ++
    match ts with [] => [] | _ => [("texts", MArr (map (fun t => MVal (VStr t)) ts))] end.

  Lemma make_texts ts : make_list (map (fun t => DVal (VStr t)) ts) = Ok (map (fun t => MVal (VStr t)) ts).
  Proof. induction ts as [|x ts IH]; cbn [map make_list]; [ reflexivity | ]. cbn [make obind]. rewrite IH. reflexivity. Qed.

  Lemma make_nodes bs : Forall (fun n => make show (node_data n) = Ok (MNode (retext t n))) bs ->
    make_list (map node_data bs) = Ok (map MNode (map (retext t) bs)).
  Proof.
    induction 1 as [|n bs H _ IH]; cbn [map make_list]; [ reflexivity | ]. rewrite H. cbn [obind]. rewrite IH. reflexivity.
  Qed.

  Lemma make_common bs ts e v k : Forall (fun n => make show (node_data n) = Ok (MNode (retext t n))) bs ->
    make_fields (common_map (map node_data bs) ts e v k) = Ok (common_made (map (retext t) bs) ts e v k).
  Proof.
    intro H. apply make_nodes in H. unfold common_map, common_made.
    assert (A : make_fields (match map node_data bs with [] => [] | _ => [("branches", DArr (map node_data bs))] end) =
                Ok (match map (retext t) bs with [] => [] | _ => [("branches", MArr (map MNode (map (retext t) bs)))] end)).
    { destruct bs as [|n bs]; [ reflexivity | ]. cbn [map] in *. cbn [make_fields]. rewrite make_arr, H. reflexivity. }
    assert (B : make_fields (match ts with [] => [] | _ => [("texts", DArr (map (fun t => DVal (VStr t)) ts))] end) =
                Ok (match ts with [] => [] | _ => [("texts", MArr (map (fun t => MVal (VStr t)) ts))] end)).
    { destruct ts as [|x ts]; [ reflexivity | ]. cbn [make_fields]. rewrite make_arr, make_texts. reflexivity. }
    rewrite make_fields_app, A. cbn [obind]. rewrite make_fields_app.
    destruct (String.eqb e "") eqn:Ee; cbn [make_fields make obind omap]; rewrite make_fields_app;
      (destruct (String.eqb k "") eqn:Ek; cbn [make_fields make obind omap]; rewrite make_fields_app;
        (destruct v as [v|]; cbn [make_fields make obind omap]; rewrite B; reflexivity)).
  Qed.

  Lemma mfield_app k a b : mfield k (a ++ b) = match mfield k a with Some x => Some x | None => mfield k b end.
  Proof. induction a as [|[q x] a IH]; cbn [app mfield]; [ reflexivity | ]. destruct (String.eqb k q); [ reflexivity | exact IH ]. Qed.

  (** A field that is none of the common ones. *)
  Definition own (k : string) : Prop := k <> "branches" /\ k <> "event" /\ k <> "key" /\ k <> "value" /\ k <> "texts".

  Lemma mfield_own k bs ts e v key m : own k -> mfield k (common_made bs ts e v key ++ m) = mfield k m.
  Proof.
    intros (N1 & N2 & N3 & N4 & N5). rewrite mfield_app. unfold common_made.
    assert (Z : mfield k (match bs with [] => [] | _ => [("branches", MArr (map MNode bs))] end ++
      (if String.eqb e "" then [] else [("event", MVal (VStr e))]) ++
      (if String.eqb key "" then [] else [("key", MVal (VStr key))]) ++
      match v with None => [] | Some v => [("value", MVal v)] end ++
      match ts with [] => [] | _ => [("texts", MArr (map (fun t => MVal (VStr t)) ts))] end) = None).
    { rewrite !mfield_app.
      destruct bs, (String.eqb e ""), (String.eqb key ""), v, ts; cbn [mfield];
        repeat (match goal with |- context [String.eqb k ?x] => destruct (String.eqb_spec k x); [ contradiction | ] end); reflexivity. }
    rewrite Z. reflexivity.
  Qed.

  Lemma nodes_of_all bs : nodes_of (map MNode bs) = Ok bs.
  Proof. induction bs as [|n bs IH]; cbn [map nodes_of]; [ reflexivity | ]. rewrite IH. reflexivity. Qed.

  Lemma read_common_made bs ts e v k m :
    mfield "branches" m = None -> mfield "event" m = None -> mfield "key" m = None -> mfield "value" m = None -> mfield "texts" m = None ->
    read_common show (common_made bs ts e v k ++ m) = Ok (mk_frame bs (map t ts) e v k).
  Proof.
    intros M1 M2 M3 M4 M5. unfold read_common, want_str. rewrite !mfield_app, M1, M2, M3, M4, M5.
    set (cm := common_made bs ts e v k).
    assert (F1 : mfield "branches" cm = match bs with [] => None | _ => Some (MArr (map MNode bs)) end)
      by (unfold cm, common_made; rewrite !mfield_app; destruct bs, (String.eqb e ""), (String.eqb k ""), v, ts; reflexivity).
    assert (F2 : mfield "event" cm = if String.eqb e "" then None else Some (MVal (VStr e)))
      by (unfold cm, common_made; rewrite !mfield_app; destruct bs, (String.eqb e ""), (String.eqb k ""), v, ts; reflexivity).
    assert (F3 : mfield "key" cm = if String.eqb k "" then None else Some (MVal (VStr k)))
      by (unfold cm, common_made; rewrite !mfield_app; destruct bs, (String.eqb e ""), (String.eqb k ""), v, ts; reflexivity).
    assert (F4 : mfield "value" cm = match v with None => None | Some v => Some (MVal v) end)
      by (unfold cm, common_made; rewrite !mfield_app; destruct bs, (String.eqb e ""), (String.eqb k ""), v, ts; reflexivity).
    assert (F5 : mfield "texts" cm = match ts with [] => None | _ => Some (MArr (map (fun t => MVal (VStr t)) ts)) end)
      by (unfold cm, common_made; rewrite !mfield_app; destruct bs, (String.eqb e ""), (String.eqb k ""), v, ts; reflexivity).
    rewrite F1, F2, F3, F4, F5. clear.
    assert (T : forall ts, map (text_of show) (map (fun s => MVal (VStr s)) ts) = map t ts) by (intro; rewrite map_map; reflexivity).
    assert (E1 : match (match match ts with [] => None | _ => Some (MArr (map (fun t => MVal (VStr t)) ts)) end with Some x => Some x | None => None end) with
                 | Some (MArr l) => map (text_of show) l | Some (MVal (VArr l)) => map show l | _ => [] end = map t ts)
      by (destruct ts; [ reflexivity | apply T ]).
    assert (E2 : match (match (if String.eqb e "" then None else Some (MVal (VStr e))) with Some x => Some x | None => None end) with
                 | Some (MVal (VStr s)) => s | _ => "" end = e)
      by (destruct (String.eqb_spec e ""); [ congruence | reflexivity ]).
    assert (E3 : match (match (if String.eqb k "" then None else Some (MVal (VStr k))) with Some x => Some x | None => None end) with
                 | Some (MVal (VStr s)) => s | _ => "" end = k)
      by (destruct (String.eqb_spec k ""); [ congruence | reflexivity ]).
    assert (E4 : match (match match v with None => None | Some v => Some (MVal v) end with Some x => Some x | None => None end) with
                 | Some (MVal v) => Some v | _ => None end = v)
      by (destruct v; reflexivity).
    rewrite E1, E2, E3, E4. destruct bs as [|n bs]; [ reflexivity | ]. cbv iota. rewrite nodes_of_all. reflexivity.
  Qed.

  Definition kind_made (k : nkind) : list (string * made) :=
    match k with
    | NLocation l => [("location", MLoc l)]
    | _ => map (fun x => (fst x, match snd x with DVal v => MVal v | _ => MArr [] end)) (kind_map k)
    end.

  Lemma make_kind k : make_fields (kind_map k) = Ok (kind_made k).
  Proof.
    destruct k as [n|e| |[i|s]|l| |s|s|n|k]; try reflexivity.
    - destruct l; reflexivity.
    - unfold kind_made, kind_map. destruct s as [| | |o]; try reflexivity. destruct o; reflexivity.
  Qed.

  Lemma kind_made_own k : mfield "branches" (kind_made k) = None /\ mfield "event" (kind_made k) = None /\
    mfield "key" (kind_made k) = None /\ mfield "value" (kind_made k) = None /\ mfield "texts" (kind_made k) = None.
  Proof.
    destruct k as [n|e| |[i|s]|l| |s|s|n|k]; try (repeat split; reflexivity).
    destruct s as [| | |[|x o]]; repeat split; reflexivity.
  Qed.

  (** What is read from what a node has written. *)
  Lemma make_node n : tree_made n -> make show (node_data n) = Ok (MNode (retext t n)).
  Proof.
    induction n as [k bs ts e v key IH] using tree_ind. intro M. inversion M as [? ? ? ? ? ? Mk Mb]; subst.
    assert (F : Forall (fun n => make show (node_data n) = Ok (MNode (retext t n))) bs).
    { rewrite Forall_forall in *. intros n I. apply IH; [ exact I | exact (Mb n I) ]. }
    cbn [node_data]. rewrite make_obj, make_fields_app, (make_common bs ts e v key F), make_kind. cbn [obind omap].
    destruct (kind_made_own k) as (K1 & K2 & K3 & K4 & K5).
    pose proof (read_common_made (map (retext t) bs) ts e v key (kind_made k) K1 K2 K3 K4 K5) as RC.
    set (cm := common_made (map (retext t) bs) ts e v key) in *.
    assert (O : forall f, own f -> mfield f (cm ++ kind_made k) = mfield f (kind_made k)) by (intros f Of; apply mfield_own; exact Of).
    clearbody cm.
    destruct k as [n|x| |[i|s]|l| |s|s|n|sk]; cbn [kind_type]; unfold create;
      cbn [String.eqb Ascii.eqb Bool.eqb]; rewrite ?RC; cbn [omap obind retext]; unfold want_str;
      rewrite ?(O "providerName"), ?(O "expression"), ?(O "segment"), ?(O "location"), ?(O "strategy"), ?(O "options"), ?(O "mergeSource"), ?(O "moduleName"), ?(O "subKey")
        by (repeat split; discriminate); try reflexivity.
    - destruct s as [| | |[|x o]]; reflexivity.
    - change (mfield "subKey" (kind_made (NSubLookup sk))) with (Some (MVal (VStr (k_source sk)))). cbv iota. cbn [obind]. rewrite (Mk sk eq_refl). reflexivity.
  Qed.

  (** C59: what is read from what an explainer has written is the same
      explanation, with each text as String of a dgo.Value gives it. *)
  Theorem C59_read_back x : x_open x = [] -> x_nil x = false -> explainer_made x ->
    make show (explainer_data x) =
    Ok (MExplainer (mk_explainer (x_options x) (x_only x) (retext_frame t (x_root x)) [] false)).
  Proof.
    intros Ho Hn M. destruct x as [op on [bs ts e v k] open nil]. cbn [x_open x_nil x_root x_options x_only] in *. subst open nil.
    unfold explainer_made in M. cbn [x_root fr_bs] in M. unfold explainer_data. cbn [x_root x_options x_only fr_bs fr_ts fr_e fr_v fr_k].
    assert (F : Forall (fun n => make show (node_data n) = Ok (MNode (retext t n))) bs).
    { rewrite Forall_forall in *. intros n I. apply make_node. exact (M n I). }
    rewrite make_obj, make_fields_app, (make_common bs ts e v k F). cbn [obind].
    set (m := (if op then [("options", MVal (VBool true))] else []) ++ (if on then [("onlyOptions", MVal (VBool true))] else [])).
    assert (Em : make_fields ((if op then [("options", DVal (VBool true))] else []) ++ (if on then [("onlyOptions", DVal (VBool true))] else [])) = Ok m)
      by (destruct op, on; reflexivity).
    rewrite Em. cbn [omap obind]. unfold create. cbn [String.eqb Ascii.eqb Bool.eqb].
    rewrite read_common_made by (destruct op, on; reflexivity). cbn [omap]. unfold want_bool.
    rewrite !mfield_own by (repeat split; discriminate). unfold retext_frame. cbn [fr_bs fr_ts fr_e fr_v fr_k].
    destruct op, on; reflexivity.
  Qed.
End Read.

Lemma retext_id n : retext (fun s => s) n = n.
Proof.
  induction n as [k bs ts e v key IH] using tree_ind. cbn [retext].
  rewrite map_id. assert (E : map (retext (fun s => s)) bs = bs) by (induction IH as [|n bs H _ IHb]; cbn [map]; congruence).
  rewrite E. destruct k as [n|x| |[i|s]|l| |s|s|n|sk]; reflexivity.
Qed.

Lemma retext_ext f g n : (forall s, f s = g s) -> retext f n = retext g n.
Proof.
  intro H. induction n as [k bs ts e v key IH] using tree_ind. cbn [retext].
  assert (E : map (retext f) bs = map (retext g) bs) by (induction IH as [|n bs Hn _ IHb]; cbn [map]; congruence).
  rewrite E, (map_ext _ _ H). destruct k as [n|x| |[i|s]|l| |s|s|n|sk]; try reflexivity. rewrite H. reflexivity.
Qed.

(** C59: and when String of a string is the string, then it is the explainer that
    was written. *)
Theorem C59_same show x : (forall s, show (VStr s) = s) ->
  x_open x = [] -> x_nil x = false -> explainer_made x ->
  make show (explainer_data x) = Ok (MExplainer x).
Proof.
  intros Hs Ho Hn M. rewrite (C59_read_back show x Ho Hn M). do 2 f_equal.
  destruct x as [op on [bs ts e v k] open nil]. cbn [x_open x_nil x_root x_options x_only] in *. subst.
  unfold retext_frame. cbn [fr_bs fr_ts fr_e fr_v fr_k]. do 2 f_equal.
  - rewrite (map_ext _ (fun n => n)); [ apply map_id | ]. intro n. rewrite (retext_ext _ (fun s => s)) by exact Hs. apply retext_id.
  - rewrite (map_ext _ (fun s => s)) by exact Hs. apply map_id.
Qed.

(** ** Examples *)

(** A tree with nodes of all kinds. *)
Definition full_tree : explainer :=
  let sub := NSubLookup (mk_key "a.'b.c'" [PStr "a"; PStr "b.c"]) in
  mk_explainer true false
    (mk_frame
       [Node NLookup
          [Node (NModule "m") [] [] "module_not_found" None "";
           Node (NMerge (SDeep [(VStr "knockout_prefix", VStr "--")]))
             [Node (NProvider "common")
                [Node (NLocation (LPath "%{x}.yaml" "/data/x.yaml" true))
                   [Node sub [Node (NSegment (PStr "b.c")) [] [] "found" (Some VNil) "b.c"; Node (NSegment (PInt 3)) [] [] "not_found" None "3"] [] "" None "";
                    Node (NInterpolate "%{x}") [] ["a text"; "another one"] "" None ""]
                   [] "found" (Some (VMap [(VStr "k", VSens (VInt 1))])) "a";
                 Node (NLocation (LUri "u" "v")) [] [] "location_not_found" None "";
                 Node (NLocation (LGlob "*.yaml")) [] [] "" None ""; Node (NLocation (LMapped "s" "k" "t")) [] [] "" None ""] [] "" None "";
              Node (NMergeSource "lookup_options") [] [] "" None ""; Node NInvalid [] [] "" None "1"]
             [] "result" (Some (VArr [])) "";
           Node (NMerge SUnique) [] [] "" None ""; Node (NMerge SFirst) [] [] "" None ""; Node (NMerge (SDeep [])) [] [] "" None ""]
          [] "" None "a.'b.c'"]
       ["done"] "" None "")
    [] false.

Definition plain_show (v : value) : string := match v with VStr s => s | _ => "" end.

Example C59_same_example :
  (forall s, plain_show (VStr s) = s) /\ x_open full_tree = [] /\ x_nil full_tree = false /\ explainer_made full_tree /\
  make plain_show (explainer_data full_tree) = Ok (MExplainer full_tree).
Proof.
  split; [ reflexivity | split; [ reflexivity | split; [ reflexivity | split ] ] ].
  - unfold explainer_made. cbn [x_root full_tree fr_bs].
    repeat first [ apply Forall_nil | apply Forall_cons | apply tm_node | intros sk E; (discriminate E || (injection E as <-; vm_compute; reflexivity)) ].
  - vm_compute. reflexivity.
Qed.

(** Were String of a string its text in quotes, the texts would come back in quotes. *)
Example C59_read_back_example :
  let quoted v := match v with VStr s => """" ++ s ++ """" | _ => "" end%string in
  let x := mk_explainer false true (mk_frame [Node (NSegment (PStr "b")) [] ["t"] "found" (Some (VStr "v")) "b"] [] "" None "") [] false in
  make quoted (explainer_data x) =
    Ok (MExplainer (mk_explainer false true (mk_frame [Node (NSegment (PStr """b""")) [] ["""t"""] "found" (Some (VStr "v")) "b"] [] "" None "") [] false)).
Proof. vm_compute. reflexivity. Qed.

Print Assumptions C59_read_back.
Print Assumptions C59_same.

(** ** What is refused *)

(** The first entry of a name. *)
Fixpoint given (k : string) (m : list (string * data)) : option data :=
  match m with
  | [] => None
  | (q, d) :: r => if String.eqb k q then Some d else given k r
  end.

(** The types of nodes. *)
Definition node_types : list string :=
  ["hiera.explainDataProvider"; "hiera.explainInterpolate"; "hiera.explainInvalidKey"; "hiera.explainKeySegment";
   "hiera.explainLocation"; "hiera.explainLookup"; "hiera.explainMerge"; "hiera.explainMergeSource";
   "hiera.explainModule"; "hiera.explainSubLookup"].

(** What the types of locations must have, and whether it is a flag. *)
Definition needs : list (string * list (string * bool)) :=
  [("hiera.path", [("original", false); ("resolved", false); ("exists", true)]);
   ("hiera.uri", [("original", false); ("resolved", false)]);
   ("hiera.glob", [("", false)]);
   ("hiera.mappedPaths", [("sourceVar", false); ("key", false); ("template", false)])].

Lemma fields_made : forall show m m' k, make_fields show m = Ok m' ->
  match given k m with
  | Some d => exists y, make show d = Ok y /\ mfield k m' = Some y
  | None => mfield k m' = None
  end.
Proof.
  intros show m. induction m as [|[q d] m IH]; intros m' k E; cbn [make_fields given] in *.
  - injection E as <-. reflexivity.
  - destruct (make show d) as [y| | |] eqn:Ey; try discriminate E. cbn [obind] in E.
    destruct (make_fields show m) as [r| | |] eqn:Er; try discriminate E. injection E as <-. cbn [mfield].
    destruct (String.eqb k q); [ eauto | ]. exact (IH r k eq_refl).
Qed.

Lemma list_made : forall show l l', make_list show l = Ok l' -> forall d, In d l -> exists y, make show d = Ok y /\ In y l'.
Proof.
  intros show l. induction l as [|x l IH]; intros l' E d I; [ destruct I | ]. cbn [make_list] in E.
  destruct (make show x) as [y| | |] eqn:Ey; try discriminate E. cbn [obind] in E.
  destruct (make_list show l) as [r| | |] eqn:Er; try discriminate E. injection E as <-.
  destruct I as [<-|I]; [ exists y; split; [ exact Ey | left; reflexivity ] | ].
  destruct (IH r eq_refl d I) as (z & Z1 & Z2). exists z. split; [ exact Z1 | right; exact Z2 ].
Qed.

Lemma all_nodes : forall l bs, nodes_of l = Ok bs -> forall y, In y l -> exists n, y = MNode n.
Proof.
  induction l as [|x l IH]; intros bs E y I; [ destruct I | ]. cbn [nodes_of] in E.
  destruct x as [v|a|n|c|e]; try discriminate E. destruct (nodes_of l) as [r| | |] eqn:Er; try discriminate E.
  destruct I as [<-|I]; [ eauto | exact (IH r eq_refl y I) ].
Qed.

Ltac dest_types H :=
  repeat match type of H with
         | (if String.eqb ?a ?b then _ else _) = _ => destruct (String.eqb_spec a b)
         end.

(** Only objects of these types are nodes. *)
Lemma node_made : forall show d n, make show d = Ok (MNode n) -> exists ty m, d = DObj ty m /\ In ty node_types.
Proof.
  intros show d n E. destruct d as [v|l|ty m].
  - discriminate E.
  - rewrite make_arr in E. destruct (make_list show l); discriminate E.
  - exists ty, m. split; [ reflexivity | ]. rewrite make_obj in E.
    destruct (make_fields show m) as [m'| | |]; try discriminate E. cbn [obind] in E. unfold create in E.
    dest_types E; try (subst ty; cbn; tauto); exfalso.
    + destruct (need_str "original" m'); try discriminate E. destruct (need_str "resolved" m'); try discriminate E.
      destruct (need_bool "exists" m'); discriminate E.
    + destruct (need_str "original" m'); try discriminate E. destruct (need_str "resolved" m'); discriminate E.
    + destruct (need_str "" m'); discriminate E.
    + destruct (need_str "sourceVar" m'); try discriminate E. destruct (need_str "key" m'); try discriminate E.
      destruct (need_str "template" m'); discriminate E.
    + destruct (read_common show m'); discriminate E.
    + discriminate E.
Qed.

(** A node or an explainer is read only with its common part. *)
Lemma common_read : forall show ty m x, In ty ("hiera.explainer" :: node_types) -> create show ty m = Ok x ->
  exists f, read_common show m = Ok f.
Proof.
  intros show ty m x I E. destruct (read_common show m) as [f| | |] eqn:R; [ eauto | exfalso .. ];
    (cbn [In node_types] in I;
     repeat (destruct I as [<-|I]; [
       unfold create in E; cbn [String.eqb Ascii.eqb Bool.eqb] in E;
       repeat match type of E with match ?y with _ => _ end = _ => destruct y end;
       rewrite ?R in E; discriminate E | ]);
     destruct I).
Qed.

(** C59: what is not a node is refused as a branch of a node. *)
Theorem C59_branches : forall show ty m l x, In ty ("hiera.explainer" :: node_types) ->
  given "branches" m = Some (DArr l) -> make show (DObj ty m) = Ok x ->
  forall d, In d l -> exists ty' m', d = DObj ty' m' /\ In ty' node_types.
Proof.
  intros show ty m l x I G E d Id. rewrite make_obj in E.
  destruct (make_fields show m) as [m'| | |] eqn:Em; try discriminate E. cbn [obind] in E.
  destruct (common_read show ty m' x I E) as [f R].
  pose proof (fields_made show m m' "branches" Em) as F. rewrite G in F. destruct F as (y & Y1 & Y2).
  rewrite make_arr in Y1. destruct (make_list show l) as [l'| | |] eqn:El; try discriminate Y1.
  injection Y1 as <-. unfold read_common in R. rewrite Y2 in R.
  destruct (nodes_of l') as [bs| | |] eqn:En; try discriminate R.
  destruct (list_made show l l' El d Id) as (z & Z1 & Z2).
  destruct (all_nodes l' bs En z Z2) as [n ->]. exact (node_made show d n Z1).
Qed.
Print Assumptions C59_branches.

(** C59: and a location is refused unless it has all its fields, each of the
    right kind. *)
Theorem C59_locations : forall show ty m x fs, In (ty, fs) needs -> make show (DObj ty m) = Ok x ->
  forall k flag, In (k, flag) fs ->
  if flag : bool then exists b, given k m = Some (DVal (VBool b)) else exists s, given k m = Some (DVal (VStr s)).
Proof.
  intros show ty m x fs N E k flag I. rewrite make_obj in E.
  destruct (make_fields show m) as [m'| | |] eqn:Em; try discriminate E. cbn [obind] in E.
  assert (V : forall q v, mfield q m' = Some (MVal v) -> given q m = Some (DVal v)).
  { intros q v Q. pose proof (fields_made show m m' q Em) as F. destruct (given q m) as [d|]; [ | congruence ].
    destruct F as (y & Y1 & Y2). rewrite Q in Y2. injection Y2 as <-.
    destruct d as [w|l|ty' o]; [ injection Y1 as ->; reflexivity | | ].
    - rewrite make_arr in Y1. destruct (make_list show l); discriminate Y1.
    - exfalso. rewrite make_obj in Y1. destruct (make_fields show o) as [o'| | |]; try discriminate Y1. cbn [obind] in Y1.
      clear - Y1. unfold create in Y1.
      dest_types Y1; try discriminate Y1;
        repeat match type of Y1 with
               | obind ?a _ = _ => destruct a; try discriminate Y1; cbn [obind] in Y1
               | omap _ ?a = _ => destruct a; try discriminate Y1; cbn [omap] in Y1
               | match ?a with _ => _ end = _ => destruct a; try discriminate Y1
               end. }
  assert (Str : forall q s, need_str q m' = Ok s -> given q m = Some (DVal (VStr s))).
  { intros q s Q. unfold need_str in Q. destruct (mfield q m') as [[[]| | | |]|] eqn:X; try discriminate Q.
    injection Q as <-. apply V. exact X. }
  assert (Flag : forall q b, need_bool q m' = Ok b -> given q m = Some (DVal (VBool b))).
  { intros q s Q. unfold need_bool in Q. destruct (mfield q m') as [[[]| | | |]|] eqn:X; try discriminate Q.
    injection Q as <-. apply V. exact X. }
  unfold create in E. unfold needs in N. cbn [In] in N.
  destruct N as [N|[N|[N|[N|[]]]]]; injection N as <- <-; cbn [String.eqb Ascii.eqb Bool.eqb] in E;
    repeat match type of E with
           | obind ?a _ = _ => let Q := fresh "Q" in destruct a eqn:Q; try discriminate E; cbn [obind] in E
           end;
    cbn [In] in I; repeat (destruct I as [I|I]; [ injection I as <- <-; eauto | ]); destruct I.
Qed.
Print Assumptions C59_locations.

Example C59_refused_example :
  given "branches" [("branches", DArr [DVal (VStr "x")])] = Some (DArr [DVal (VStr "x")]) /\
  make plain_show (DObj "hiera.explainLookup" [("branches", DArr [DVal (VStr "x")])]) = Panic bad_assert /\
  make plain_show (DObj "hiera.explainLookup" [("branches", DArr [DObj "hiera.explainLookup" []])])
    = Ok (MNode (Node NLookup [Node NLookup [] [] "" None ""] [] "" None "")) /\
  make plain_show (DObj "hiera.path" [("original", DVal (VStr "a")); ("resolved", DVal (VStr "/a"))]) = Panic bad_assert /\
  make plain_show (DObj "hiera.path" [("original", DVal (VStr "a")); ("resolved", DVal (VStr "/a")); ("exists", DVal (VBool true))])
    = Ok (MLoc (LPath "a" "/a" true)).
Proof. vm_compute. repeat split; reflexivity. Qed.
