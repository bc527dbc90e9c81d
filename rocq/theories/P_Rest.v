(** The REST server: C53 and C56. *)

From Coq Require Import String Ascii List ZArith Bool Lia.
From Verif Require Import Str Value Outcome State Api Rest SpecApi StrFacts P_Api P_Command.
Import ListNotations.
Open Scope string_scope.
Open Scope list_scope.

(** ** C53 *)

(** The path of a lookup: the prefix /lookup/ and a key without a newline. *)
Definition lookup_path (path key : string) : Prop := path = ("/lookup/" ++ key)%string /\ no_newline key.

Lemma key_of_path_spec path key : key_of_path path = Some key <-> lookup_path path key.
Proof.
  unfold key_of_path, lookup_path. destruct (strip_prefix "/lookup/" path) as [k|] eqn:E.
  - apply strip_prefix_some in E. split.
    + intro H. destruct (one_line k) eqn:O; [ | discriminate ]. injection H as <-. apply one_line_spec in O. auto.
    + intros [H N]. rewrite E in H. apply app_inj_l in H. subst k. apply one_line_spec in N. rewrite N. reflexivity.
  - split; [ discriminate | ]. intros [H _]. subst path. rewrite strip_prefix_app in E. discriminate E.
Qed.

Section Rest.
  Context {S T : Type}.
  Variable inst : T -> option value -> bool.
  Variable conv : T -> option value -> outcome (option value).
  Variable any : T.
  Variable parse_type : string -> outcome T.
  Variable struct_of : T -> option (list (string * T)).
  Variable parse : string -> outcome value.
  Variable file : string -> var_file.
  Variable stdin : var_file.
  Variable invoke : entries -> option (bool * bool) -> M S unit.
  Variable ask_with : option entries -> string -> M S (option value).
  Variable render : string -> value -> outcome string.
  Variable render_explainer : string -> M S string.
  Variable clean : string -> string.
  Variables server_vars server_paths : list string.

  (** The options of the server: only vars files and variables can be given. *)
  Definition server : command_options := mk_command "" "" None [] server_paths server_vars "" false false false.

  Definition serve_request : string -> params -> M S response :=
    route (lookup_and_render inst conv any parse_type struct_of parse file stdin invoke ask_with render render_explainer) server clean.

  (** The type, the merge option and the default of a request. *)
  Inductive type_of (p : params) : outcome T -> Prop :=
  | ty_any : first_or_empty (pa_type p) = "" -> type_of p (Ok any)
  | ty_given t : first_or_empty (pa_type p) = t -> t <> "" -> type_of p (parse_type t).
  Inductive merge_of (p : params) : option entries -> Prop :=
  | me_none : first_or_empty (pa_merge p) = "" \/ first_or_empty (pa_merge p) = "first" -> merge_of p None
  | me_given m : first_or_empty (pa_merge p) = m -> m <> "" -> m <> "first" -> merge_of p (Some [(VStr "merge", VStr m)]).
  Inductive default_of (p : params) : option value -> Prop :=
  | de_none : pa_default p = [] -> default_of p None
  | de_empty r : pa_default p = "" :: r -> default_of p (Some (VStr ""))
  | de_given d r v : pa_default p = d :: r -> d <> "" -> command_value parse d v -> default_of p (Some v).

  Lemma look_is p key tp options dv sc s s1 :
    type_of p (Ok tp) -> merge_of p options -> default_of p dv ->
    create_scope parse file (server_vars ++ pa_var p) server_paths [] stdin = Ok sc ->
    invoke sc None s = (Ok tt, s1) ->
    lookup_and_render inst conv any parse_type struct_of parse file stdin invoke ask_with render render_explainer (request_options server p) [key] s
    = let (o, s2) := lookup2 inst conv (ask_with options) [key] (Some tp) dv None None None s1 in
      (match o with
       | Ok (Some v) => omap (fun out => (true, out)) (render "json" v)
       | Ok None => Ok (false, "")
       | x => recast x
       end, s2).
  Proof.
    intros Ht Hm Hd Hsc Hi. unfold lookup_and_render, request_options, server.
    cbn [co_type co_merge co_default co_fact_paths co_var_paths co_variables co_render_as co_explain_data co_explain_options co_lookup_all].
    assert (Et : (if String.eqb (first_or_empty (pa_type p)) "" then Ok any else parse_type (first_or_empty (pa_type p))) = Ok tp).
    { inversion Ht as [E E0|t E N E0]; rewrite E; [ rewrite <- E0; reflexivity | ].
      apply String.eqb_neq in N. rewrite N. first [ reflexivity | exact E0 ]. }
    rewrite Et. unfold bind at 1, lift at 1.
    assert (Ed : match match pa_default p with [] => None | d :: _ => Some d end with
                 | None => Ok None
                 | Some x => if String.eqb x "" then Ok (Some (VStr "")) else omap Some (parse_command_line_value parse x)
                 end = Ok dv).
    { destruct Hd as [E|r E|d r v E N C]; rewrite E; [ reflexivity | reflexivity | ]. apply String.eqb_neq in N. rewrite N.
      apply (command_value_ok parse file) in C. rewrite C. reflexivity. }
    rewrite Ed. unfold bind at 1, lift at 1. rewrite Hsc. cbn [orb]. cbv iota. unfold bind at 1, lift at 1. unfold bind at 1. rewrite Hi.
    assert (Em : (if String.eqb (first_or_empty (pa_merge p)) "" || String.eqb (first_or_empty (pa_merge p)) "first" then None
                  else Some [(VStr "merge", VStr (first_or_empty (pa_merge p)))] : option entries) = options).
    { destruct Hm as [[E|E]|m E N N2]; rewrite E; [ reflexivity | reflexivity | ]. apply String.eqb_neq in N, N2. rewrite N, N2. reflexivity. }
    rewrite Em. unfold bind at 1.
    destruct (lookup2 inst conv (ask_with options) [key] (Some tp) dv None None None s1) as [[[v|]|e| |] s2]; try reflexivity.
    unfold bind, lift. cbn [String.eqb]. destruct (render "json" v) as [out|e| |]; reflexivity.
  Qed.

  (** A request for a key, with a type, options and variables that are in order:
      what the sources say (C35) decides between 200 with the value as JSON, and
      404; a panic of the lookup, of the conversion or of the rendering gives 500
      with its message. *)
  Theorem C53_answers : forall path key p tp options dv sc s s1,
    lookup_path path key -> clean path = path -> path <> "/lookup" ->
    type_of p (Ok tp) -> merge_of p options -> default_of p dv ->
    create_scope parse file (server_vars ++ pa_var p) server_paths [] stdin = Ok sc ->
    invoke sc None s = (Ok tt, s1) ->
    (forall a s2 v out, answer (ask_with options) [key] None None dv None s1 a s2 -> delivered inst conv (Some tp) a (Ok (Some v)) ->
       render "json" v = Ok out -> serve_request path p s = (Ok (Respond 200 out), s2)) /\
    (forall a s2, answer (ask_with options) [key] None None dv None s1 a s2 -> delivered inst conv (Some tp) a (Ok None) ->
       serve_request path p s = (Ok (Respond 404 ("404 value not found" ++ str1 (ascii_of_nat 10))), s2)) /\
    (forall a s2 v m e, answer (ask_with options) [key] None None dv None s1 a s2 -> delivered inst conv (Some tp) a (Ok (Some v)) ->
       render "json" v = Panic e -> e = EErr m \/ e = EStr m -> serve_request path p s = (Ok (Respond 500 (m ++ str1 (ascii_of_nat 10))), s2)) /\
    (forall a s2 m e, answer (ask_with options) [key] None None dv None s1 a s2 -> delivered inst conv (Some tp) a (Panic e) ->
       e = EErr m \/ e = EStr m -> serve_request path p s = (Ok (Respond 500 (m ++ str1 (ascii_of_nat 10))), s2)) /\
    (forall s2 m e, ask_with options key s1 = (Panic e, s2) -> e = EErr m \/ e = EStr m ->
       serve_request path p s = (Ok (Respond 500 (m ++ str1 (ascii_of_nat 10))), s2)).
  Proof.
    intros path key p tp options dv sc s s1 Hp Hc Hn Ht Hm Hd Hsc Hi.
    assert (E : serve_request path p s = do_lookup (lookup_and_render inst conv any parse_type struct_of parse file stdin invoke ask_with render render_explainer) server path p s).
    { unfold serve_request, route. rewrite Hc. apply String.eqb_neq in Hn. rewrite Hn, String.eqb_refl. cbn [negb]. destruct Hp as [-> _].
      rewrite (proj2 (has_prefix_app "/lookup/" _) (ex_intro _ key eq_refl)). reflexivity. }
    rewrite E. unfold do_lookup. rewrite (proj2 (key_of_path_spec path key) Hp). rewrite (look_is p key tp options dv sc s s1 Ht Hm Hd Hsc Hi).
    clear E Ht Hm Hd Hsc Hi Hp Hc Hn. repeat split.
    - intros a s2 v out A D R.
      rewrite (proj2 (C35_first_source (ask_with options) inst conv [key] (Some tp) dv None None None s1 _ s2) (or_introl (ex_intro _ a (conj A D)))).
      rewrite R. reflexivity.
    - intros a s2 A D.
      rewrite (proj2 (C35_first_source (ask_with options) inst conv [key] (Some tp) dv None None None s1 _ s2) (or_introl (ex_intro _ a (conj A D)))).
      reflexivity.
    - intros a s2 v m e A D R H.
      rewrite (proj2 (C35_first_source (ask_with options) inst conv [key] (Some tp) dv None None None s1 _ s2) (or_introl (ex_intro _ a (conj A D)))).
      rewrite R. destruct H as [->| ->]; reflexivity.
    - intros a s2 m e A D H.
      rewrite (proj2 (C35_first_source (ask_with options) inst conv [key] (Some tp) dv None None None s1 _ s2) (or_introl (ex_intro _ a (conj A D)))).
      destruct H as [->| ->]; reflexivity.
    - intros s2 m e A H.
      rewrite (proj2 (C35_first_source (ask_with options) inst conv [key] (Some tp) dv None None None s1 (Panic e) s2)).
      + destruct H as [->| ->]; reflexivity.
      + right. apply (st_data _ _ _ _ _ _ [] key [] s1 s1 (Panic e) s2); try reflexivity; try discriminate; [ | constructor | exact A ].
        repeat constructor. intros v (x & X & _). discriminate X.
  Qed.

  (** Anything else is not looked up: the state stays, and the answer is 404, or a
      redirect for a path that is not clean or lacks the slash. *)
  Theorem C53_no_lookup : forall path p s,
    (forall key, ~ lookup_path path key) \/ clean path <> path ->
    exists r, serve_request path p s = (Ok r, s) /\
      ((exists body, r = Respond 404 body) \/ (exists to, r = Redirect to /\ (clean path <> path \/ path = "/lookup"))).
  Proof.
    intros path p s H. unfold serve_request, route. destruct (String.eqb (clean path) "/lookup") eqn:L.
    { apply String.eqb_eq in L. eexists. split; [ reflexivity | ]. right. eexists. split; [ reflexivity | ].
      destruct (String.eqb path "/lookup") eqn:X; [ apply String.eqb_eq in X; right; exact X | ].
      apply String.eqb_neq in X. left. congruence. }
    destruct (String.eqb (clean path) path) eqn:C; cbn [negb].
    - apply String.eqb_eq in C. destruct H as [H|H]; [ | contradiction ].
      destruct (has_prefix "/lookup/" path); [ | eexists; split; [ reflexivity | left; eexists; reflexivity ] ].
      unfold do_lookup. destruct (key_of_path path) as [k|] eqn:K; [ apply key_of_path_spec in K; elim (H k K) | ].
      eexists; split; [ reflexivity | left; eexists; reflexivity ].
    - apply String.eqb_neq in C. eexists. split; [ reflexivity | ]. right. eexists. split; [ reflexivity | left; exact C ].
  Qed.

  (** A request whose default, type, variables or files are not in order gets 500
      with the message; nothing is looked up. *)
  Theorem C53_refused : forall path key p s m e,
    lookup_path path key -> clean path = path -> path <> "/lookup" -> e = EErr m \/ e = EStr m ->
    (type_of p (Panic e) \/
     (exists tp d r, type_of p (Ok tp) /\ pa_default p = d :: r /\ d <> "" /\ parse_command_line_value parse d = Panic e) \/
     (exists tp dv, type_of p (Ok tp) /\ default_of p dv /\ create_scope parse file (server_vars ++ pa_var p) server_paths [] stdin = Panic e)) ->
    serve_request path p s = (Ok (Respond 500 (m ++ str1 (ascii_of_nat 10))), s).
  Proof.
    intros path key p s m e Hp Hc Hn He H.
    assert (E : serve_request path p s = do_lookup (lookup_and_render inst conv any parse_type struct_of parse file stdin invoke ask_with render render_explainer) server path p s).
    { unfold serve_request, route. rewrite Hc. apply String.eqb_neq in Hn. rewrite Hn, String.eqb_refl. cbn [negb]. destruct Hp as [-> _].
      rewrite (proj2 (has_prefix_app "/lookup/" _) (ex_intro _ key eq_refl)). reflexivity. }
    rewrite E. unfold do_lookup. rewrite (proj2 (key_of_path_spec path key) Hp). clear E Hp Hc Hn.
    assert (X : forall tp, type_of p tp -> (if String.eqb (first_or_empty (pa_type p)) "" then Ok any else parse_type (first_or_empty (pa_type p))) = tp).
    { intros tp Ht. inversion Ht as [E0 E1|t E0 N E1]; rewrite E0; [ reflexivity | ]. apply String.eqb_neq in N. rewrite N. reflexivity. }
    assert (L : lookup_and_render inst conv any parse_type struct_of parse file stdin invoke ask_with render render_explainer (request_options server p) [key] s = (Panic e, s)).
    { unfold lookup_and_render, request_options, server.
      cbn [co_type co_merge co_default co_fact_paths co_var_paths co_variables co_render_as co_explain_data co_explain_options co_lookup_all].
      destruct H as [H|[(tp & d & r & Ht & Hd & Hn & Hq)|(tp & dv & Ht & Hd & Hsc)]].
      - rewrite (X _ H). reflexivity.
      - rewrite (X _ Ht). unfold bind at 1, lift at 1. rewrite Hd. apply String.eqb_neq in Hn. rewrite Hn, Hq. reflexivity.
      - rewrite (X _ Ht). unfold bind at 1, lift at 1.
        assert (Ed : match match pa_default p with [] => None | d :: _ => Some d end with
                     | None => Ok None
                     | Some x => if String.eqb x "" then Ok (Some (VStr "")) else omap Some (parse_command_line_value parse x)
                     end = Ok dv).
        { destruct Hd as [E|r E|d r v E N C]; rewrite E; [ reflexivity | reflexivity | ]. apply String.eqb_neq in N. rewrite N.
          apply (command_value_ok parse file) in C. rewrite C. reflexivity. }
        rewrite Ed. unfold bind at 1, lift at 1. rewrite Hsc. reflexivity. }
    rewrite L. destruct He as [->| ->]; reflexivity.
  Qed.
End Rest.
Print Assumptions C53_answers.
Print Assumptions C53_no_lookup.
Print Assumptions C53_refused.

(** Data with a value for a.b; a default; a path with a newline. *)
Definition rest_ask (o : option entries) (n : string) : M (list string) (option value) := fun s =>
  (if String.eqb n "bad" then Panic (EErr "no such provider") else Ok (if String.eqb n "a.b" then Some (VStr "v") else None), s ++ [n]).
Definition rest_render (as_what : string) (v : value) : outcome string := Ok (as_what ++ match v with VStr s => s | _ => "?" end)%string.
Definition rest_ex : string -> params -> M (list string) response :=
  serve_request (T := unit) (fun _ _ => true) (fun _ v => Ok v) tt (fun _ => Ok tt) (fun _ => None) ex_parse ex_file VfEmpty
    (fun _ _ => ret tt) rest_ask rest_render (fun _ => ret "") (fun p => p) ["x=1"] ["v.yaml"].
Example C53_ex :
  rest_ex "/lookup/a.b" (mk_params [] [] [] ["y:2"]) [] = (Ok (Respond 200 "jsonv"), ["a.b"]) /\
  rest_ex "/lookup/q" (mk_params [" d "] [] [] []) [] = (Ok (Respond 200 "jsond"), ["q"]) /\
  (exists body, rest_ex "/lookup/q" (mk_params [] ["deep"] [] []) [] = (Ok (Respond 404 body), ["q"])) /\
  (exists m, rest_ex "/lookup/bad" (mk_params [] [] [] []) [] = (Ok (Respond 500 m), ["bad"])).
Proof.
  split; [ | split; [ | split ] ].
  - refine (proj1 (C53_answers (T := unit) (fun _ _ => true) (fun _ v => Ok v) tt (fun _ => Ok tt) (fun _ => None) ex_parse ex_file VfEmpty
              (fun _ _ => ret tt) rest_ask rest_render (fun _ => ret "") (fun p => p) ["x=1"] ["v.yaml"]
              "/lookup/a.b" "a.b" (mk_params [] [] [] ["y:2"]) tt None None
              [(VStr "x", VStr "1"); (VStr "y", VStr "2"); (VStr "b", VInt 2); (VStr "c", VInt 3)] [] [] _ eq_refl _ _ _ _ eq_refl eq_refl)
             (Some (Some (VStr "v"))) ["a.b"] (VStr "v") "jsonv" _ _ eq_refl).
    + split; [ reflexivity | ]. cbn [no_newline]. repeat (split; [ discriminate | ]). exact I.
    + discriminate.
    + apply ty_any. reflexivity.
    + apply me_none. left. reflexivity.
    + apply de_none. reflexivity.
    + apply an_data; [ repeat constructor; intros v (x & X & _); discriminate X | ].
      exists [], "a.b", [], []. split; [ reflexivity | ]. split; [ constructor | reflexivity ].
    + constructor. apply ot_instance. reflexivity.
  - reflexivity.
  - eexists. reflexivity.
  - eexists. reflexivity.
Qed.
Example C53_no_lookup_ex : exists r, rest_ex ("/lookup/a" ++ str1 c_nl)%string (mk_params [] [] [] []) ["before"] = (Ok r, ["before"]) /\
  ((exists body, r = Respond 404 body) \/ (exists to, r = Redirect to /\ ((("/lookup/a" ++ str1 c_nl) <> ("/lookup/a" ++ str1 c_nl))%string \/ ("/lookup/a" ++ str1 c_nl)%string = "/lookup"))).
Proof.
  apply (C53_no_lookup (fun _ _ => true) (fun _ v => Ok v) tt (fun _ => Ok tt) (fun _ => None) ex_parse ex_file VfEmpty
    (fun _ _ => ret tt) rest_ask rest_render (fun _ => ret "") (fun p => p) ["x=1"] ["v.yaml"] ("/lookup/a" ++ str1 c_nl)%string (mk_params [] [] [] []) ["before"]).
  left. intros key [E N]. cbn [append] in E. injection E as E. subst key. cbn [no_newline] in N. destruct N as [_ [N _]]. apply N. reflexivity.
Qed.
Example C53_refused_ex : rest_ex "/lookup/a.b" (mk_params [] [] [] ["y"]) [] = (Ok (Respond 500 ("unable to parse variable 'y'" ++ str1 c_nl)), []).
Proof.
  refine (C53_refused (T := unit) (fun _ _ => true) (fun _ v => Ok v) tt (fun _ => Ok tt) (fun _ => None) ex_parse ex_file VfEmpty
              (fun _ _ => ret tt) rest_ask rest_render (fun _ => ret "") (fun p => p) ["x=1"] ["v.yaml"]
           "/lookup/a.b" "a.b" (mk_params [] [] [] ["y"]) [] "unable to parse variable 'y'" (EErr "unable to parse variable 'y'") _ eq_refl _ (or_introl eq_refl) _).
  - split; [ reflexivity | ]. cbn [no_newline]. repeat (split; [ discriminate | ]). exact I.
  - discriminate.
  - right. right. exists tt, None. split; [ apply ty_any; reflexivity | ]. split; [ apply de_none; reflexivity | reflexivity ].
Qed.

(** ** C56 *)

(** When a certificate and a key are given as well, a server started with
    clientCertVerify listens only with TLS and requires verified certificates.
    Missing: servers without a certificate or a key, see below. *)
Theorem C56_verified_partial : forall load_pair load_pool f l,
  fl_verify f = true -> fl_cert f <> "" -> fl_key f <> "" -> start_server load_pair load_pool f = Ok l ->
  exists c, l = Tls c /\ tl_verify c = true /\ (fl_ca f <> "" -> tl_authorities c = Some (fl_ca f) /\ load_pool (fl_ca f) = true).
Proof.
  intros lp lq f l Hv Hc Hk E. unfold start_server, make_tls_config in E. apply String.eqb_neq in Hc, Hk. rewrite Hc, Hk in E. cbn [orb] in E.
  destruct (lp (fl_cert f) (fl_key f)); [ cbn [negb] in E | discriminate E ].
  destruct (String.eqb (fl_ca f) "") eqn:A.
  - injection E as <-. eexists. split; [ reflexivity | ]. cbn [tl_verify tl_authorities]. split; [ exact Hv | ]. apply String.eqb_eq in A. contradiction.
  - destruct (lq (fl_ca f)) eqn:Q; [ | discriminate E ]. injection E as <-. eexists. split; [ reflexivity | ]. cbn [tl_verify tl_authorities]. auto.
Qed.
Print Assumptions C56_verified_partial.

Example C56_verified_ex : exists l, start_server (fun _ _ => true) (fun _ => true) (mk_flags "c.pem" "k.pem" true "ca.pem") = Ok l /\ l = Tls (mk_tls true (Some "ca.pem")).
Proof. eexists. split; reflexivity. Qed.

(** Exactly: requests are served without verifying clients when it was not asked
    for, or when the certificate or the key is missing. *)
Definition unverified (l : listening) : Prop := l = Plain \/ exists c, l = Tls c /\ tl_verify c = false.
Theorem C56_exactly : forall load_pair load_pool f l, start_server load_pair load_pool f = Ok l ->
  (unverified l <-> fl_verify f = false \/ fl_cert f = "" \/ fl_key f = "").
Proof.
  intros lp lq f l E. unfold start_server, make_tls_config in E.
  destruct (String.eqb_spec (fl_cert f) "") as [Hc|Hc]; [ injection E as <-; split; [ auto | left; reflexivity ] | ].
  destruct (String.eqb_spec (fl_key f) "") as [Hk|Hk]; [ injection E as <-; split; [ auto | left; reflexivity ] | ]. cbn [orb] in E.
  destruct (lp (fl_cert f) (fl_key f)); [ cbn [negb] in E | discriminate E ].
  assert (R : exists a, l = Tls (mk_tls (fl_verify f) a)).
  { destruct (String.eqb (fl_ca f) ""); [ injection E as <-; eauto | ]. destruct (lq (fl_ca f)); [ injection E as <-; eauto | discriminate ]. }
  destruct R as (a & ->). split.
  - intros [C|(c & C & V)]; [ discriminate | ]. injection C as <-. left. exact V.
  - intros [V|[C|C]]; try contradiction. right. eexists. split; [ reflexivity | exact V ].
Qed.
Print Assumptions C56_exactly.

Example C56_exactly_ex : exists l, start_server (fun _ _ => true) (fun _ => true) (mk_flags "c.pem" "k.pem" true "") = Ok l /\ ~ unverified l.
Proof. eexists. split; [ reflexivity | ]. intros [C|(c & C & V)]; [ discriminate | ]. injection C as <-. discriminate V. Qed.

(** Without a certificate, or without a key, the server listens without TLS
    although clientCertVerify is given. *)
Theorem C56_refuted : exists f, fl_verify f = true /\ fl_ca f <> "" /\ start_server (fun _ _ => true) (fun _ => true) f = Ok Plain.
Proof. exists (mk_flags "c.pem" "" true "ca.pem"). repeat split. discriminate. Qed.
Print Assumptions C56_refuted.
