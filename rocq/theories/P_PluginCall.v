(** Calls of functions that plugins provide: C61; and what a plugin finds in its
    environment: C64. *)

From Coq Require Import String Ascii List ZArith Bool Arith Lia Permutation Sorted.
From Verif Require Import Str Value Outcome State Plugin P_Plugins SpecKey SpecIpl StrFacts.
Import ListNotations.
Open Scope string_scope.
Open Scope list_scope.
Open Scope bool_scope.

(** ** The specification *)

(** *** How a server reads a query (application/x-www-form-urlencoded) *)

Definition hex_value (c : ascii) : option nat :=
  let n := nat_of_ascii c in
  if ((48 <=? n) && (n <=? 57))%nat then Some (n - 48)
  else if ((65 <=? n) && (n <=? 70))%nat then Some (n - 55)
  else if ((97 <=? n) && (n <=? 102))%nat then Some (n - 87)
  else None.

Fixpoint unescape (s : string) : option string :=
  match s with
  | "" => Some ""
  | String c r =>
      if Ascii.eqb c "+" then option_map (String " ") (unescape r)
      else if Ascii.eqb c "%" then
        match r with
        | String a (String b r') =>
            match hex_value a, hex_value b with
            | Some x, Some y => option_map (String (ascii_of_nat (16 * x + y))) (unescape r')
            | _, _ => None
            end
        | _ => None
        end
      else option_map (String c) (unescape r)
  end.

Fixpoint pieces (cur s : string) : list string :=
  match s with
  | "" => [cur]
  | String c r => if Ascii.eqb c "&" then cur :: pieces "" r else pieces (String.append cur (str1 c)) r
  end.

Definition read_field (s : string) : option (string * string) :=
  let '(n, v) := match split_at "=" s with Some x => x | None => (s, "") end in
  match unescape n, unescape v with
  | Some n, Some v => Some (n, v)
  | _, _ => None
  end.

Fixpoint read_fields (l : list string) : option (list (string * string)) :=
  match l with
  | [] => Some []
  | "" :: r => read_fields r
  | s :: r =>
      match read_field s, read_fields r with
      | Some f, Some fs => Some (f :: fs)
      | _, _ => None
      end
  end.

(** The order of texts, byte by byte. *)
Inductive text_le : string -> string -> Prop :=
| tl_empty : forall b, text_le "" b
| tl_less : forall c d a b, nat_of_ascii c < nat_of_ascii d -> text_le (String c a) (String d b)
| tl_same : forall c a b, text_le a b -> text_le (String c a) (String c b).

(** The server reads these fields out of the query, in the order of their names;
    fields of the same name come in their own order. *)
Definition reads_as (q : string) (fields : list (string * string)) : Prop :=
  exists fs, read_fields (pieces "" q) = Some fs /\ Permutation fs fields /\
    StronglySorted (fun x y => text_le (fst x) (fst y)) fs /\
    forall n, filter (fun x => String.eqb (fst x) n) fs = filter (fun x => String.eqb (fst x) n) fields.

(** *** Requests *)

(** The plugin says that it has the function, of one kind. *)
Definition offers (p : plugin) (name : string) (k : string) : Prop :=
  told_functions p /\
  (exists names, In (VStr k, VArr names) (pl_functions p) /\ In (VStr name) names) /\
  forall k' names, In (k', VArr names) (pl_functions p) -> In (VStr name) names -> k' = VStr k.

(** What is asked for: the kind in the URL, and the key as text, when there is one.
    Functions of a kind that is not known are called like lookup_key functions. *)
Inductive asks (t : transport) : string -> call_key -> string -> option string -> Prop :=
| asks_dig : forall l, asks t "data_dig" (KeyParts l) "data_dig" (Some (tr_key t l))
| asks_hash : asks t "data_hash" KeyNone "data_hash" None
| asks_key : forall k s, k <> "data_dig" -> k <> "data_hash" -> asks t k (KeyText s) "lookup_key" (Some s).

Definition fields_of (t : transport) (opts : entries) (key : option string) : list (string * string) :=
  match opts with [] => [] | _ => [("options", trim_space (tr_options t opts))] end ++
  match key with Some s => [("key", s)] | None => [] end.

Definition host_of (p : plugin) : string := if String.eqb (pl_network p) "unix" then "unix" else pl_addr p.

Definition url_of (p : plugin) (kind name : string) : string :=
  String.append "http://" (String.append (host_of p) (String.append "/" (String.append kind (String.append "/" name)))).

(** The URL that the server is asked for. *)
Definition request (ad : string) (fields : list (string * string)) (us : string) : Prop :=
  (fields = [] /\ us = ad) \/ (fields <> [] /\ exists q, us = String.append ad (String.append "?" q) /\ reads_as q fields).

(** *** Replies *)

Inductive reply_gives (t : transport) (us : string) : http_reply -> outcome (option value) -> Prop :=
| gives_found : forall st b v, tr_json t b = Ok v -> reply_gives t us (Reply 200 st (inl b)) (Ok (Some v))
| gives_no_json : forall st b e, tr_json t b = Panic e -> reply_gives t us (Reply 200 st (inl b)) (Panic e)
| gives_cut_off : forall st e, reply_gives t us (Reply 200 st (inr e)) (Panic (EErr e))
| gives_none : forall st b, reply_gives t us (Reply 404 st b) (Ok None)
| gives_error : forall code st b e, code <> 200%Z -> code <> 404%Z -> reply_gives t us (Reply code st b) (Panic (EErr e))
| gives_nothing : forall e, reply_gives t us (NoReply e) (Panic (EStr e)).

(** ** The query *)

Lemma hex_value_hex n : n < 16 -> hex_value (hex n) = Some n.
Proof. intro L. do 16 (destruct n as [|n]; [ reflexivity | ]). lia. Qed.

Lemma unescape_char c t s : unescape t = Some s ->
  unescape (if unreserved c then String c t else if ceq c " " then String "+" t
            else String "%" (String (hex (nat_of_ascii c / 16)) (String (hex (nat_of_ascii c mod 16)) t))) = Some (String c s).
Proof.
  intro H. destruct (unreserved c) eqn:U.
  - cbn [unescape]. rewrite H. destruct (Ascii.eqb_spec c "+") as [E|N]; [ subst; discriminate U | ].
    destruct (Ascii.eqb_spec c "%") as [E|N2]; [ subst; discriminate U | ]. reflexivity.
  - unfold ceq. destruct (Ascii.eqb_spec c " ") as [E|N].
    + subst. cbn [unescape Ascii.eqb Bool.eqb]. rewrite H. reflexivity.
    + pose proof (nat_ascii_bounded c) as B.
      assert (nat_of_ascii c / 16 < 16) by (apply Nat.div_lt_upper_bound; lia).
      assert (nat_of_ascii c mod 16 < 16) by (apply Nat.mod_upper_bound; lia).
      cbn [unescape Ascii.eqb Bool.eqb]. rewrite !hex_value_hex, H by assumption. cbn [option_map].
      replace (16 * (nat_of_ascii c / 16) + nat_of_ascii c mod 16) with (nat_of_ascii c) by (apply Nat.div_mod_eq).
      rewrite ascii_nat_embedding. reflexivity.
Qed.

Lemma unescape_escape s : unescape (query_escape s) = Some s.
Proof. induction s as [|c s IH]; [ reflexivity | ]. exact (unescape_char c _ _ IH). Qed.

(** Neither of the two separators is left. *)
Lemma escape_occurs c s : c = "&"%char \/ c = "="%char -> ~ occurs c (query_escape s).
Proof.
  intro Hc. induction s as [|x s IH]; [ exact (fun f => f) | ]. cbn [query_escape].
  set (t := query_escape s) in *. clearbody t.
  assert (W : forall y, y <> c -> ~ occurs c t -> ~ occurs c (String y t)) by (intros y N O [E|E]; [ congruence | exact (O E) ]).
  assert (U : unreserved x = true -> x <> c).
  { intros E ->. destruct Hc as [-> | ->]; discriminate E. }
  assert (Hx : forall n, n < 16 -> hex n <> c).
  { intros n L E. do 16 (destruct n as [|n]; [ destruct Hc as [-> | ->]; discriminate E | ]). lia. }
  destruct (unreserved x) eqn:E; [ apply W; auto | ].
  destruct (ceq x " "); [ apply W; [ destruct Hc as [-> | ->]; discriminate | exact IH ] | ].
  pose proof (nat_ascii_bounded x) as B.
  assert (nat_of_ascii x / 16 < 16) by (apply Nat.div_lt_upper_bound; lia).
  assert (nat_of_ascii x mod 16 < 16) by (apply Nat.mod_upper_bound; lia).
  intros [F|[F|[F|F]]]; [ destruct Hc as [-> | ->]; discriminate F | exact (Hx _ H F) | exact (Hx _ H0 F) | exact (IH F) ].
Qed.

Definition written (x : string * string) : string :=
  String.append (query_escape (fst x)) (String.append "=" (query_escape (snd x))).

Lemma str_app_assoc (a b c : string) : String.append (String.append a b) c = String.append a (String.append b c).
Proof. induction a; cbn [String.append]; congruence. Qed.

Lemma str_app_nil (a : string) : String.append a "" = a.
Proof. induction a; cbn [String.append]; congruence. Qed.

Lemma pieces_app a : forall cur b, ~ occurs "&" a -> pieces cur (String.append a (String "&" b)) = String.append cur a :: pieces "" b.
Proof.
  induction a as [|c a IH]; intros cur b N; cbn [String.append pieces].
  - cbn. rewrite str_app_nil. reflexivity.
  - destruct (Ascii.eqb_spec c "&") as [E|Nc]; [ exfalso; apply N; left; exact E | ].
    rewrite IH by (intro O; apply N; right; exact O). rewrite str_app_assoc. reflexivity.
Qed.

Lemma pieces_last a : forall cur, ~ occurs "&" a -> pieces cur a = [String.append cur a].
Proof.
  induction a as [|c a IH]; intros cur N; cbn [pieces].
  - rewrite str_app_nil. reflexivity.
  - destruct (Ascii.eqb_spec c "&") as [E|Nc]; [ exfalso; apply N; left; exact E | ].
    rewrite IH by (intro O; apply N; right; exact O). rewrite str_app_assoc. reflexivity.
Qed.

Lemma pieces_join l : l <> [] -> Forall (fun s => ~ occurs "&" s) l -> pieces "" (join "&" l) = l.
Proof.
  unfold join. induction l as [|a l IH]; intros Hn Hf; [ congruence | ]. inversion Hf as [|? ? Ha Hl]; subst.
  destruct l as [|b l].
  - cbn [String.concat]. rewrite pieces_last by exact Ha. reflexivity.
  - change (String.concat "&" (a :: b :: l)) with (String.append a (String.append "&" (String.concat "&" (b :: l)))).
    cbn [String.append]. rewrite pieces_app by exact Ha. cbn [String.append]. f_equal. apply IH; [ discriminate | exact Hl ].
Qed.

Lemma written_field x : read_field (written x) = Some x /\ written x <> "" /\ ~ occurs "&" (written x).
Proof.
  destruct x as [n v]. unfold written. cbn [fst snd]. split; [ | split ].
  - unfold read_field. change (String.append "=" (query_escape v)) with (String "=" (query_escape v)).
    change "="%string with (str1 "="). rewrite split_at_char by (apply escape_occurs; right; reflexivity).
    rewrite !unescape_escape. reflexivity.
  - destruct (query_escape n); discriminate.
  - intro O. apply occurs_app in O as [O|O]; [ exact (escape_occurs _ _ (or_introl eq_refl) O) | ].
    cbn [String.append] in O. destruct O as [O|O]; [ discriminate O | exact (escape_occurs _ _ (or_introl eq_refl) O) ].
Qed.

Lemma read_written vs : read_fields (map written vs) = Some vs.
Proof.
  induction vs as [|x vs IH]; [ reflexivity | ]. destruct (written_field x) as (R & N & _). cbn [map read_fields].
  destruct (written x) as [|c r] eqn:E; [ congruence | ]. rewrite R, IH. reflexivity.
Qed.

Lemma insert_perm x l : Permutation (insert_value x l) (x :: l).
Proof.
  induction l as [|y l IH]; cbn [insert_value]; [ reflexivity | ].
  destruct (String.compare (fst x) (fst y)); try reflexivity.
  rewrite IH. apply perm_swap.
Qed.

Lemma sorted_perm vs : Permutation (fold_right insert_value [] vs) vs.
Proof. induction vs as [|x vs IH]; cbn [fold_right]; [ reflexivity | ]. rewrite insert_perm, IH. reflexivity. Qed.

Lemma compare_le a : forall b, String.compare a b <> Gt -> text_le a b.
Proof.
  induction a as [|c a IH]; intros [|d b] H; try apply tl_empty; cbn [String.compare] in H; [ exfalso; apply H; reflexivity | ].
  unfold Ascii.compare in H. destruct (N.compare_spec (N_of_ascii c) (N_of_ascii d)) as [E|L|G].
  - assert (c = d) by (rewrite <- (ascii_N_embedding c), E; apply ascii_N_embedding). subst d. apply tl_same. apply IH. exact H.
  - apply tl_less. unfold nat_of_ascii. lia.
  - exfalso. apply H. reflexivity.
Qed.

Lemma compare_ge a : forall b, String.compare a b = Gt -> text_le b a.
Proof. intros b H. apply compare_le. rewrite String.compare_antisym, H. discriminate. Qed.

Lemma text_le_trans a b c : text_le a b -> text_le b c -> text_le a c.
Proof.
  intro H. revert c. induction H as [b|x y a b L|x a b H IH]; intros c K; [ apply tl_empty | | ].
  - inversion K; subst; apply tl_less; [ lia | assumption ].
  - inversion K; subst; [ apply tl_less; assumption | apply tl_same, IH; assumption ].
Qed.

Lemma insert_forall (P : string * string -> Prop) x l : P x -> Forall P l -> Forall P (insert_value x l).
Proof. intros Hx Hl. eapply Permutation_Forall; [ symmetry; apply insert_perm | ]. constructor; assumption. Qed.

Lemma insert_sorted x l : StronglySorted (fun x y => text_le (fst x) (fst y)) l ->
  StronglySorted (fun x y => text_le (fst x) (fst y)) (insert_value x l).
Proof.
  induction 1 as [|y l S IH F]; cbn [insert_value]; [ constructor; constructor | ].
  assert (L : String.compare (fst x) (fst y) <> Gt -> StronglySorted (fun x y => text_le (fst x) (fst y)) (x :: y :: l)).
  { intro N. apply compare_le in N. constructor; [ constructor; assumption | ]. constructor; [ exact N | ].
    eapply Forall_impl; [ | exact F ]. cbn beta. intros z Hz. eapply text_le_trans; eassumption. }
  destruct (String.compare (fst x) (fst y)) eqn:C; try (apply L; discriminate).
  constructor; [ exact IH | ]. apply insert_forall; [ apply compare_ge; exact C | exact F ].
Qed.

Lemma insert_filter n x l : filter (fun y => String.eqb (fst y) n) (insert_value x l) = filter (fun y => String.eqb (fst y) n) (x :: l).
Proof.
  induction l as [|y l IH]; cbn [insert_value]; [ reflexivity | ].
  destruct (String.compare (fst x) (fst y)) eqn:C; try reflexivity.
  cbn [filter] in *. rewrite IH. destruct (String.eqb_spec (fst x) n) as [E|N], (String.eqb_spec (fst y) n) as [E'|N']; try reflexivity.
  exfalso. rewrite E, E' in C. pose proof (String.compare_antisym n n) as K. rewrite C in K. discriminate K.
Qed.

Lemma sorted_fields vs : StronglySorted (fun x y => text_le (fst x) (fst y)) (fold_right insert_value [] vs).
Proof. induction vs; cbn [fold_right]; [ constructor | apply insert_sorted; assumption ]. Qed.
Lemma sorted_filter n vs : filter (fun y => String.eqb (fst y) n) (fold_right insert_value [] vs) = filter (fun y => String.eqb (fst y) n) vs.
Proof. induction vs as [|x vs IH]; cbn [fold_right]; [ reflexivity | ]. rewrite insert_filter. cbn [filter]. rewrite IH. reflexivity. Qed.

(** C61: whatever the values are, the server reads them out of the query as they
    were. *)
Theorem C61_query vs : reads_as (encode_values vs) vs.
Proof.
  unfold reads_as, encode_values. exists (fold_right insert_value [] vs).
  split; [ | split; [ apply sorted_perm | split; [ apply sorted_fields | intro n; apply sorted_filter ] ] ].
  set (l := fold_right insert_value [] vs). change (fun x : string * string => _) with written.
  destruct l as [|x l]; [ reflexivity | ]. rewrite pieces_join; [ apply read_written | discriminate | ].
  apply Forall_forall. intros s I. apply in_map_iff in I as (y & <- & _). apply written_field.
Qed.

(** ** The functions of a plugin *)

Lemma aget_aput {A} k x (l : list (string * A)) q : aget q (aput k x l) = if String.eqb q k then Some x else aget q l.
Proof. unfold aput. cbn [aget]. reflexivity. Qed.

Lemma names_dec n (names : list value) : In (VStr n) names \/ ~ In (VStr n) names.
Proof.
  induction names as [|v names [I|N]]; [ right; intros [] | left; right; exact I | ].
  assert (D : v = VStr n \/ v <> VStr n) by (destruct v; try (right; discriminate); destruct (string_dec s n) as [->|X]; [ left; reflexivity | right; congruence ]).
  destruct D as [D|D]; [ left; left; exact D | right; intros [X|X]; contradiction ].
Qed.

Lemma add_names_get k names : forall m m' n, add_names k names m = Ok m' ->
  (In (VStr n) names -> aget n m' = Some k) /\ (~ In (VStr n) names -> aget n m' = aget n m).
Proof.
  induction names as [|v names IH]; intros m m' n H; cbn [add_names] in H.
  - injection H as <-. split; [ intros [] | reflexivity ].
  - destruct v; try discriminate H. destruct (IH _ _ n H) as [A B].
    destruct (names_dec n names) as [I|N].
    + split; [ intros _; exact (A I) | intro X; exfalso; apply X; right; exact I ].
    + specialize (B N). rewrite aget_aput in B. destruct (String.eqb_spec n s) as [E|Ns].
      * subst. split; [ intros _; exact B | intro X; exfalso; apply X; left; reflexivity ].
      * split; [ intros [X|X]; [ congruence | contradiction ] | intros _; exact B ].
Qed.

Lemma add_names_all k names : forall m, Forall (fun n => exists t, n = VStr t) names -> exists m', add_names k names m = Ok m'.
Proof.
  induction names as [|v names IH]; intros m H; cbn [add_names]; [ eauto | ]. inversion H as [|? ? (t & ->) Hf]; subst. apply IH. exact Hf.
Qed.

Lemma function_map_all fs : forall m,
  Forall (fun e => exists names, snd e = VArr names /\ Forall (fun n => exists t, n = VStr t) names) fs ->
  exists m', function_map fs m = Ok m'.
Proof.
  induction fs as [|[k v] fs IH]; intros m H; cbn [function_map]; [ eauto | ].
  inversion H as [|? ? (names & E & F) Hf]; subst. cbn [snd] in E. subst v.
  destruct (add_names_all (kind_of k) names m F) as [m1 E1]. rewrite E1. cbn [obind]. apply IH. exact Hf.
Qed.

Lemma function_map_get k n fs : forall m m', function_map fs m = Ok m' ->
  (forall k' names, In (k', VArr names) fs -> In (VStr n) names -> k' = VStr k) ->
  ((exists names, In (VStr k, VArr names) fs /\ In (VStr n) names) \/ aget n m = Some (kind_of (VStr k))) ->
  aget n m' = Some (kind_of (VStr k)).
Proof.
  induction fs as [|[q v] fs IH]; intros m m' H U L; cbn [function_map] in H.
  - injection H as <-. destruct L as [(names & [] & _)|L]; exact L.
  - destruct v; try discriminate H. destruct (add_names (kind_of q) l m) as [m1|e| |] eqn:E; try discriminate H. cbn [obind] in H.
    destruct (add_names_get _ _ _ _ n E) as [A B].
    apply (IH m1 m' H); [ intros k' names I; apply (U k' names); right; exact I | ].
    destruct (names_dec n l) as [I|N].
    + right. rewrite (A I). f_equal. f_equal. apply (U q l); [ left; reflexivity | exact I ].
    + rewrite (B N). destruct L as [(names & [I|I] & J)|L]; [ | left; eauto | right; exact L ].
      injection I as _ ->. contradiction.
Qed.

Lemma offered p name k : offers p name k -> exists m, function_map (pl_functions p) [] = Ok m /\ aget name m = Some (kind_of (VStr k)).
Proof.
  intros (T & L & U). destruct (function_map_all (pl_functions p) [] T) as [m E]. exists m. split; [ exact E | ].
  apply (function_map_get k name _ _ _ E U). left. exact L.
Qed.

(** ** Calls *)

Lemma call_request t p kind name params ad :
  tr_parse t (url_of p kind name) = Ok ad -> (forall b, tr_json t b <> Hang /\ tr_json t b <> NoFuel) ->
  exists us, request ad params us /\ reply_gives t us (tr_get t (pl_network p) (pl_addr p) us) (call_plugin t p kind name params).
Proof.
  intros E Hj. assert (Eh : (if String.eqb (pl_network p) "unix" then pl_network p else pl_addr p) = host_of p).
  { unfold host_of. destruct (String.eqb_spec (pl_network p) "unix") as [->|]; reflexivity. }
  unfold call_plugin. rewrite Eh. unfold url_of in E. rewrite E.
  set (us := match params with [] => ad | _ => String.append ad (String.append "?" (encode_values params)) end).
  exists us. split.
  - unfold request, us. destruct params as [|x params]; [ left; split; reflexivity | right; split; [ discriminate | ] ].
    exists (encode_values (x :: params)). split; [ reflexivity | apply C61_query ].
  - destruct (tr_get t (pl_network p) (pl_addr p) us) as [e|code st b]; [ constructor | ].
    destruct (Z.eqb_spec code 200) as [->|N].
    + destruct b as [b|e]; [ | constructor ]. destruct (tr_json t b) as [v|e| |] eqn:Ej; cbn [obind].
      * constructor. exact Ej.
      * constructor. exact Ej.
      * exfalso. exact (proj1 (Hj b) Ej).
      * exfalso. exact (proj2 (Hj b) Ej).
    + destruct (Z.eqb_spec code 404) as [->|N2]; [ constructor | ]. constructor; assumption.
Qed.

Lemma fields_model t opts key : fields_of t opts key = make_options t opts ++ match key with Some s => [("key", s)] | None => [] end.
Proof. unfold fields_of, make_options. destruct opts; reflexivity. Qed.

Lemma kind_other k : k <> "data_dig" -> k <> "data_hash" -> kind_of (VStr k) = FKey.
Proof.
  intros A B. unfold kind_of.
  repeat match goal with |- context [match ?x with _ => _ end] => is_var x; destruct x; try reflexivity; try congruence end.
Qed.

Lemma by_name t p name k opts key kind okey : offers p name k -> asks t k key kind okey ->
  call_by_name t p name opts key = call_plugin t p kind name (fields_of t opts okey).
Proof.
  intros O A. destruct (offered p name k O) as (m & E & G). unfold call_by_name. rewrite E. cbn [obind]. rewrite G, fields_model.
  destruct A as [l| |k s N1 N2].
  - reflexivity.
  - cbn. rewrite app_nil_r. reflexivity.
  - rewrite kind_other by assumption. reflexivity.
Qed.

Section Call.
  Variables (t : transport) (p : plugin) (name k : string) (opts : entries) (key : call_key) (kind : string) (okey : option string).
  (** Decoding JSON ends. *)
  Hypothesis Hj : forall b, tr_json t b <> Hang /\ tr_json t b <> NoFuel.
  (** The plugin offers the function, and it is called with a key that it takes. *)
  Hypothesis Ho : offers p name k.
  Hypothesis Ha : asks t k key kind okey.

  (** C61: a call sends one request to the server of the plugin, with kind and name
      in the path and the options and the key in the query, and what is replied
      decides what is answered. *)
  Theorem C61_call ad : tr_parse t (url_of p kind name) = Ok ad ->
    exists us, request ad (fields_of t opts okey) us /\
      reply_gives t us (tr_get t (pl_network p) (pl_addr p) us) (call_by_name t p name opts key).
  Proof. intro E. rewrite (by_name t p name k opts key kind okey Ho Ha). exact (call_request t p kind name _ ad E Hj). Qed.

  (** C61: without a URL there is no request but a panic. *)
  Theorem C61_no_url e : tr_parse t (url_of p kind name) = Panic e -> call_by_name t p name opts key = Panic e.
  Proof.
    intro E. rewrite (by_name t p name k opts key kind okey Ho Ha). unfold call_plugin.
    assert (Eh : (if String.eqb (pl_network p) "unix" then pl_network p else pl_addr p) = host_of p).
    { unfold host_of. destruct (String.eqb_spec (pl_network p) "unix") as [->|]; reflexivity. }
    rewrite Eh. unfold url_of in E. rewrite E. reflexivity.
  Qed.

  (** C61: a value is found exactly when the reply is 200 with a body that is JSON
      of that value; nothing is found exactly when the reply is 404; in all other
      cases there is a panic. *)
  Theorem C61_answers ad : tr_parse t (url_of p kind name) = Ok ad ->
    exists us, request ad (fields_of t opts okey) us /\
      let reply := tr_get t (pl_network p) (pl_addr p) us in
      let r := call_by_name t p name opts key in
      (forall v, r = Ok (Some v) <-> exists st b, reply = Reply 200 st (inl b) /\ tr_json t b = Ok v) /\
      (r = Ok None <-> exists st b, reply = Reply 404 st b) /\
      ((exists o, r = Ok o) \/ exists e, r = Panic e).
  Proof.
    intro E. destruct (C61_call ad E) as (us & R & G). exists us. split; [ exact R | ]. cbv zeta.
    inversion G as [st b v J X Y|st b e J X Y|st e X Y|st b X Y|code st b e N1 N2 X Y|e X Y]; (split; [ | split ]); try (left; eauto; fail); try (right; eauto; fail).
    - intro v'. split; [ intro Z; injection Z as <-; eauto | intros (st' & b' & Z & W); injection Z as _ <-; congruence ].
    - split; [ discriminate | intros (st' & b' & Z); discriminate Z ].
    - intro v'. split; [ discriminate | intros (st' & b' & Z & W); injection Z as _ <-; congruence ].
    - split; [ discriminate | intros (st' & b' & Z); discriminate Z ].
    - intro v'. split; [ discriminate | intros (st' & b' & Z & W); discriminate Z ].
    - split; [ discriminate | intros (st' & b' & Z); discriminate Z ].
    - intro v'. split; [ discriminate | intros (st' & b' & Z & W); discriminate Z ].
    - split; [ intros _; eauto | reflexivity ].
    - intro v'. split; [ discriminate | intros (st' & b' & Z & W); injection Z; intros; congruence ].
    - split; [ discriminate | intros (st' & b' & Z); injection Z; intros; congruence ].
    - intro v'. split; [ discriminate | intros (st' & b' & Z & W); discriminate Z ].
    - split; [ discriminate | intros (st' & b' & Z); discriminate Z ].
  Qed.
End Call.

(** ** The order of the functions: C65 *)

(** A function that is listed: its name and the kind it is listed under. *)
Definition listed (fs : entries) (name : string) (k : value) : Prop :=
  exists names, In (k, VArr names) fs /\ In (VStr name) names.

Definition well_told (fs : entries) : Prop :=
  Forall (fun e => (exists s, fst e = VStr s) /\ exists names, snd e = VArr names /\ Forall (fun n => exists t, n = VStr t) names) fs.

Lemma function_map_unlisted n fs : forall m m', function_map fs m = Ok m' -> (forall k, ~ listed fs n k) -> aget n m' = aget n m.
Proof.
  induction fs as [|[q v] fs IH]; intros m m' H U; cbn [function_map] in H.
  - injection H as <-. reflexivity.
  - destruct v; try discriminate H. destruct (add_names (kind_of q) l m) as [m1|e| |] eqn:E; try discriminate H. cbn [obind] in H.
    rewrite (IH m1 m' H); [ | intros k (names & I & J); apply (U k); exists names; split; [ right; exact I | exact J ] ].
    apply (proj2 (add_names_get _ _ _ _ n E)). intro I. apply (U q). exists l. split; [ left; reflexivity | exact I ].
Qed.

Lemma well_told_all fs : well_told fs -> exists m, function_map fs [] = Ok m.
Proof. intro W. apply function_map_all. eapply Forall_impl; [ | exact W ]. intros e [_ H]. exact H. Qed.

Lemma listed_dec fs n : well_told fs -> (exists k, listed fs n (VStr k)) \/ forall k, ~ listed fs n k.
Proof.
  induction fs as [|[q v] fs IH]; intro W; [ right; intros k (names & [] & _) | ].
  inversion W as [|? ? [(s & E1) (names & E2 & F)] Wf]; subst. cbn [fst snd] in E1, E2. subst q v.
  destruct (names_dec n names) as [I|N].
  - left. exists s, names. split; [ left; reflexivity | exact I ].
  - destruct (IH Wf) as [(k & ns & I & J)|U].
    + left. exists k, ns. split; [ right; exact I | exact J ].
    + right. intros k (ns & [I|I] & J); [ injection I as _ <-; contradiction | exact (U k (ex_intro _ ns (conj I J))) ].
Qed.

(** The full statement of C65: Go visits the entries of the functions map in an
    order that is not known, and it does not matter which one. *)
Definition C65_full : Prop := forall fs fs' m m' name,
  well_told fs -> NoDup (map fst fs) -> Permutation fs fs' -> function_map fs [] = Ok m -> function_map fs' [] = Ok m' ->
  aget name m = aget name m'.

(** C65, partial: it holds of a function that is not listed under two kinds. *)
Theorem C65_order_partial fs fs' name :
  well_told fs -> Permutation fs fs' -> (forall k k', listed fs name k -> listed fs name k' -> k = k') ->
  exists m m', function_map fs [] = Ok m /\ function_map fs' [] = Ok m' /\ aget name m = aget name m'.
Proof.
  intros W P U. assert (W' : well_told fs') by (eapply Permutation_Forall; eauto).
  destruct (well_told_all fs W) as [m E]. destruct (well_told_all fs' W') as [m' E'].
  exists m, m'. split; [ exact E | split; [ exact E' | ] ].
  assert (T : forall k, listed fs name k <-> listed fs' name k).
  { intro k. unfold listed. split; intros (ns & I & J); exists ns; (split; [ | exact J ]).
    - exact (Permutation_in _ P I).
    - exact (Permutation_in _ (Permutation_sym P) I). }
  destruct (listed_dec fs name W) as [(k & L)|N].
  - rewrite (function_map_get k name _ _ _ E), (function_map_get k name _ _ _ E'); [ reflexivity | | | | ].
    + intros k' ns I J. apply (U k' (VStr k)); [ apply T; exists ns; auto | exact L ].
    + left. apply T in L. exact L.
    + intros k' ns I J. apply (U k' (VStr k)); [ exists ns; auto | exact L ].
    + left. exact L.
  - rewrite (function_map_unlisted name _ _ _ E N), (function_map_unlisted name _ _ _ E'); [ reflexivity | ].
    intros k L. exact (N k (proj2 (T k) L)).
Qed.

(** C65 is false: a function that is listed under two kinds is sometimes called
    as the one and sometimes as the other. *)
Theorem C65_order_refuted : exists fs fs' m m' name,
  well_told fs /\ NoDup (map fst fs) /\ Permutation fs fs' /\ function_map fs [] = Ok m /\ function_map fs' [] = Ok m' /\
  aget name m = Some FKey /\ aget name m' = Some FHash.
Proof.
  exists [(VStr "data_hash", VArr [VStr "vault"]); (VStr "lookup_key", VArr [VStr "vault"])].
  exists [(VStr "lookup_key", VArr [VStr "vault"]); (VStr "data_hash", VArr [VStr "vault"])].
  do 2 eexists. exists "vault". split; [ | split; [ | split; [ apply perm_swap | split; [ reflexivity | split; [ reflexivity | split; reflexivity ] ] ] ] ].
  - repeat (constructor; [ split; [ eexists; reflexivity | eexists; split; [ reflexivity | repeat constructor; eauto ] ] | ]). constructor.
  - repeat constructor; cbn; intuition discriminate.
Qed.

Corollary C65_full_is_false : ~ C65_full.
Proof.
  intro F. destruct C65_order_refuted as (fs & fs' & m & m' & name & W & N & P & E & E' & A & B).
  specialize (F fs fs' m m' name W N P E E'). congruence.
Qed.

(** C61: a function that the plugin does not list is not there, and nothing is sent
    to the plugin, whatever it would answer. *)
Theorem C61_not_listed t p name opts key : told_functions p -> (forall k, ~ listed (pl_functions p) name k) ->
  call_by_name t p name opts key = Ok None.
Proof.
  intros T N. destruct (function_map_all (pl_functions p) [] T) as [m E]. unfold call_by_name. rewrite E. cbn [obind].
  rewrite (function_map_unlisted name _ _ _ E N). reflexivity.
Qed.

(** The kind that a heading of the functions map stands for: every heading but two
    is read as lookup_key. *)
Inductive heading : value -> fkind -> Prop :=
| hd_dig : heading (VStr "data_dig") FDig
| hd_hash : heading (VStr "data_hash") FHash
| hd_key : forall s, s <> "data_dig" -> s <> "data_hash" -> heading (VStr s) FKey.

Lemma heading_kind k c : heading k c -> kind_of k = c.
Proof.
  intros [| |s H1 H2]; [ reflexivity | reflexivity | ]. unfold kind_of.
  repeat match goal with |- context [match ?x with _ => _ end] => destruct x eqn:?; subst; try reflexivity; try congruence end.
Qed.
Lemma heading_of s : exists c, heading (VStr s) c.
Proof.
  destruct (string_dec s "data_dig") as [->|H1]; [ eexists; constructor | ].
  destruct (string_dec s "data_hash") as [->|H2]; [ eexists; constructor | ]. eexists. apply hd_key; assumption.
Qed.

(** The last entry with the function decides. *)
Lemma function_map_last n c : forall fs m m', function_map fs m = Ok m' ->
  (forall k, listed fs n k -> kind_of k = c) -> (exists k, listed fs n k) \/ aget n m = Some c -> aget n m' = Some c.
Proof.
  induction fs as [|[q v] fs IH]; intros m m' H K L; cbn [function_map] in H.
  - injection H as <-. destruct L as [(k & ns & [] & _)|L]. exact L.
  - destruct v; try discriminate H. destruct (add_names (kind_of q) l m) as [m1|e| |] eqn:E; try discriminate H. cbn [obind] in H.
    destruct (add_names_get _ _ _ _ n E) as [G1 G2].
    apply (IH m1 m' H); [ intros k (ns & I & J); apply K; exists ns; split; [ right; exact I | exact J ] | ].
    destruct L as [(k & ns & [I|I] & J)|L].
    + injection I as -> ->. right. rewrite (G1 J). f_equal. apply K. exists ns. split; [ left; reflexivity | exact J ].
    + left. exists k, ns. auto.
    + right. destruct (names_dec n l) as [I|I]; [ | rewrite (G2 I); exact L ].
      rewrite (G1 I). f_equal. apply K. exists l. split; [ left; reflexivity | exact I ].
Qed.

Lemma function_map_app : forall fs gs m, function_map (fs ++ gs) m = obind (function_map fs m) (function_map gs).
Proof.
  induction fs as [|[q v] fs IH]; intros gs m; [ reflexivity | ]. cbn [app function_map]. destruct v; try reflexivity.
  destruct (add_names (kind_of q) l m) as [m1|e| |]; cbn [obind]; [ apply IH | reflexivity | reflexivity | reflexivity ].
Qed.

(** C65, exactly: the order does not matter for a function if and only if all the
    headings under which it is listed stand for one kind. *)
Theorem C65_exactly fs name : well_told fs ->
  ((forall fs' m m', Permutation fs fs' -> function_map fs [] = Ok m -> function_map fs' [] = Ok m' -> aget name m = aget name m') <->
   forall k k' c c', listed fs name k -> listed fs name k' -> heading k c -> heading k' c' -> c = c').
Proof.
  intro W. destruct (well_told_all fs W) as [m E]. split.
  - intros H.
    assert (G : forall k c, listed fs name k -> heading k c -> aget name m = Some c).
    { intros k c (ns & I & J) Hc. apply heading_kind in Hc. destruct (in_split _ _ I) as (l1 & l2 & Ef).
      assert (P : Permutation fs ((l1 ++ l2) ++ [(k, VArr ns)])).
      { rewrite Ef, <- app_assoc. apply Permutation_app_head. apply (Permutation_app_comm [(k, VArr ns)] l2). }
      assert (W' : well_told ((l1 ++ l2) ++ [(k, VArr ns)])) by (eapply Permutation_Forall; eauto).
      destruct (well_told_all _ W') as [m' E']. rewrite (H _ m m' P E E').
      rewrite function_map_app in E'. destruct (function_map (l1 ++ l2) []) as [m1| | |]; try discriminate E'. cbn [obind] in E'.
      apply (function_map_last name c [(k, VArr ns)] m1 m' E').
      - intros k' (ns' & [I'|[]] & _). injection I' as <- _. exact Hc.
      - left. exists k, ns. split; [ left; reflexivity | exact J ]. }
    intros k k' c c' L L' Hc Hc'. rewrite (G k c L Hc) in G. specialize (G k' c' L' Hc'). congruence.
  - intros H fs' m1 m' P E1 E'. assert (m1 = m) as -> by congruence. clear E1.
    assert (W' : well_told fs') by (eapply Permutation_Forall; eauto).
    assert (T : forall k, listed fs name k <-> listed fs' name k).
    { intro k. unfold listed. split; intros (ns & I & J); exists ns; (split; [ | exact J ]).
      - exact (Permutation_in _ P I).
      - exact (Permutation_in _ (Permutation_sym P) I). }
    destruct (listed_dec fs name W) as [(k & L)|N].
    + destruct (heading_of k) as (c & Hc).
      assert (K : forall k', listed fs name k' -> kind_of k' = c).
      { intros k' L'. assert (S' : exists s, k' = VStr s).
        { destruct L' as (ns & I & _). unfold well_told in W. rewrite Forall_forall in W. destruct (W _ I) as [(s & Q) _]. exists s. exact Q. }
        destruct S' as (s & ->). destruct (heading_of s) as (c' & Hc'). rewrite (heading_kind _ _ Hc'). exact (H _ _ _ _ L' L Hc' Hc). }
      rewrite (function_map_last name c fs [] m E K (or_introl (ex_intro _ _ L))).
      rewrite (function_map_last name c fs' [] m' E'); [ reflexivity | intros k' L'; apply K; apply T; exact L' | left; exists (VStr k); apply T; exact L ].
    + rewrite (function_map_unlisted name _ _ _ E N), (function_map_unlisted name _ _ _ E'); [ reflexivity | ].
      intros k L. exact (N k (proj2 (T k) L)).
Qed.

(** A function under lookup_key and under a heading that nobody knows is one kind;
    one under data_hash too is not. *)
Example C65_exactly_example :
  let fs := [(VStr "data_hash", VArr [VStr "b"]); (VStr "lookup_key", VArr [VStr "a"; VStr "b"]); (VStr "key_lookup", VArr [VStr "a"])] in
  well_told fs /\ (forall k k' c c', listed fs "a" k -> listed fs "a" k' -> heading k c -> heading k' c' -> c = c') /\
  ~ (forall k k' c c', listed fs "b" k -> listed fs "b" k' -> heading k c -> heading k' c' -> c = c').
Proof.
  cbv zeta. split; [ | split ].
  - repeat (constructor; [ split; [ eexists; reflexivity | eexists; split; [ reflexivity | repeat constructor; eauto ] ] | ]). constructor.
  - assert (G : forall k c, listed [(VStr "data_hash", VArr [VStr "b"]); (VStr "lookup_key", VArr [VStr "a"; VStr "b"]); (VStr "key_lookup", VArr [VStr "a"])] "a" k ->
              heading k c -> c = FKey).
    { intros k c (ns & I & J) Hc. apply heading_kind in Hc. destruct I as [I|[I|[I|[]]]]; injection I as <- <-.
      - destruct J as [J|[]]. discriminate J.
      - symmetry. exact Hc.
      - symmetry. exact Hc. }
    intros k k' c c' L L' Hc Hc'. rewrite (G k c L Hc), (G k' c' L' Hc'). reflexivity.
  - intro H. assert (X : FHash = FKey); [ | discriminate X ]. apply (H (VStr "data_hash") (VStr "lookup_key")).
    + eexists. split; [ left; reflexivity | left; reflexivity ].
    + eexists. split; [ right; left; reflexivity | right; left; reflexivity ].
    + constructor.
    + apply hd_key; discriminate.
Qed.

(** ** The environment of a plugin: C64 *)

(** A process looks up a variable in its environment: of two entries with the
    same name the later one is used (os/exec of Go drops the others). *)
Definition variable_is (env : list string) (name v : string) : Prop :=
  exists before after, env = before ++ String.append name (String.append "=" v) :: after /\
    forall e, In e after -> forall x, e <> String.append name (String.append "=" x).

(** Everything after an entry has another name. *)
Ltac other_entries :=
  intros e I x; cbn [In app] in I;
  repeat (destruct I as [I|I]; [ subst e; cbn [String.append]; discriminate | ]); destruct I.

(** C64: whatever is in the environment of hiera, the plugin finds the cookie, a
    directory for sockets and one of the two transports that it may use: the
    ones of the options when they are right. *)
Theorem C64_environment env cookie tmp sockets opts :
  let e := plugin_env env cookie tmp sockets opts in
  variable_is e "HIERA_MAGIC_COOKIE" cookie /\
  (exists dir, variable_is e "HIERA_PLUGIN_SOCKET_DIR" dir /\
     (forall s, mgets "unixSocketDir" opts = Some (VStr s) -> dir = s) /\
     ((forall s, mgets "unixSocketDir" opts <> Some (VStr s)) -> tmp <> "" -> dir = tmp) /\
     ((forall s, mgets "unixSocketDir" opts <> Some (VStr s)) -> tmp = "" -> dir = "/tmp")) /\
  (exists tr, variable_is e "HIERA_PLUGIN_TRANSPORT" tr /\ (tr = "unix" \/ tr = "tcp") /\
     (forall s, mgets "pluginTransport" opts = Some (VStr s) -> s = "unix" \/ s = "tcp" -> tr = s) /\
     ((forall s, mgets "pluginTransport" opts = Some (VStr s) -> s <> "unix" /\ s <> "tcp") -> tr = "unix" <-> sockets = true)).
Proof.
  cbv zeta. unfold plugin_env. split; [ | split ].
  - exists env. eexists. split; [ reflexivity | other_entries ].
  - exists (socket_dir tmp opts). split.
    + exists (env ++ [String.append "HIERA_MAGIC_COOKIE=" cookie]). eexists. split; [ rewrite <- app_assoc; reflexivity | other_entries ].
    + unfold socket_dir. split; [ | split ].
      * intros s E. rewrite E. reflexivity.
      * intros N T. destruct (mgets "unixSocketDir" opts) as [v|]; [ destruct v | ]; try (destruct (String.eqb_spec tmp ""); congruence). exfalso. exact (N s eq_refl).
      * intros N T. subst tmp. destruct (mgets "unixSocketDir" opts) as [v|]; [ destruct v | ]; try reflexivity. exfalso. exact (N s eq_refl).
  - exists (plugin_transport sockets opts). split; [ | split; [ | split ] ].
    + exists (env ++ [String.append "HIERA_MAGIC_COOKIE=" cookie] ++ [String.append "HIERA_PLUGIN_SOCKET_DIR=" (socket_dir tmp opts)]).
      exists []. split; [ rewrite <- !app_assoc; reflexivity | intros e [] ].
    + unfold plugin_transport, default_transport. destruct (mgets "pluginTransport" opts) as [v|]; [ destruct v | ]; try (destruct sockets; auto; fail).
      destruct (String.eqb_spec s "unix"); [ auto | ]. destruct (String.eqb_spec s "tcp"); [ auto | ]. destruct sockets; auto.
    + intros s E [D|D]; unfold plugin_transport; rewrite E; subst s; reflexivity.
    + intro N. unfold plugin_transport, default_transport.
      assert (W : (if sockets then "unix" else "tcp") = "unix" <-> sockets = true) by (destruct sockets; split; congruence).
      destruct (mgets "pluginTransport" opts) as [v|]; [ destruct v | ]; try exact W.
      destruct (N s eq_refl) as [N1 N2]. destruct (String.eqb_spec s "unix"); [ contradiction | ]. destruct (String.eqb_spec s "tcp"); [ contradiction | exact W ].
Qed.

(** ** Examples *)

(** A server on a socket that has the function vault of kind lookup_key. *)
Definition vault : plugin :=
  mk_plugin false (Some 0) "/tmp/p.sock" "unix" [(VStr "data_hash", VArr [VStr "consul"]); (VStr "lookup_key", VArr [VStr "vault"; VStr "other"])].

Example C61_not_listed_example : told_functions vault /\ forall k, ~ listed (pl_functions vault) "secret" k.
Proof.
  split.
  - repeat (constructor; [ eexists; split; [ reflexivity | repeat constructor; eauto ] | ]). constructor.
  - intros k (ns & [I|[I|[]]] & J); injection I as <- <-; cbn in J; repeat (destruct J as [J|J]; [ discriminate J | ]); exact J.
Qed.

Definition vault_net : transport :=
  mk_transport (fun u => Ok u)
    (fun network addr u =>
       if String.eqb u "http://unix/lookup_key/vault?key=a+%26+b%3D%C3%A5&options=%7B%22path%22%3A%22x%22%7D" && String.eqb network "unix" && String.eqb addr "/tmp/p.sock"
       then Reply 200 "200 OK" (inl """found""")
       else if String.eqb u "http://unix/data_hash/consul" then Reply 500 "500 Internal Server Error" (inl "no data")
       else if String.eqb u "http://unix/lookup_key/other?key=k" then NoReply "connection refused"
       else Reply 404 "404 Not Found" (inl "404 value not found"))
    (fun b => if String.eqb b """found""" then Ok (VStr "found") else Panic (EErr "no JSON"))
    (fun _ => "{""path"":""x""}" ++ str1 c_nl)%string (fun _ => "[]").

Definition odd_key : string := "a & b=" ++ String (chr 195) (String (chr 165) "").

Example C61_query_example :
  encode_values [("options", "{""path"":""x""}"); ("key", odd_key)] = "key=a+%26+b%3D%C3%A5&options=%7B%22path%22%3A%22x%22%7D" /\
  read_fields (pieces "" "key=a+%26+b%3D%C3%A5&options=%7B%22path%22%3A%22x%22%7D") = Some [("key", odd_key); ("options", "{""path"":""x""}")].
Proof. split; vm_compute; reflexivity. Qed.

Example C61_offers_example : offers vault "vault" "lookup_key".
Proof.
  unfold offers, told_functions. cbn [pl_functions vault]. split; [ | split ].
  - repeat (constructor; [ eexists; split; [ reflexivity | repeat constructor; eauto ] | ]). constructor.
  - eexists. split; [ right; left; reflexivity | left; reflexivity ].
  - intros k' names [I|[I|[]]] J; injection I as <- <-; [ destruct J as [J|[]]; discriminate J | reflexivity ].
Qed.

Example C61_call_example :
  (forall b, tr_json vault_net b <> Hang /\ tr_json vault_net b <> NoFuel) /\
  asks vault_net "lookup_key" (KeyText odd_key) "lookup_key" (Some odd_key) /\
  tr_parse vault_net (url_of vault "lookup_key" "vault") = Ok "http://unix/lookup_key/vault" /\
  call_by_name vault_net vault "vault" [(VStr "path", VStr "x")] (KeyText odd_key) = Ok (Some (VStr "found")) /\
  call_by_name vault_net vault "vault" [] (KeyText odd_key) = Ok None /\
  call_by_name vault_net vault "consul" [] KeyNone = Panic (EErr "http://unix/data_hash/consul 500 Internal Server Error: no data") /\
  call_by_name vault_net vault "other" [] (KeyText "k") = Panic (EStr "connection refused").
Proof.
  split; [ | split; [ | split; [ | split; [ | split; [ | split ] ] ] ] ]; try (vm_compute; reflexivity).
  - intro b. cbn [tr_json vault_net]. destruct (String.eqb b """found"""); split; discriminate.
  - constructor; discriminate.
Qed.

(** The URL cannot be parsed. *)
Example C61_no_url_example :
  let net := mk_transport (fun _ => Panic (EErr "invalid URL")) (tr_get vault_net) (tr_json vault_net) (tr_options vault_net) (tr_key vault_net) in
  call_by_name net vault "vault" [] (KeyText "k") = Panic (EErr "invalid URL").
Proof. vm_compute. reflexivity. Qed.

Example C65_order_example :
  let fs := [(VStr "data_hash", VArr [VStr "a"; VStr "b"]); (VStr "lookup_key", VArr [VStr "b"; VStr "c"])] in
  well_told fs /\ (forall k k', listed fs "c" k -> listed fs "c" k' -> k = k') /\ listed fs "c" (VStr "lookup_key") /\
  match function_map fs [], function_map (rev fs) [] with Ok m, Ok m' => aget "c" m = Some FKey /\ aget "c" m' = Some FKey | _, _ => False end.
Proof.
  cbv zeta. split; [ | split; [ | split ] ].
  - repeat (constructor; [ split; [ eexists; reflexivity | eexists; split; [ reflexivity | repeat constructor; eauto ] ] | ]). constructor.
  - assert (W : forall k, listed [(VStr "data_hash", VArr [VStr "a"; VStr "b"]); (VStr "lookup_key", VArr [VStr "b"; VStr "c"])] "c" k -> k = VStr "lookup_key").
    { intros k (ns & [I|[I|[]]] & J); injection I as <- <-; [ | reflexivity ]. destruct J as [J|[J|[]]]; discriminate J. }
    intros k k' A B. rewrite (W k A), (W k' B). reflexivity.
  - eexists. split; [ right; left; reflexivity | right; left; reflexivity ].
  - vm_compute. split; reflexivity.
Qed.

(** A transport that does not exist is not passed on, nor is the one that hiera was
    started with. *)
Example C64_environment_example :
  plugin_env ["PATH=/bin"; "HIERA_PLUGIN_TRANSPORT=pigeon"] "42" "/var/tmp" true [(VStr "pluginTransport", VStr "udp")] =
    ["PATH=/bin"; "HIERA_PLUGIN_TRANSPORT=pigeon"; "HIERA_MAGIC_COOKIE=42"; "HIERA_PLUGIN_SOCKET_DIR=/var/tmp"; "HIERA_PLUGIN_TRANSPORT=unix"] /\
  plugin_env [] "42" "" true [(VStr "pluginTransport", VStr "tcp"); (VStr "unixSocketDir", VStr "/run")] =
    ["HIERA_MAGIC_COOKIE=42"; "HIERA_PLUGIN_SOCKET_DIR=/run"; "HIERA_PLUGIN_TRANSPORT=tcp"].
Proof. split; vm_compute; reflexivity. Qed.

Print Assumptions C61_query.
Print Assumptions C61_call.
Print Assumptions C61_no_url.
Print Assumptions C61_not_listed.
Print Assumptions C61_answers.
Print Assumptions C65_order_partial.
Print Assumptions C65_order_refuted.
Print Assumptions C65_exactly.
Print Assumptions C64_environment.
