(** C78: what the arguments of the REST server mean. *)

From Coq Require Import String Ascii List Bool ZArith Lia Arith Decimal DecimalString DecimalPos DecimalZ.
From Verif Require Import Str Value Outcome State Ipl Api Args Rest RestArgs SpecRestArgs KeyFacts ArgsFacts.
Import ListNotations.
Open Scope string_scope.

Lemma server_kind_switch : forall n, switch n -> aget n server_kinds = Some FkSwitch.
Proof. intros n H. unfold switch in H. each_in H; reflexivity. Qed.
Lemma server_kind_valued : forall n, valued n -> exists k, aget n server_kinds = Some k /\ k <> FkSwitch.
Proof. intros n H. unfold valued in H. each_in H; eexists; (split; [reflexivity|discriminate]). Qed.
Lemma server_kind_known : forall n k, aget n server_kinds = Some k -> (k = FkSwitch /\ switch n) \/ (k <> FkSwitch /\ valued n).
Proof.
  intros n k H. apply aget_in in H. unfold valued, switch. cbn in H.
  repeat (destruct H as [[= <- <-]|H]; [first [left; split; [reflexivity|cbn; tauto] | right; split; [discriminate|cbn; tauto]]|]).
  destruct H.
Qed.
Lemma server_known_text : forall n, valued n \/ switch n -> n <> "" /\ split_equals n = (n, None).
Proof. intros n [H|H]; unfold valued, switch in H; each_in H; (split; [discriminate|reflexivity]). Qed.

(** ** Decimal texts *)
Lemma denotes_uint : forall u acc, denotes_from (Zpos acc) (NilEmpty.string_of_uint u) (Zpos (Pos.of_uint_acc u acc)).
Proof.
  induction u; intro acc; cbn [NilEmpty.string_of_uint Pos.of_uint_acc denotes_from]; [reflexivity|..];
    eexists; (split; [cbn [In]; repeat (first [left; reflexivity | right])|]);
    match goal with |- denotes_from ?z _ (Zpos (Pos.of_uint_acc _ ?a)) => replace z with (Zpos a) by lia end; apply IHu.
Qed.

Lemma denotes_uint0 : forall u, denotes_from 0 (NilEmpty.string_of_uint u) (Z.of_N (Pos.of_uint u)).
Proof.
  induction u; cbn [NilEmpty.string_of_uint Pos.of_uint denotes_from]; [reflexivity|..];
    eexists; (split; [cbn [In]; repeat (first [left; reflexivity | right])|]); cbn [Z.mul Z.add Z.of_N].
  1: exact IHu.
  all: apply denotes_uint.
Qed.

Lemma nonempty_uint : forall u, u <> Nil -> NilZero.string_of_uint u = NilEmpty.string_of_uint u /\ NilEmpty.string_of_uint u <> "".
Proof. intros [] H; try contradiction; (split; [reflexivity|discriminate]). Qed.

Lemma decimal_shown : forall z, decimal z (show_int z).
Proof.
  intro z. unfold decimal, show_int. destruct z as [|p|p]; cbn [Z.to_int NilZero.string_of_int].
  - left. split; [discriminate|]. cbn. exists 0%Z. split; [left; reflexivity|reflexivity].
  - left. destruct (nonempty_uint (Pos.to_uint p)) as [E N]; [apply DecimalPos.Unsigned.to_uint_nonnil|].
    rewrite E. split; [exact N|]. pose proof (denotes_uint0 (Pos.to_uint p)) as D.
    rewrite DecimalPos.Unsigned.of_to in D. exact D.
  - right. destruct (nonempty_uint (Pos.to_uint p)) as [E N]; [apply DecimalPos.Unsigned.to_uint_nonnil|].
    rewrite E. eexists. split; [reflexivity|]. split; [exact N|].
    pose proof (denotes_uint0 (Pos.to_uint p)) as D. rewrite DecimalPos.Unsigned.of_to in D. exact D.
Qed.

Section Server.
  Variable parse_int : string -> option Z.
  Variable load_pair : string -> string -> bool.
  Variable load_pool : string -> bool.

  (** How a server listens that was given this certificate, key and authority:
      without TLS when the certificate or the key is missing; otherwise with TLS,
      and clients are verified when the switch says so; a file that cannot be
      loaded is an error. *)
  Inductive listens (cert key : string) (verify : bool) (ca : string) : outcome listening -> Prop :=
  | li_plain : cert = "" \/ key = "" -> listens cert key verify ca (Ok Plain)
  | li_no_pair m : cert <> "" -> key <> "" -> load_pair cert key = false -> listens cert key verify ca (Panic (EErr m))
  | li_system : cert <> "" -> key <> "" -> load_pair cert key = true -> ca = "" ->
      listens cert key verify ca (Ok (Tls (mk_tls verify None)))
  | li_pool : cert <> "" -> key <> "" -> load_pair cert key = true -> ca <> "" -> load_pool ca = true ->
      listens cert key verify ca (Ok (Tls (mk_tls verify (Some ca))))
  | li_no_pool m : cert <> "" -> key <> "" -> load_pair cert key = true -> ca <> "" -> load_pool ca = false ->
      listens cert key verify ca (Panic (EErr m)).

  (** What a server is started with, from the settings: an option is what it was
      set to last, or its default; the variables and the files of variables of all
      requests are all those given, in order. *)
  Record started_from (ss : list (string * string)) (config : string) (opts : command_options) (address : string)
         (l : outcome listening) : Prop := mk_started_from {
    st_config : option_is "config" "/hiera/hiera.yaml" ss config;
    st_options : exists vars var, all_set "vars" ss vars /\ all_set "var" ss var /\
                   opts = mk_command "" "" None [] vars var "" false false false;
    st_address : exists addr port text, option_is "addr" "" ss addr /\ port_is parse_int ss port /\ decimal port text /\
                   address = addr ++ ":" ++ text;
    st_tls : exists cert key ca verify, option_is "ssl-cert" "" ss cert /\ option_is "ssl-key" "" ss key /\ option_is "ca" "" ss ca /\
               (verify = true <-> switched "clientCertVerify" ss) /\ listens cert key verify ca l
  }.

  Notation set := (set_server_flag parse_int).
  Notation apply := (apply_sets set).
  Notation known := (ArgsFacts.known valued switch).

  (** The number of a port (/repo/hieraserver/rest/rest.go:69). *)
  Definition number (ss : list (string * string)) (d : Z) : Z :=
    match final "port" ss with Some v => or_else (parse_int v) d | None => d end.

  Record left_by (ss : list (string * string)) (g g' : server_flags) : Prop := mk_left_by {
    lb_config : sv_config g' = or_else (final "config" ss) (sv_config g);
    lb_addr : sv_addr g' = or_else (final "addr" ss) (sv_addr g);
    lb_key : fl_key (sv_tls g') = or_else (final "ssl-key" ss) (fl_key (sv_tls g));
    lb_cert : fl_cert (sv_tls g') = or_else (final "ssl-cert" ss) (fl_cert (sv_tls g));
    lb_ca : fl_ca (sv_tls g') = or_else (final "ca" ss) (fl_ca (sv_tls g));
    lb_vars : sv_vars g' = (sv_vars g ++ collect "vars" ss)%list;
    lb_var : sv_var g' = (sv_var g ++ collect "var" ss)%list;
    lb_verify : fl_verify (sv_tls g') = on_off "clientCertVerify" ss (fl_verify (sv_tls g));
    lb_help : sv_help g' = on_off "help" ss (sv_help g);
    lb_port : sv_port g' = number ss (sv_port g)
  }.

  (** A setting that is accepted (/repo/hieraserver/rest/rest.go:68-69). *)
  Definition sane (nv : string * string) : Prop :=
    (switch (fst nv) -> parse_bool (snd nv) <> None) /\ (fst nv = "port" -> parse_int (snd nv) <> None).

  Lemma acceptable_sane : forall ss, acceptable parse_int ss <-> Forall sane ss.
  Proof.
    intro ss. rewrite Forall_forall. split.
    - intros [H1 H2] [n v] Hi. split; cbn.
      + intro Hn. destruct (H1 n v Hi Hn) as [Hy|Hy]; [apply parse_bool_yes in Hy|apply parse_bool_no in Hy]; now rewrite Hy.
      + intros ->. exact (H2 v Hi).
    - intro H. split.
      + intros n v Hi Hn. destruct (H (n, v) Hi) as [H1 _]. specialize (H1 Hn). cbn in H1.
        destruct (parse_bool v) as [[]|] eqn:E; [left; now apply parse_bool_yes|right; now apply parse_bool_no|contradiction].
      + intros v Hi. destruct (H _ Hi) as [_ H2]. exact (H2 eq_refl).
  Qed.

  Lemma set_sane : forall n v g g', set n v g = Some g' -> sane (n, v).
  Proof.
    intros n v g g' H. split; cbn [fst snd].
    - intro Hs. unfold switch in Hs. each_in Hs; cbn in H; destruct (parse_bool v); discriminate.
    - intros ->. cbn in H. destruct (parse_int v); discriminate.
  Qed.

  Lemma set_total : forall n v g, known (n, v) -> sane (n, v) -> exists g', set n v g = Some g'.
  Proof.
    intros n v g [Hk|Hk] [Hs Hp]; cbn [fst snd] in *.
    - unfold valued in Hk. each_in Hk; cbn; try (eexists; reflexivity).
      specialize (Hp eq_refl). destruct (parse_int v); [eexists; reflexivity|contradiction].
    - specialize (Hs Hk). unfold switch in Hk.
      each_in Hk; cbn; (destruct (parse_bool v); [|contradiction]); eexists; reflexivity.
  Qed.

  Lemma set_left : forall n v g g', known (n, v) -> set n v g = Some g' -> left_by [(n, v)] g g'.
  Proof.
    intros n v g g' [Hk|Hk] H; cbn in Hk; [unfold valued in Hk|unfold switch in Hk]; each_in Hk; cbn in H.
    all: try (destruct (parse_bool v) as [b|] eqn:Eb; [|discriminate]).
    all: try (destruct (parse_int v) as [z|] eqn:Ez; [|discriminate]).
    all: injection H as <-; constructor; cbn; unfold on_off, number; cbn; rewrite ?app_nil_r, ?Eb, ?Ez; reflexivity.
  Qed.

  Lemma apply_left : forall ss g g', Forall known ss -> apply ss g = Some g' -> left_by ss g g'.
  Proof.
    induction ss as [|[n v] r IH]; intros g g' Hk H.
    - cbn in H. injection H as <-. constructor; cbn; unfold on_off, number; cbn; rewrite ?app_nil_r; reflexivity.
    - cbn in H. destruct (set n v g) as [g1|] eqn:E; [|discriminate].
      inversion Hk as [|? ? Hkn Hkr]; subst.
      pose proof (set_left _ _ _ _ Hkn E) as L1. pose proof (IH _ _ Hkr H) as L2.
      pose proof (ArgsFacts.apply_sane set sane set_sane _ _ _ H) as Hs. rewrite Forall_forall in Hs.
      pose proof (fun m => final_cons m (n, v) r) as Fc. pose proof (fun m => collect_cons m (n, v) r) as Cc.
      assert (Oc : forall m d, switch m -> on_off m ((n, v) :: r) d = on_off m r (on_off m [(n, v)] d)).
      { intros m d Hm. apply on_off_cons. intros w Hw. exact (proj1 (Hs _ Hw) Hm). }
      assert (Nc : forall d, number ((n, v) :: r) d = number r (number [(n, v)] d)).
      { intro d. unfold number. rewrite Fc. destruct (final "port" r) as [w|] eqn:Ew; [|reflexivity].
        pose proof (proj2 (Hs _ (final_in _ _ _ Ew)) eq_refl) as Hw. cbn in Hw.
        destruct (parse_int w); [reflexivity|contradiction]. }
      destruct L1, L2. constructor.
      1-5: rewrite Fc.
      6-7: rewrite Cc, app_assoc.
      8-9: rewrite Oc by (unfold switch; cbn [In]; tauto).
      10: rewrite Nc.
      6-10: congruence.
      all: match goal with |- context [final ?m ?q] => destruct (final m q) end; cbn [or_else] in *; congruence.
  Qed.

  Lemma tls_listens : forall f, listens (fl_cert f) (fl_key f) (fl_verify f) (fl_ca f) (start_server load_pair load_pool f).
  Proof.
    intros [cert key verify ca]. unfold start_server, make_tls_config. cbn [fl_cert fl_key fl_verify fl_ca].
    destruct (String.eqb_spec cert "") as [->|Hc]; [apply li_plain; now left|].
    destruct (String.eqb_spec key "") as [->|Hk]; [apply li_plain; now right|].
    cbn [orb]. destruct (load_pair cert key) eqn:Ep; cbn [negb]; [|apply li_no_pair; assumption].
    destruct (String.eqb_spec ca "") as [->|Ha]; [apply li_system; auto|].
    destruct (load_pool ca) eqn:El; [apply li_pool; assumption|apply li_no_pool; assumption].
  Qed.

  Notation run := (execute_server parse_int load_pair load_pool).

  Lemma run_reads : forall args ss ns, reads args ss ns -> acceptable parse_int ss ->
    (switched "help" ss -> run args = SaHelp) /\
    (~ switched "help" ss -> ns <> [] -> run args = SaRefuse) /\
    (~ switched "help" ss -> ns = [] -> exists c o a l, run args = SaServe c o a l /\ started_from ss c o a l).
  Proof.
    intros args ss ns Hr Hs. apply acceptable_sane in Hs.
    pose proof (ArgsFacts.reads_known server_kinds set valued switch _ _ _ Hr) as Hk.
    destruct (ArgsFacts.apply_total set valued switch sane set_total ss new_server Hk Hs) as (g & Ha).
    pose proof (apply_left _ _ _ Hk Ha) as L.
    pose proof (ArgsFacts.reads_parse server_kinds set valued switch server_kind_switch server_kind_valued server_known_text
                  _ _ _ Hr [] new_server) as Hp.
    rewrite Ha in Hp. cbn [rev app] in Hp. unfold execute_server. rewrite Hp.
    assert (Hh : sv_help g = true <-> switched "help" ss) by (rewrite (lb_help _ _ _ L); apply switched_on).
    split; [|split].
    - intro H. apply Hh in H. now rewrite H.
    - intros H Hn. destruct (sv_help g); [exfalso; apply H; now apply Hh|]. destruct ns; [contradiction|reflexivity].
    - intros H ->. destruct (sv_help g); [exfalso; apply H; now apply Hh|].
      do 4 eexists. split; [reflexivity|]. destruct L. constructor.
      + apply option_is_final. assumption.
      + exists (collect "vars" ss), (collect "var" ss). split; [apply collect_all|]. split; [apply collect_all|].
        rewrite lb_vars0, lb_var0. reflexivity.
      + exists (sv_addr g), (sv_port g), (show_int (sv_port g)). split; [apply option_is_final; assumption|].
        split; [|split; [apply decimal_shown|reflexivity]].
        exists (final "port" ss). split; [apply final_last|]. rewrite lb_port0. unfold number.
        destruct (final "port" ss) as [v|] eqn:Ev; [|reflexivity].
        rewrite Forall_forall in Hs. pose proof (proj2 (Hs _ (final_in _ _ _ Ev)) eq_refl) as Hv. cbn in Hv.
        destruct (parse_int v); [reflexivity|contradiction].
      + exists (fl_cert (sv_tls g)), (fl_key (sv_tls g)), (fl_ca (sv_tls g)), (fl_verify (sv_tls g)).
        split; [apply option_is_final; assumption|]. split; [apply option_is_final; assumption|].
        split; [apply option_is_final; assumption|].
        split; [rewrite lb_verify0; apply switched_on|apply tls_listens].
  Qed.

  Lemma run_back : forall args,
    match run args with
    | SaHelp | SaServe _ _ _ _ => exists ss ns, reads args ss ns /\ acceptable parse_int ss
    | _ => True
    end.
  Proof.
    intro args. unfold execute_server.
    destruct (read_args server_kinds set args [] new_server) as [g ns|g|] eqn:E; try exact I.
    apply (ArgsFacts.parse_reads server_kinds set valued switch server_kind_known (length args)) in E; [|lia].
    destruct E as (ss & ns' & Hr & Ha & _).
    assert (H : exists ss ns, reads args ss ns /\ acceptable parse_int ss).
    { exists ss, ns'. split; [exact Hr|]. apply acceptable_sane. exact (ArgsFacts.apply_sane set sane set_sane _ _ _ Ha). }
    destruct (sv_help g); [exact H|]. destruct ns; [exact H|exact I].
  Qed.

  (** ** C78

      The server is started exactly when its arguments can be read, all of them
      are settings and help is not asked for; and then it serves with what the
      settings say. *)
  Theorem C78_started : forall args,
    (forall c o a l, run args = SaServe c o a l ->
       exists ss, reads args ss [] /\ acceptable parse_int ss /\ ~ switched "help" ss /\ started_from ss c o a l) /\
    (forall ss, reads args ss [] -> acceptable parse_int ss -> ~ switched "help" ss ->
       exists c o a l, run args = SaServe c o a l /\ started_from ss c o a l).
  Proof.
    intro args. split.
    - intros c o a l H. pose proof (run_back args) as B. rewrite H in B. destruct B as (ss & ns & Hr & Hs).
      destruct (run_reads _ _ _ Hr Hs) as (A1 & A2 & A3).
      destruct (switched_dec "help" ss) as [Hh|Hh]; [rewrite (A1 Hh) in H; discriminate|].
      destruct ns as [|x ns]; [|rewrite A2 in H by (assumption || discriminate); discriminate].
      destruct (A3 Hh eq_refl) as (c' & o' & a' & l' & E & S). rewrite E in H. injection H as <- <- <- <-.
      exists ss. auto.
    - intros ss Hr Hs Hh. exact (proj2 (proj2 (run_reads _ _ _ Hr Hs)) Hh eq_refl).
  Qed.

  (** Help is written exactly when it is asked for; the exit status is 0. *)
  Theorem C78_help : forall args,
    run args = SaHelp <-> exists ss names, reads args ss names /\ acceptable parse_int ss /\ switched "help" ss.
  Proof.
    intro args. split.
    - intro H. pose proof (run_back args) as B. rewrite H in B. destruct B as (ss & ns & Hr & Hs).
      destruct (run_reads _ _ _ Hr Hs) as (A1 & A2 & A3).
      destruct (switched_dec "help" ss) as [Hh|Hh]; [eauto|].
      destruct ns as [|x ns]; [|rewrite A2 in H by (assumption || discriminate); discriminate].
      destruct (A3 Hh eq_refl) as (c' & o' & a' & l' & E & S). rewrite E in H. discriminate.
    - intros (ss & ns & Hr & Hs & Hh). exact (proj1 (run_reads _ _ _ Hr Hs) Hh).
  Qed.

  (** The arguments are refused, and the exit status is 1, exactly when they
      cannot be read, when a switch or the port is set to something that it
      cannot be, or when one of them is a name. *)
  Theorem C78_refused : forall args, (forall a, In a args -> ~ short a) ->
    (run args = SaRefuse <->
     forall ss names, reads args ss names -> acceptable parse_int ss -> names <> [] /\ ~ switched "help" ss).
  Proof.
    intros args Hn. split.
    - intros H ss ns Hr Hs. destruct (run_reads _ _ _ Hr Hs) as (A1 & A2 & A3).
      destruct (switched_dec "help" ss) as [Hh|Hh]; [rewrite (A1 Hh) in H; discriminate|].
      destruct ns as [|x ns]; [|split; [discriminate|exact Hh]].
      destruct (A3 Hh eq_refl) as (c' & o' & a' & l' & E & S). rewrite E in H. discriminate.
    - intro H. pose proof (run_back args) as B.
      assert (Hsh : run args <> SaShort).
      { unfold execute_server.
        pose proof (ArgsFacts.parse_not_short server_kinds set (length args) args [] new_server (le_n _) Hn) as P.
        destruct (read_args server_kinds set args [] new_server) as [g ns|g|]; [|discriminate|contradiction].
        destruct (sv_help g); [discriminate|]. destruct ns; discriminate. }
      destruct (run args) as [| |c o a l|] eqn:E; try reflexivity; try contradiction;
        destruct B as (ss & ns & Hr & Hs); destruct (H _ _ Hr Hs) as (Hne & Hh);
        destruct (run_reads _ _ _ Hr Hs) as (_ & A2 & _); rewrite (A2 Hh Hne) in E; discriminate.
  Qed.

  (** The exit status of a program that does not serve: 0 exactly when help is
      asked for, 1 exactly when the arguments are refused, nothing else ever. *)
  Theorem C78_exit : forall args n, (forall a, In a args -> ~ short a) ->
    (exit_status (run args) = Some n <->
     n = 0 /\ (exists ss names, reads args ss names /\ acceptable parse_int ss /\ switched "help" ss) \/
     n = 1 /\ (forall ss names, reads args ss names -> acceptable parse_int ss -> names <> [] /\ ~ switched "help" ss)).
  Proof.
    intros args n Hn. rewrite <- (C78_help args), <- (C78_refused args Hn). destruct (run args); cbn; split.
    all: try (intro H; injection H as <-; auto; fail).
    all: try (intro H; discriminate H).
    all: intros [[-> H]|[-> H]]; try discriminate H; reflexivity.
  Qed.
End Server.

(** The address: full statement.  A server listens on the address and the port
    that it was given. *)
Definition C78_listens : Prop := forall parse_int load_pair load_pool addr c o a l,
  execute_server parse_int load_pair load_pool ["--addr"; addr] = SaServe c o a l -> designates a addr "8080".

Lemma without_cons : forall cs c s, without cs (String c s) <-> ~ In c cs /\ without cs s.
Proof. reflexivity. Qed.

Lemma without_app : forall cs a b, without cs (a ++ b) <-> without cs a /\ without cs b.
Proof. intros cs a b. induction a as [|c a IH]; cbn; tauto. Qed.

(** An IPv6 address has colons; the text that net.Listen gets has no brackets and
    designates nothing at all, so the server cannot be started on it. *)
Theorem C78_listens_refuted : exists addr, forall parse_int load_pair load_pool,
  exists c o a l, execute_server parse_int load_pair load_pool ["--addr"; addr] = SaServe c o a l /\
    forall host port, ~ designates a host port.
Proof.
  exists "::1". intros pi lp lq. do 4 eexists. split; [reflexivity|].
  intros host port H.
  assert (E : exists a, a = "::1:8080" /\ designates a host port) by (eexists; split; [reflexivity|exact H]).
  destruct E as (a & Ea & D). clear H. destruct D as [host port H1 H2|host port H1 H2].
  - destruct host as [|c host]; cbn in Ea.
    + injection Ea as ->. destruct H2 as [H2 _]. apply H2. left. reflexivity.
    + injection Ea as -> Ea. destruct H1 as [H1 _]. apply H1. left. reflexivity.
  - discriminate Ea.
Qed.

Lemma digits_without : forall s z r, denotes_from z s r -> without [":"; "["; "]"]%char s.
Proof.
  induction s as [|c s IH]; intros z r H; cbn; [exact I|]. destruct H as (d & Hd & H).
  split; [|exact (IH _ _ H)]. intro K. each_in K; cbn in Hd;
    repeat (destruct Hd as [Hd|Hd]; [discriminate|]); destruct Hd.
Qed.

Lemma decimal_without : forall z s, decimal z s -> without [":"; "["; "]"]%char s.
Proof.
  intros z s [[_ H]|(t & -> & _ & H)].
  - exact (digits_without _ _ _ H).
  - apply digits_without in H. cbn. split; [|exact H]. intros K. cbn in K. repeat (destruct K as [K|K]; [discriminate|]). exact K.
Qed.

(** A server that is given a name, an IPv4 address, nothing, or an IPv6 address
    in brackets listens there, on its port.  Missing: IPv6 addresses without
    brackets, see above. *)
Theorem C78_listens_partial : forall parse_int load_pair load_pool args c o a l ss,
  execute_server parse_int load_pair load_pool args = SaServe c o a l -> reads args ss [] -> acceptable parse_int ss ->
  exists addr port text, option_is "addr" "" ss addr /\ port_is parse_int ss port /\ decimal port text /\
    (without [":"; "["; "]"]%char addr -> designates a addr text) /\
    (forall host, addr = "[" ++ host ++ "]" -> without ["["; "]"]%char host -> designates a host text).
Proof.
  intros pi lp lq args c o a l ss H Hr Hs.
  destruct (run_reads pi lp lq _ _ _ Hr Hs) as (A1 & _ & A3).
  destruct (switched_dec "help" ss) as [Hh|Hh]; [rewrite (A1 Hh) in H; discriminate|].
  destruct (A3 Hh eq_refl) as (c' & o' & a' & l' & E & S). rewrite E in H. injection H as -> -> -> ->.
  destruct (st_address _ _ _ _ _ _ _ _ S) as (addr & port & text & Ha & Hp & Hd & ->).
  exists addr, port, text. split; [exact Ha|]. split; [exact Hp|]. split; [exact Hd|].
  apply decimal_without in Hd. split.
  - intro Hw. apply ds_plain; assumption.
  - intros host -> Hw. replace (("[" ++ host ++ "]") ++ ":" ++ text) with ("[" ++ host ++ "]:" ++ text).
    + apply ds_brackets; assumption.
    + rewrite !app_assoc_s. reflexivity.
Qed.

(** Two texts of which the parts after their last colon are given. *)
Lemma last_colon : forall h1 h2 p1 p2, without [":"%char] p1 -> without [":"%char] p2 ->
  h1 ++ ":" ++ p1 = h2 ++ ":" ++ p2 -> h1 = h2 /\ p1 = p2.
Proof.
  induction h1 as [|a h1 IH]; intros [|b h2] p1 p2 W1 W2 E; cbn in E.
  - injection E as E. auto.
  - injection E as <- E. exfalso. subst p1. apply without_app in W1 as [_ W1]. apply (proj1 W1). left. reflexivity.
  - injection E as -> E. exfalso. subst p2. apply without_app in W2 as [_ W2]. apply (proj1 W2). left. reflexivity.
  - injection E as -> E. destruct (IH h2 p1 p2 W1 W2 E) as [-> ->]. auto.
Qed.

Lemma without_fewer : forall cs ds s, (forall c, In c ds -> In c cs) -> without cs s -> without ds s.
Proof. intros cs ds s H. induction s as [|c s IH]; cbn; [ auto | ]. intros [A B]. split; auto. Qed.

(** C78, exactly: what the text that net.Listen gets designates is the address as it
    was given, when that has no colons and no brackets, or what it has in brackets,
    and the port; any other address designates nothing. *)
Theorem C78_listens_exactly : forall parse_int load_pair load_pool args c o a l ss,
  execute_server parse_int load_pair load_pool args = SaServe c o a l -> reads args ss [] -> acceptable parse_int ss ->
  exists addr port text, option_is "addr" "" ss addr /\ port_is parse_int ss port /\ decimal port text /\
    forall host p, designates a host p <->
      p = text /\ (addr = host /\ without [":"; "["; "]"]%char host \/ addr = "[" ++ host ++ "]" /\ without ["["; "]"]%char host).
Proof.
  intros pi lp lq args c o a l ss H Hr Hs.
  destruct (run_reads pi lp lq _ _ _ Hr Hs) as (A1 & _ & A3).
  destruct (switched_dec "help" ss) as [Hh|Hh]; [rewrite (A1 Hh) in H; discriminate|].
  destruct (A3 Hh eq_refl) as (c' & o' & a' & l' & E & S). rewrite E in H. injection H as -> -> -> ->.
  destruct (st_address _ _ _ _ _ _ _ _ S) as (addr & port & text & Ha & Hp & Hd & ->).
  exists addr, port, text. split; [exact Ha|]. split; [exact Hp|]. split; [exact Hd|].
  apply decimal_without in Hd. clear - Hd.
  assert (Fw : forall s, without [":"; "["; "]"]%char s -> without [":"%char] s) by (intros s; apply without_fewer; intros x [<-|[]]; left; reflexivity).
  intros host p. split.
  - intro D. remember (addr ++ ":" ++ text) as t eqn:Et. destruct D as [host p H1 H2|host p H1 H2].
    + destruct (last_colon _ _ _ _ (Fw _ H2) (Fw _ Hd) Et) as [-> ->]. auto.
    + replace ("[" ++ host ++ "]:" ++ p) with (("[" ++ host ++ "]") ++ ":" ++ p) in Et by (rewrite !app_assoc_s; reflexivity).
      destruct (last_colon _ _ _ _ (Fw _ H2) (Fw _ Hd) Et) as [<- ->]. auto.
  - intros [-> [[-> Hw]|[-> Hw]]].
    + apply ds_plain; assumption.
    + replace (("[" ++ host ++ "]") ++ ":" ++ text) with ("[" ++ host ++ "]:" ++ text).
      * apply ds_brackets; assumption.
      * rewrite !app_assoc_s. reflexivity.
Qed.
Print Assumptions C78_listens_exactly.

(** The level for log messages changes nothing, as with the lookup command
    (finding 55). *)
Theorem C78_loglevel_ignored : forall parse_int load_pair load_pool v args ss,
  reads args ss [] -> acceptable parse_int ss ->
  execute_server parse_int load_pair load_pool ("--loglevel" :: v :: args) = execute_server parse_int load_pair load_pool args.
Proof.
  intros pi lp lq v args ss Hr Hs.
  assert (R : forall ss ns, reads args ss ns -> forall acc g, 
     match read_args server_kinds (set_server_flag pi) args acc g, 
           read_args server_kinds (set_server_flag pi) args acc (mk_server v (sv_config g) (sv_vars g) (sv_var g) (sv_addr g) (sv_tls g) (sv_port g) (sv_help g)) with
     | Parsed g1 n1, Parsed g2 n2 => n1 = n2 /\ sv_config g1 = sv_config g2 /\ sv_vars g1 = sv_vars g2 /\ sv_var g1 = sv_var g2 /\
         sv_addr g1 = sv_addr g2 /\ sv_tls g1 = sv_tls g2 /\ sv_port g1 = sv_port g2 /\ sv_help g1 = sv_help g2
     | Refused _, Refused _ => True
     | _, _ => False
     end).
  { intros ss' ns Hr' acc g.
    pose proof (ArgsFacts.reads_parse server_kinds (set_server_flag pi) valued switch server_kind_switch server_kind_valued server_known_text
                  _ _ _ Hr' acc) as P.
    pose proof (P g) as P1.
    pose proof (P (mk_server v (sv_config g) (sv_vars g) (sv_var g) (sv_addr g) (sv_tls g) (sv_port g) (sv_help g))) as P2. clear P.
    pose proof (ArgsFacts.reads_known server_kinds (set_server_flag pi) valued switch _ _ _ Hr') as Hk.
    destruct (apply_sets (set_server_flag pi) ss' g) as [g1|] eqn:E1;
    destruct (apply_sets (set_server_flag pi) ss' (mk_server v (sv_config g) (sv_vars g) (sv_var g) (sv_addr g) (sv_tls g) (sv_port g) (sv_help g))) as [g2|] eqn:E2.
    - rewrite P1, P2. pose proof (apply_left pi lp lq _ _ _ Hk E1) as [A1 A2 A3 A4 A5 A6 A7 A8 A9 A10].
      pose proof (apply_left pi lp lq _ _ _ Hk E2) as [B1 B2 B3 B4 B5 B6 B7 B8 B9 B10]. cbn in *.
      repeat (split; [congruence|]). split; [|split; congruence].
      destruct (sv_tls g1), (sv_tls g2). cbn in *. congruence.
    - exfalso. pose proof (ArgsFacts.apply_sane (set_server_flag pi) (sane pi) (set_sane pi) _ _ _ E1) as Hsn.
      destruct (ArgsFacts.apply_total (set_server_flag pi) valued switch (sane pi) (set_total pi) ss'
                 (mk_server v (sv_config g) (sv_vars g) (sv_var g) (sv_addr g) (sv_tls g) (sv_port g) (sv_help g)) Hk Hsn) as (g' & E').
      congruence.
    - exfalso. pose proof (ArgsFacts.apply_sane (set_server_flag pi) (sane pi) (set_sane pi) _ _ _ E2) as Hsn.
      destruct (ArgsFacts.apply_total (set_server_flag pi) valued switch (sane pi) (set_total pi) ss' g Hk Hsn) as (g' & E').
      congruence.
    - destruct P1 as (q1 & ->), P2 as (q2 & ->). exact I. }
  specialize (R ss [] Hr [] new_server). unfold execute_server.
  change (read_args server_kinds (set_server_flag pi) ("--loglevel" :: v :: args) [] new_server)
    with (read_args server_kinds (set_server_flag pi) args []
            (mk_server v (sv_config new_server) (sv_vars new_server) (sv_var new_server) (sv_addr new_server) (sv_tls new_server) (sv_port new_server) (sv_help new_server))).
  destruct (read_args server_kinds (set_server_flag pi) args [] new_server) as [g1 n1|g1|];
  destruct (read_args server_kinds (set_server_flag pi) args [] _) as [g2 n2|g2|]; try contradiction; [|reflexivity].
  destruct R as (-> & -> & -> & -> & -> & -> & -> & ->). reflexivity.
Qed.

(** A server with a variable, a port and TLS; the last port counts. *)
Definition ex_port (v : string) : option Z :=
  if String.eqb v "9000" then Some 9000%Z else if String.eqb v "0x1F90" then Some 8080%Z else None.
Definition server_args : list string :=
  ["--var"; "a:1"; "--port=0x1F90"; "--ssl-cert"; "c.pem"; "--ssl-key"; "k.pem"; "--clientCertVerify"; "--var=b=2";
   "--ca"; "ca.pem"; "--port"; "9000"; "--addr"; "[::1]"].
Definition server_sets : list (string * string) :=
  [("var", "a:1"); ("port", "0x1F90"); ("ssl-cert", "c.pem"); ("ssl-key", "k.pem"); ("clientCertVerify", "true");
   ("var", "b=2"); ("ca", "ca.pem"); ("port", "9000"); ("addr", "[::1]")].
Example C78_reads_ex : reads server_args server_sets [] /\ acceptable ex_port server_sets /\ ~ switched "help" server_sets.
Proof.
  split; [|split; [split|]].
  - unfold server_args, server_sets.
    apply (rd_value "var"); [cbn; tauto|].
    apply (rd_equals "port" "0x1F90"); [left; cbn; tauto|].
    apply (rd_value "ssl-cert"); [cbn; tauto|].
    apply (rd_value "ssl-key"); [cbn; tauto|].
    apply (rd_switch "clientCertVerify"); [cbn; tauto|].
    apply (rd_equals "var" "b=2"); [left; cbn; tauto|].
    apply (rd_value "ca"); [cbn; tauto|].
    apply (rd_value "port"); [cbn; tauto|].
    apply (rd_value "addr"); [cbn; tauto|].
    constructor.
  - intros n v Hi Hn. unfold server_sets in Hi. cbn in Hi. unfold switch in Hn. cbn in Hn.
    repeat (destruct Hi as [Hi|Hi]; [injection Hi as <- <-; try (exfalso; repeat (destruct Hn as [Hn|Hn]; [discriminate|]); exact Hn); left; cbn; tauto|]).
    destruct Hi.
  - intros v Hi. unfold server_sets in Hi. cbn in Hi.
    repeat (destruct Hi as [Hi|Hi]; [try discriminate Hi; injection Hi as <-; discriminate|]). destruct Hi.
  - intros (v & (b & a & E & _) & _).
    assert (K : In "help" (map fst server_sets)) by (rewrite E, map_app; apply in_or_app; right; left; reflexivity).
    cbn in K. repeat (destruct K as [K|K]; [discriminate|]). destruct K.
Qed.
Example C78_started_ex :
  execute_server ex_port (fun _ _ => true) (fun _ => true) server_args =
  SaServe "/hiera/hiera.yaml" (mk_command "" "" None [] [] ["a:1"; "b=2"] "" false false false) "[::1]:9000"
    (Ok (Tls (mk_tls true (Some "ca.pem")))) /\
  execute_server ex_port (fun _ _ => true) (fun _ => true) [] =
  SaServe "/hiera/hiera.yaml" (mk_command "" "" None [] [] [] "" false false false) ":8080" (Ok Plain).
Proof. split; reflexivity. Qed.
Example C78_listens_ex : designates "[::1]:9000" "::1" "9000" /\ designates "localhost:8080" "localhost" "8080".
Proof.
  split; [apply (ds_brackets "::1" "9000")|apply (ds_plain "localhost" "8080")];
    cbn; repeat split; intros K; cbn in K; repeat (destruct K as [K|K]; [discriminate|]); exact K.
Qed.
(** An address in brackets on the last port that was given: nothing else is
    designated. *)
Example C78_listens_exactly_ex : forall host p, designates "[::1]:9000" host p <-> host = "::1" /\ p = "9000".
Proof.
  intros host p. split.
  - intro D. remember "[::1]:9000" as t eqn:Et. destruct D as [host p H1 H2|host p H1 H2].
    + exfalso. destruct host as [|c host]; [ discriminate Et | ]. injection Et as -> _. apply (proj1 H1). right. left. reflexivity.
    + replace ("[" ++ host ++ "]:" ++ p) with (("[" ++ host ++ "]") ++ ":" ++ p) in Et by (rewrite !app_assoc_s; reflexivity).
      destruct (last_colon ("[" ++ host ++ "]") "[::1]" p "9000") as [A ->]; [ | | exact Et | ].
      * eapply without_fewer; [ | exact H2 ]. intros x [<-|[]]. left. reflexivity.
      * cbn; repeat split; intros K; cbn in K; repeat (destruct K as [K|K]; [discriminate|]); exact K.
      * split; [ | reflexivity ]. cbn in A. injection A as A.
        apply (f_equal String.length) in A as L. 
        destruct host as [|c1 [|c2 [|c3 [|c4 h]]]]; try discriminate A. injection A as -> -> ->. reflexivity.
        injection A as _ _ _ _ A. destruct h; discriminate A.
  - intros [-> ->]. exact (proj1 C78_listens_ex).
Qed.
Example C78_help_ex : execute_server ex_port (fun _ _ => true) (fun _ => true) ["x"; "--help"] = SaHelp.
Proof. reflexivity. Qed.
Example C78_refused_ex :
  (forall a, In a ["--port"; "many"] -> ~ short a) /\
  execute_server ex_port (fun _ _ => true) (fun _ => true) ["--port"; "many"] = SaRefuse /\
  execute_server ex_port (fun _ _ => true) (fun _ => true) ["x"] = SaRefuse /\
  execute_server ex_port (fun _ _ => true) (fun _ => true) ["--merge"; "deep"] = SaRefuse /\
  exit_status SaRefuse = Some 1.
Proof.
  split; [|repeat split].
  intros a [<-|[<-|[]]] (c & t & Hc & E); cbn in E; [|discriminate]. injection E as <- _. apply Hc. reflexivity.
Qed.
Example C78_exit_ex :
  map (fun args => exit_status (execute_server ex_port (fun _ _ => true) (fun _ => true) args))
    [["--help"]; ["--port"; "many"]; ["x"]; ["--port"; "9000"]] = [Some 0; Some 1; Some 1; None].
Proof. reflexivity. Qed.
Example C78_loglevel_ex :
  reads ["--port"; "9000"] [("port", "9000")] [] /\ acceptable ex_port [("port", "9000")] /\
  execute_server ex_port (fun _ _ => true) (fun _ => true) ["--loglevel"; "debug"; "--port"; "9000"] =
  SaServe "/hiera/hiera.yaml" (mk_command "" "" None [] [] [] "" false false false) ":9000" (Ok Plain).
Proof.
  split; [apply (rd_value "port"); [cbn; tauto|constructor]|]. split; [split|reflexivity].
  - intros n v Hi Hn. destruct Hi as [Hi|[]]. injection Hi as <- <-. exfalso. unfold switch in Hn. cbn in Hn.
    repeat (destruct Hn as [Hn|Hn]; [discriminate|]). exact Hn.
  - intros v Hi. destruct Hi as [Hi|[]]. injection Hi as <-. discriminate.
Qed.

Print Assumptions C78_started.
Print Assumptions C78_help.
Print Assumptions C78_refused.
Print Assumptions C78_exit.
Print Assumptions C78_listens_refuted.
Print Assumptions C78_listens_partial.
Print Assumptions C78_loglevel_ignored.
