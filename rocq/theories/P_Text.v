(** The text of an explanation: C67. *)

From Coq Require Import String Ascii List ZArith Bool Arith Lia.
From Verif Require Import Str Value Outcome Key Merge Config Ipl Explain Text.
From Verif Require Import State Engine Worlds Session P_ExplainData P_Truth.
Import ListNotations.
Open Scope string_scope.
Open Scope list_scope.
Open Scope nat_scope.

(** ** What the text should be *)

(** Two blanks for every level. *)
Fixpoint indent (lvl : nat) : string := match lvl with 0 => "" | S l => ("  " ++ indent l)%string end.

(** What the strategies are called, and the options that one has. *)
Definition called (s : strategy) : string :=
  match s with
  | SFirst => "first found strategy"
  | SUnique => "unique merge strategy"
  | SHash => "hash merge strategy"
  | SDeep _ => "deep merge strategy"
  end.
Definition options_of (s : strategy) : entries := match s with SDeep o => o | SFirst | SUnique | SHash => [] end.

(** A segment of a key as text. *)
Definition segment_text (p : part) : string := match p with PStr s => s | PInt z => show_int z end.

(** There is a line with this text, indented by so many levels, at this place of
    the whole: after a line break, or at the very beginning.  The line ends with
    the text or with a line break.  The texts of values may contain line
    breaks. *)
Definition line_at (whole : string) (place : nat) (lvl : nat) (line : string) : Prop :=
  exists pre post,
    String.length pre = place /\
    (whole = (pre ++ str1 c_nl ++ indent lvl ++ line ++ post)%string \/
     pre = "" /\ lvl = 0 /\ line <> "" /\ whole = (line ++ post)%string) /\
    (post = "" \/ exists p, post = String c_nl p).

Section Text.
  Variable show : nat -> option value -> string.

  (** What came out of asking. *)
  Inductive outcome_line (e k : string) (v : option value) (lvl : nat) : string -> Prop :=
  | ol_not_found : e = "not_found" -> outcome_line e k v lvl ("No such key: """ ++ k ++ """")
  | ol_found : e = "found" -> outcome_line e k v lvl ("Found key: """ ++ k ++ """ value: " ++ show lvl v)
  | ol_defaults : e = "found_in_defaults" -> outcome_line e k v lvl ("Found key: """ ++ k ++ """ value: " ++ show lvl v ++ " in defaults")
  | ol_overrides : e = "found_in_overrides" -> outcome_line e k v lvl ("Found key: """ ++ k ++ """ value: " ++ show lvl v ++ " in overrides").

  (** The lines of a node at a level: what it is, and what came out. *)
  Inductive says : node -> nat -> nat -> string -> Prop :=
  | say_provider : forall name bs ts e v k lvl,
      says (Node (NProvider name) bs ts e v k) lvl lvl name
  | say_provider_outcome : forall name bs ts e v k lvl s, outcome_line e k v (S lvl) s ->
      says (Node (NProvider name) bs ts e v k) lvl (S lvl) s
  | say_provider_text : forall name bs ts e v k lvl t, In t ts ->
      says (Node (NProvider name) bs ts e v k) lvl (S lvl) t
  | say_interpolation : forall expr bs ts e v k lvl,
      says (Node (NInterpolate expr) bs ts e v k) lvl lvl ("Interpolation on """ ++ expr ++ """")
  | say_invalid : forall bs ts e v k lvl,
      says (Node NInvalid bs ts e v k) lvl lvl ("Invalid key """ ++ k ++ """")
  | say_segment : forall p bs ts e v k lvl s, outcome_line e k v lvl s ->
      says (Node (NSegment p) bs ts e v k) lvl lvl s
  | say_segment_text : forall p bs ts e v k lvl t, In t ts ->
      says (Node (NSegment p) bs ts e v k) lvl lvl t
  | say_path : forall o r x bs ts e v k lvl,
      says (Node (NLocation (LPath o r x)) bs ts e v k) lvl lvl ("Path """ ++ r ++ """")
  | say_path_original : forall o r x bs ts e v k lvl,
      says (Node (NLocation (LPath o r x)) bs ts e v k) lvl (S lvl) ("Original path: """ ++ o ++ """")
  | say_path_absent : forall o r x bs ts e v k lvl, e = "location_not_found" ->
      says (Node (NLocation (LPath o r x)) bs ts e v k) lvl (S lvl) "path not found"
  | say_uri : forall o r bs ts e v k lvl,
      says (Node (NLocation (LUri o r)) bs ts e v k) lvl lvl ("URI """ ++ r ++ """")
  | say_uri_original : forall o r bs ts e v k lvl,
      says (Node (NLocation (LUri o r)) bs ts e v k) lvl (S lvl) ("Original uri: """ ++ o ++ """")
  | say_uri_absent : forall o r bs ts e v k lvl, e = "location_not_found" ->
      says (Node (NLocation (LUri o r)) bs ts e v k) lvl (S lvl) "uri not found"
  | say_location_outcome : forall l bs ts e v k lvl s, outcome_line e k v (S lvl) s ->
      says (Node (NLocation l) bs ts e v k) lvl (S lvl) s
  | say_location_text : forall l bs ts e v k lvl t, In t ts ->
      says (Node (NLocation l) bs ts e v k) lvl (S lvl) t
  | say_lookup : forall bs ts e v k lvl,
      says (Node NLookup bs ts e v k) lvl lvl ("Searching for """ ++ k ++ """")
  | say_merge : forall s b c bs ts e v k lvl,
      says (Node (NMerge s) (b :: c :: bs) ts e v k) lvl lvl ("Merge strategy """ ++ called s ++ """")
  | say_merge_options : forall s b c bs ts e v k lvl, options_of s <> [] ->
      says (Node (NMerge s) (b :: c :: bs) ts e v k) lvl (S lvl) ("Options: " ++ show (S lvl) (Some (VMap (options_of s))))
  | say_merge_result : forall s b c bs ts e v k lvl, e = "result" ->
      says (Node (NMerge s) (b :: c :: bs) ts e v k) lvl (S lvl) ("Merged result: " ++ show (S lvl) v)
  | say_source : forall s bs ts e v k lvl,
      says (Node (NMergeSource s) bs ts e v k) lvl lvl ("Using merge options from " ++ s)
  | say_no_module : forall m bs ts e v k lvl, e = "module_not_found" ->
      says (Node (NModule m) bs ts e v k) lvl lvl ("Module """ ++ m ++ """ not found")
  | say_module_outcome : forall m bs ts e v k lvl s, e <> "module_not_found" -> outcome_line e k v lvl s ->
      says (Node (NModule m) bs ts e v k) lvl lvl s
  | say_module_text : forall m bs ts e v k lvl t, e <> "module_not_found" -> In t ts ->
      says (Node (NModule m) bs ts e v k) lvl lvl t
  | say_sub : forall q bs ts e v k lvl,
      says (Node (NSubLookup q) bs ts e v k) lvl lvl ("Sub key: """ ++ String.concat "." (map segment_text (tl (k_parts q))) ++ """")
  | say_sub_outcome : forall q bs ts e v k lvl s, outcome_line e k v (S lvl) s ->
      says (Node (NSubLookup q) bs ts e v k) lvl (S lvl) s
  | say_sub_text : forall q bs ts e v k lvl t, In t ts ->
      says (Node (NSubLookup q) bs ts e v k) lvl (S lvl) t.
End Text.

(** The level of the branches of a node: one more than its own.  A node that has
    no line of its own, a merge of one thing or a module that was found, has its
    branches in its place.  Invalid keys, segments of keys, sources of merge
    options and modules that do not exist are leaves. *)
Inductive branch_level : node -> nat -> nat -> Prop :=
| bl_provider : forall name bs ts e v k lvl, branch_level (Node (NProvider name) bs ts e v k) lvl (S lvl)
| bl_interpolation : forall expr bs ts e v k lvl, branch_level (Node (NInterpolate expr) bs ts e v k) lvl (S lvl)
| bl_location : forall l bs ts e v k lvl, branch_level (Node (NLocation l) bs ts e v k) lvl (S lvl)
| bl_lookup : forall bs ts e v k lvl, branch_level (Node NLookup bs ts e v k) lvl (S lvl)
| bl_merge_one : forall s b ts e v k lvl, branch_level (Node (NMerge s) [b] ts e v k) lvl lvl
| bl_merge : forall s b c bs ts e v k lvl, branch_level (Node (NMerge s) (b :: c :: bs) ts e v k) lvl (S lvl)
| bl_module : forall m bs ts e v k lvl, e <> "module_not_found" -> branch_level (Node (NModule m) bs ts e v k) lvl lvl
| bl_sub : forall q bs ts e v k lvl, branch_level (Node (NSubLookup q) bs ts e v k) lvl (S lvl).

Definition branches_of (n : node) : list node := match n with Node _ bs _ _ _ _ => bs end.

(** A node below another, with the levels of both. *)
Inductive below : node -> nat -> node -> nat -> Prop :=
| below_self : forall n lvl, below n lvl n lvl
| below_branch : forall n lvl lvl' c d l, branch_level n lvl lvl' -> In c (branches_of n) -> below c lvl' d l -> below n lvl d l.

(** A node of an explanation, with its level. *)
Definition shown (x : explainer) (d : node) (l : nat) : Prop :=
  exists c, In c (fr_bs (x_root x)) /\ below c 0 d l.

(** ** Proofs *)

Lemma blanks_indent : forall lvl, blanks lvl = indent lvl.
Proof. induction lvl as [|l IH]; [ reflexivity | ]. cbn [blanks indent]. rewrite IH. reflexivity. Qed.
Lemma label_called : forall s, strat_label s = called s.
Proof. intros [| | |o]; reflexivity. Qed.
Lemma options_same : forall s, strat_options s = options_of s.
Proof. intros [| | |o]; reflexivity. Qed.
Lemma part_segment : forall ps, map part_string ps = map segment_text ps.
Proof. intro ps. apply map_ext. intros [z|t]; reflexivity. Qed.

Lemma app_assoc_s : forall a b c : string, ((a ++ b) ++ c)%string = (a ++ (b ++ c))%string.
Proof. intros a b c. induction a as [|x a IH]; [ reflexivity | ]. cbn. rewrite IH. reflexivity. Qed.
Lemma app_nil_s : forall a : string, (a ++ "")%string = a.
Proof. induction a as [|x a IH]; [ reflexivity | ]. cbn. rewrite IH. reflexivity. Qed.
Lemma app_length_s : forall a b : string, String.length (a ++ b)%string = String.length a + String.length b.
Proof. induction a as [|x a IH]; intros b; [ reflexivity | ]. cbn. rewrite IH. reflexivity. Qed.

(** A list of lines as text. *)
Fixpoint all_lines (ls : list (nat * string)) : string :=
  match ls with [] => "" | (l, s) :: r => (str1 c_nl ++ indent l ++ s ++ all_lines r)%string end.

Lemma all_lines_app : forall a b, all_lines (a ++ b) = (all_lines a ++ all_lines b)%string.
Proof. induction a as [|(l, s) a IH]; intros b; [ reflexivity | ]. cbn [List.app all_lines]. rewrite IH, !app_assoc_s. reflexivity. Qed.

Lemma all_lines_begin : forall ls, all_lines ls = "" \/ exists p, all_lines ls = String c_nl p.
Proof. intros [|(l, s) r]; [ auto | right; eexists; reflexivity ]. Qed.

(** Lines are added to what has been written. *)
Definition adds (b b' : string) (ls : list (nat * string)) : Prop :=
  b' = (b ++ all_lines ls)%string \/
  b = "" /\ exists s r, ls = (0, s) :: r /\ s <> "" /\ b' = (s ++ all_lines r)%string.

Lemma adds_none : forall b, adds b b [].
Proof. intros b. left. cbn. rewrite app_nil_s. reflexivity. Qed.

Lemma adds_line : forall b l s, adds b (new_line l b ++ s)%string [(l, s)].
Proof. intros b l s. left. unfold new_line. rewrite blanks_indent. cbn [all_lines]. rewrite !app_assoc_s, app_nil_s. reflexivity. Qed.

Lemma adds_trans : forall a b c l m, adds a b l -> adds b c m -> adds a c (l ++ m).
Proof.
  intros a b c l m [->|(-> & s & r & -> & N & ->)] [->|(E & s' & r' & -> & N' & ->)].
  - left. rewrite all_lines_app, app_assoc_s. reflexivity.
  - destruct a; [ | discriminate E ]. destruct l as [|(l0, s0) l]; [ | discriminate E ].
    right. split; [ reflexivity | ]. exists s', r'. auto.
  - right. split; [ reflexivity | ]. exists s, (r ++ m). rewrite all_lines_app, app_assoc_s. auto.
  - destruct s; [ congruence | discriminate E ].
Qed.

Definition before {A} (ls : list A) (x y : A) : Prop := exists a m z, ls = a ++ x :: m ++ y :: z.

Lemma before_in : forall {A} (l m : list A) x y, In x l -> In y m -> before (l ++ m) x y.
Proof.
  intros A l m x y H K. apply in_split in H. destruct H as (a & b & ->). apply in_split in K. destruct K as (c & d & ->).
  exists a, (b ++ c), d. rewrite <- !app_assoc. reflexivity.
Qed.
Lemma before_l : forall {A} (l m : list A) x y, before l x y -> before (l ++ m) x y.
Proof. intros A l m x y (a & b & c & ->). exists a, b, (c ++ m). rewrite <- app_assoc. cbn. rewrite <- app_assoc. reflexivity. Qed.
Lemma before_r : forall {A} (l m : list A) x y, before m x y -> before (l ++ m) x y.
Proof. intros A l m x y (a & b & c & ->). exists (l ++ a), b, c. rewrite <- app_assoc. reflexivity. Qed.

(** Lines of a list are at places in the text, in their order. *)
Lemma place_of : forall pre l s z, line_at (pre ++ all_lines ((l, s) :: z))%string (String.length pre) l s.
Proof.
  intros pre l s z. exists pre, (all_lines z). split; [ reflexivity | ]. split; [ left; reflexivity | apply all_lines_begin ].
Qed.
Lemma place_first : forall s z, s <> "" -> line_at (s ++ all_lines z)%string 0 0 s.
Proof.
  intros s z N. exists "", (all_lines z). split; [ reflexivity | ]. split; [ right; auto | apply all_lines_begin ].
Qed.

Lemma placed_before : forall text ls l s l' s', adds "" text ls -> before ls (l, s) (l', s') ->
  exists p q, p < q /\ line_at text p l s /\ line_at text q l' s'.
Proof.
  intros text ls l s l' s' A (a & m & z & ->). destruct A as [->|(_ & s0 & r & E & N & ->)].
  - exists (String.length (all_lines a)), (String.length (all_lines (a ++ (l, s) :: m))). split; [ | split ].
    + rewrite all_lines_app, app_length_s. cbn. lia.
    + cbn [String.append]. rewrite all_lines_app. apply place_of.
    + cbn [String.append]. change (a ++ (l, s) :: m ++ (l', s') :: z) with (a ++ ((l, s) :: m) ++ (l', s') :: z).
      rewrite app_assoc, all_lines_app. apply place_of.
  - destruct a as [|(l0, s1) a]; cbn [List.app] in E.
    + injection E as -> -> <-. exists 0, (String.length (s0 ++ all_lines m)%string). split; [ | split ].
      * rewrite app_length_s. destruct s0; [ congruence | cbn; lia ].
      * apply place_first, N.
      * rewrite all_lines_app, <- app_assoc_s. apply place_of.
    + injection E as -> -> <-. exists (String.length (s0 ++ all_lines a)%string), (String.length (s0 ++ all_lines (a ++ (l, s) :: m))%string).
      split; [ | split ].
      * rewrite all_lines_app, !app_length_s. cbn. lia.
      * rewrite all_lines_app, <- app_assoc_s. apply place_of.
      * change (a ++ (l, s) :: m ++ (l', s') :: z) with (a ++ ((l, s) :: m) ++ (l', s') :: z).
        rewrite app_assoc, all_lines_app, <- app_assoc_s. apply place_of.
Qed.

Lemma placed : forall text ls l s, adds "" text ls -> In (l, s) ls -> exists p, line_at text p l s.
Proof.
  intros text ls l s A H. apply in_split in H. destruct H as (a & z & ->). destruct A as [->|(_ & s0 & r & E & N & ->)].
  - eexists. cbn [String.append]. rewrite all_lines_app. apply place_of.
  - destruct a as [|(l0, s1) a]; cbn [List.app] in E; injection E as -> -> <-; eexists.
    + apply place_first, N.
    + rewrite all_lines_app, <- app_assoc_s. apply place_of.
Qed.

Lemma adds_texts : forall ts l b, adds b (dump_texts ts l b) (map (pair l) ts).
Proof.
  induction ts as [|t ts IH]; intros l b; [ apply adds_none | ]. cbn [dump_texts map].
  apply (adds_trans _ _ _ [(l, t)] _ (adds_line b l t)), IH.
Qed.

Section Proofs.
  Variable show : nat -> option value -> string.

  Lemma adds_outcome : forall e k v ts l b, exists o,
    adds b (dump_outcome show e k v ts l b) (o ++ map (pair l) ts) /\
    (forall m s, In (m, s) o <-> m = l /\ outcome_line show e k v l s).
  Proof.
    intros e k v ts l b. unfold dump_outcome.
    destruct (String.eqb_spec e "not_found") as [E|E1].
    { eexists. split; [ eapply adds_trans; [ apply adds_line | apply adds_texts ] | ]. intros m s. split.
      - intros [H|[]]. injection H as <- <-. split; [ reflexivity | apply ol_not_found, E ].
      - intros (-> & H). destruct H; subst e; try discriminate. left. reflexivity. }
    destruct (String.eqb_spec e "found") as [E|E2].
    { eexists. split; [ eapply adds_trans; [ apply adds_line | apply adds_texts ] | ]. intros m s. split.
      - intros [H|[]]. injection H as <- <-. split; [ reflexivity | apply ol_found, E ].
      - intros (-> & H). destruct H; subst e; try discriminate. left. reflexivity. }
    destruct (String.eqb_spec e "found_in_defaults") as [E|E3].
    { eexists. split; [ eapply adds_trans; [ apply adds_line | apply adds_texts ] | ]. intros m s. split.
      - intros [H|[]]. injection H as <- <-. split; [ reflexivity | apply ol_defaults, E ].
      - intros (-> & H). destruct H; subst e; try discriminate. left. reflexivity. }
    destruct (String.eqb_spec e "found_in_overrides") as [E|E4].
    { eexists. split; [ eapply adds_trans; [ apply adds_line | apply adds_texts ] | ]. intros m s. split.
      - intros [H|[]]. injection H as <- <-. split; [ reflexivity | apply ol_overrides, E ].
      - intros (-> & H). destruct H; subst e; try discriminate. left. reflexivity. }
    exists []. split; [ apply adds_texts | ]. intros m s. split; [ intros [] | ]. intros (_ & H). destruct H; congruence.
  Qed.

  (** The branches in the definition of [append_to]. *)
  Lemma append_to_eq : forall k bs ts e v key lvl b,
    append_to show (Node k bs ts e v key) lvl b =
    match k with
    | NProvider name => omap (dump_outcome show e key v ts (S lvl)) (dump_branches show bs (S lvl) (new_line lvl b ++ name))
    | NInterpolate expr => dump_branches show bs (S lvl) (new_line lvl b ++ "Interpolation on """ ++ expr ++ """")
    | NInvalid => Ok (new_line lvl b ++ "Invalid key """ ++ key ++ """")
    | NSegment _ => Ok (dump_outcome show e key v ts lvl b)
    | NLocation l =>
        obind (loc_resolved l) (fun r =>
        omap (fun b3 => dump_outcome show e key v ts (S lvl)
                          (if String.eqb e "location_not_found" then new_line (S lvl) b3 ++ loc_kind l ++ " not found" else b3))
             (dump_branches show bs (S lvl)
                (new_line (S lvl) (new_line lvl b ++ (if String.eqb (loc_kind l) "path" then "Path """ else "URI """) ++ r ++ """")
                 ++ "Original " ++ loc_kind l ++ ": """ ++ loc_original l ++ """")))
    | NLookup =>
        dump_branches show bs (S lvl) ((if String.eqb b "" && Nat.eqb lvl 0 then b else new_line lvl b) ++ "Searching for """ ++ key ++ """")
    | NMerge s =>
        match bs with
        | [] => Ok b
        | [c] => append_to show c lvl b
        | _ =>
            omap (fun b3 => if String.eqb e "result" then new_line (S lvl) b3 ++ "Merged result: " ++ show (S lvl) v else b3)
                 (dump_branches show bs (S lvl)
                    (match strat_options s with
                     | [] => new_line lvl b ++ "Merge strategy """ ++ strat_label s ++ """"
                     | o => new_line (S lvl) (new_line lvl b ++ "Merge strategy """ ++ strat_label s ++ """")
                            ++ "Options: " ++ show (S lvl) (Some (VMap o))
                     end))
        end
    | NMergeSource s => Ok (new_line lvl b ++ "Using merge options from " ++ s)
    | NModule name =>
        if String.eqb e "module_not_found" then Ok (new_line lvl b ++ "Module """ ++ name ++ """ not found")
        else omap (dump_outcome show e key v ts lvl) (dump_branches show bs lvl b)
    | NSubLookup q =>
        omap (dump_outcome show e key v ts (S lvl))
             (dump_branches show bs (S lvl)
                (new_line lvl b ++ "Sub key: """ ++ join "." (map part_string (tl (k_parts q))) ++ """"))
    end%string.
  Proof. intros k bs ts e v key lvl b. destruct k; reflexivity. Qed.

  (** The lines written for a node: all that is said at or below it and nothing
      else, in order. *)
  Definition ordered (n : node) (lvl : nat) (ls : list (nat * string)) : Prop :=
    (forall p l m bs1 c1 bs2 c2 bs3, below n lvl p l -> branch_level p l m ->
       branches_of p = bs1 ++ c1 :: bs2 ++ c2 :: bs3 ->
       forall d1 k1 d2 k2 x1 s1 x2 s2, below c1 m d1 k1 -> says show d1 k1 x1 s1 ->
         below c2 m d2 k2 -> says show d2 k2 x2 s2 -> before ls (x1, s1) (x2, s2)) /\
    (forall p l m c d k s x s', below n lvl p l -> branch_level p l m -> says show p l l s -> l < m ->
       In c (branches_of p) -> below c m d k -> says show d k x s' -> before ls (l, s) (x, s')).

  Definition exact (n : node) (lvl : nat) (ls : list (nat * string)) : Prop :=
    forall l s, In (l, s) ls <-> exists d k, below n lvl d k /\ says show d k l s.

  Definition good (n : node) : Prop := forall lvl b b', append_to show n lvl b = Ok b' ->
    exists ls, adds b b' ls /\ exact n lvl ls /\ ordered n lvl ls.

  (** Lines of branches, in their order. *)
  Inductive lines_of (lvl : nat) : list node -> list (nat * string) -> Prop :=
  | lo_none : lines_of lvl [] []
  | lo_cons : forall c bs ls m, exact c lvl ls -> ordered c lvl ls -> lines_of lvl bs m -> lines_of lvl (c :: bs) (ls ++ m).

  Lemma branches_good : forall bs, Forall good bs -> forall lvl b b', dump_branches show bs lvl b = Ok b' ->
    exists ls, adds b b' ls /\ lines_of lvl bs ls.
  Proof.
    induction 1 as [|c bs H F IH]; intros lvl b b' E; cbn [dump_branches] in E.
    - injection E as <-. exists []. split; [ apply adds_none | constructor ].
    - destruct (append_to show c lvl b) as [b1| | |] eqn:E1; try discriminate. cbn [obind] in E.
      destruct (H _ _ _ E1) as (l1 & A1 & X1 & O1). destruct (IH _ _ _ E) as (l2 & A2 & L2).
      exists (l1 ++ l2). split; [ eapply adds_trans; eauto | constructor; auto ].
  Qed.

  Lemma lines_exact : forall lvl bs ls, lines_of lvl bs ls ->
    forall l s, In (l, s) ls <-> exists c d k, In c bs /\ below c lvl d k /\ says show d k l s.
  Proof.
    induction 1 as [|c bs ls m X O L IH]; intros l s.
    - split; [ intros [] | intros (c & d & k & [] & _) ].
    - rewrite in_app_iff, (X l s), (IH l s). split.
      + intros [(d & k & B & S)|(c' & d & k & I & B & S)].
        * exists c, d, k. split; [ left; reflexivity | auto ].
        * exists c', d, k. split; [ right; exact I | auto ].
      + intros (c' & d & k & [<-|I] & B & S); [ left | right ]; eauto 6.
  Qed.

  Lemma lines_siblings : forall lvl bs ls, lines_of lvl bs ls -> forall bs1 c1 bs2 c2 bs3, bs = bs1 ++ c1 :: bs2 ++ c2 :: bs3 ->
    forall d1 k1 d2 k2 x1 s1 x2 s2, below c1 lvl d1 k1 -> says show d1 k1 x1 s1 ->
      below c2 lvl d2 k2 -> says show d2 k2 x2 s2 -> before ls (x1, s1) (x2, s2).
  Proof.
    induction 1 as [|c bs ls m X O L IH]; intros bs1 c1 bs2 c2 bs3 E d1 k1 d2 k2 x1 s1 x2 s2 B1 S1 B2 S2.
    - destruct bs1; discriminate.
    - destruct bs1 as [|c0 bs1]; cbn in E; injection E as -> ->.
      + apply before_in; [ apply X; eauto | ]. apply (lines_exact _ _ _ L). exists c2, d2, k2.
        split; [ apply in_or_app; right; left; reflexivity | auto ].
      + apply before_r. eapply IH; eauto.
  Qed.

  Lemma lines_within : forall lvl bs ls, lines_of lvl bs ls -> forall c, In c bs -> exists a l z, ls = a ++ l ++ z /\ ordered c lvl l.
  Proof.
    induction 1 as [|c bs ls m X O L IH]; intros c' H; [ destruct H | ]. destruct H as [<-|H].
    - exists [], ls, m. auto.
    - destruct (IH _ H) as (a & l & z & -> & O'). exists (ls ++ a), l, z. rewrite <- app_assoc. auto.
  Qed.

  Lemma branch_level_unique : forall n l a b, branch_level n l a -> branch_level n l b -> a = b.
  Proof. intros n l a b H K. destruct H; inversion K; subst; auto. Qed.

  Lemma assemble : forall n lvl m h t ls,
    (forall l s, says show n lvl l s <-> In (l, s) (h ++ t)) ->
    (forall s, says show n lvl lvl s -> lvl < m -> In (lvl, s) h) ->
    branch_level n lvl m -> lines_of m (branches_of n) ls ->
    exact n lvl (h ++ ls ++ t) /\ ordered n lvl (h ++ ls ++ t).
  Proof.
    intros n lvl m h t ls HS HH BL L. split; [ | split ].
    - intros l s. rewrite !in_app_iff, (lines_exact _ _ _ L l s). specialize (HS l s). rewrite in_app_iff in HS. split.
      + intros [H|[(c & d & k & I & B & Y)|H]].
        * exists n, lvl. split; [ constructor | apply HS; auto ].
        * exists d, k. split; [ econstructor; eauto | exact Y ].
        * exists n, lvl. split; [ constructor | apply HS; auto ].
      + intros (d & k & B & Y). inversion B as [|? ? m' c ? ? BL' I B']; subst.
        * apply HS in Y. tauto.
        * rewrite (branch_level_unique _ _ _ _ BL' BL) in *. right. left. eauto 8.
    - intros p l m' bs1 c1 bs2 c2 bs3 B BL' E d1 k1 d2 k2 x1 s1 x2 s2 B1 S1 B2 S2.
      apply before_r, before_l. inversion B as [|? ? m'' c ? ? BL'' I B']; subst.
      + rewrite (branch_level_unique _ _ _ _ BL' BL) in *. eapply lines_siblings; eauto.
      + rewrite (branch_level_unique _ _ _ _ BL'' BL) in *.
        destruct (lines_within _ _ _ L _ I) as (a & u & z & -> & O & _). apply before_r, before_l. eapply O; eauto.
    - intros p l m' c d k s x s' B BL' Y LT I B1 Y1. inversion B as [|? ? m'' c' ? ? BL'' I' B']; subst.
      + rewrite (branch_level_unique _ _ _ _ BL' BL) in *. rewrite app_assoc. apply before_l. apply before_in; [ auto | ].
        apply (lines_exact _ _ _ L). eauto 8.
      + rewrite (branch_level_unique _ _ _ _ BL'' BL) in *. apply before_r, before_l.
        destruct (lines_within _ _ _ L _ I') as (a & u & z & -> & _ & O). apply before_r, before_l. eapply O; eauto.
  Qed.

  Lemma assemble_leaf : forall n lvl ls, (forall l s, says show n lvl l s <-> In (l, s) ls) -> 
    (forall m c, branch_level n lvl m -> ~ In c (branches_of n)) -> exact n lvl ls /\ ordered n lvl ls.
  Proof.
    intros n lvl ls HS NB. split; [ | split ].
    - intros l s. rewrite <- HS. split.
      + intros Y. exists n, lvl. split; [ constructor | exact Y ].
      + intros (d & k & B & Y). inversion B as [|? ? m c ? ? BL I B']; subst; [ exact Y | ]. destruct (NB _ _ BL I).
    - intros p l m' bs1 c1 bs2 c2 bs3 B BL' E. exfalso. inversion B as [|? ? m c ? ? BL I B']; subst.
      + apply (NB _ c1 BL'). rewrite E. apply in_or_app. right. left. reflexivity.
      + destruct (NB _ _ BL I).
    - intros p l m' c d k s x s' B BL' Y LT I. exfalso. inversion B as [|? ? m c' ? ? BL I' B']; subst.
      + destruct (NB _ _ BL' I).
      + destruct (NB _ _ BL I').
  Qed.

  Lemma in_pair : forall (l m : nat) (s : string) ts, In (m, s) (map (pair l) ts) <-> m = l /\ In s ts.
  Proof.
    intros l m s ts. rewrite in_map_iff. split.
    - intros (t & E & I). injection E as <- <-. auto.
    - intros (-> & I). eauto.
  Qed.

  (** A text that is not empty is put at the beginning or on a new line. *)
  Lemma adds_head : forall b l s, s <> "" ->
    adds b ((if String.eqb b "" && Nat.eqb l 0 then b else new_line l b) ++ s)%string [(l, s)].
  Proof.
    intros b l s N. destruct (String.eqb_spec b "") as [->|]; [ | apply adds_line ].
    destruct (Nat.eqb_spec l 0) as [->|]; [ | apply adds_line ]. right. split; [ reflexivity | ].
    exists s, []. cbn. rewrite app_nil_s. auto.
  Qed.

  Lemma all_good : forall n, good n.
  Proof.
    apply tree_ind. intros k bs ts e v key F lvl b b' E. rewrite append_to_eq in E. destruct k.
    - (* provider *)
      destruct (dump_branches show bs (S lvl) _) as [b1| | |] eqn:E1; try discriminate. cbn in E. injection E as <-.
      destruct (branches_good _ F _ _ _ E1) as (ls & A & L). destruct (adds_outcome e key v ts (S lvl) b1) as (o & A2 & HO).
      exists ([(lvl, name)] ++ ls ++ (o ++ map (pair (S lvl)) ts)). split.
      + eapply adds_trans; [ apply adds_line | ]. eapply adds_trans; eauto.
      + eapply assemble; [ | | constructor | exact L ].
        * intros l s. rewrite !in_app_iff, HO, in_pair. cbn [In]. split.
          -- intros Y. inversion Y; subst; auto.
          -- intros [[H|[]]|[(-> & H)|(-> & H)]]; [ injection H as <- <- | | ]; (econstructor; solve [ eauto ]).
        * intros s Y _. inversion Y; subst; [ left; reflexivity | lia | lia ].
    - (* interpolation *)
      destruct (branches_good _ F _ _ _ E) as (ls & A & L).
      exists ([(lvl, ("Interpolation on """ ++ expr ++ """")%string)] ++ ls ++ []). split.
      + eapply adds_trans; [ apply adds_line | ]. rewrite app_nil_r. exact A.
      + eapply assemble; [ | | constructor | exact L ].
        * intros l s. rewrite !in_app_iff. cbn [In]. split.
          -- intros Y. inversion Y; subst; auto.
          -- intros [[H|[]]|[]]. injection H as <- <-. constructor.
        * intros s Y _. inversion Y; subst. left. reflexivity.
    - (* invalid key *)
      injection E as <-. eexists. split; [ apply adds_line | ]. apply assemble_leaf.
      + intros l s. cbn [In]. split; [ intros Y; inversion Y; subst; auto | ].
        intros [H|[]]. injection H as <- <-. constructor.
      + intros m c BL. inversion BL.
    - (* segment *)
      injection E as <-. destruct (adds_outcome e key v ts lvl b) as (o & A2 & HO). eexists. split; [ exact A2 | ].
      apply assemble_leaf.
      + intros l s. rewrite in_app_iff, HO, in_pair. split; [ intros Y; inversion Y; subst; auto | ].
        intros [(-> & H)|(-> & H)]; (econstructor; solve [ eauto ]).
      + intros m c BL. inversion BL.
    - (* location *)
      destruct (loc_resolved l) as [r| | |] eqn:R; try discriminate. cbn [obind] in E.
      destruct (dump_branches show bs (S lvl) _) as [b1| | |] eqn:E1; try discriminate. cbn [omap obind] in E. injection E as <-.
      destruct (branches_good _ F _ _ _ E1) as (ls & A & L).
      set (gone := if String.eqb e "location_not_found" then [(S lvl, (loc_kind l ++ " not found")%string)] else []).
      set (b2 := if String.eqb e "location_not_found" then (new_line (S lvl) b1 ++ loc_kind l ++ " not found")%string else b1).
      destruct (adds_outcome e key v ts (S lvl) b2) as (o & A2 & HO).
      assert (AG : adds b1 b2 gone).
      { unfold b2, gone. destruct (String.eqb e "location_not_found"); [ apply adds_line | apply adds_none ]. }
      exists ([(lvl, ((if String.eqb (loc_kind l) "path" then "Path """ else "URI """) ++ r ++ """")%string);
               (S lvl, ("Original " ++ loc_kind l ++ ": """ ++ loc_original l ++ """")%string)]
              ++ ls ++ (gone ++ o ++ map (pair (S lvl)) ts)). split.
      + eapply adds_trans; [ apply (adds_trans _ _ _ [_] [_] (adds_line _ _ _) (adds_line _ _ _)) | ].
        eapply adds_trans; [ exact A | ]. eapply adds_trans; eauto.
      + eapply assemble; [ | | constructor | exact L ].
        * intros l0 s. rewrite !in_app_iff, HO, in_pair. cbn [In].
          assert (G : In (l0, s) gone <-> l0 = S lvl /\ e = "location_not_found" /\ s = (loc_kind l ++ " not found")%string).
          { unfold gone. destruct (String.eqb_spec e "location_not_found") as [->|N].
            - cbn. split; [ intros [H|[]]; injection H as <- <-; auto | intros (-> & _ & ->); auto ].
            - split; [ intros [] | intros (_ & H & _); congruence ]. }
          rewrite G. destruct l; cbn in R; try discriminate; injection R as ->; cbn [loc_kind loc_original String.eqb Ascii.eqb Bool.eqb andb]; split.
          -- intros Y. inversion Y; subst; auto 8.
          -- intros [[H|[H|[]]]|[(-> & -> & ->)|[(-> & H)|(-> & H)]]]; try (injection H as <- <-); (econstructor; solve [ eauto ]).
          -- intros Y. inversion Y; subst; auto 8.
          -- intros [[H|[H|[]]]|[(-> & -> & ->)|[(-> & H)|(-> & H)]]]; try (injection H as <- <-); (econstructor; solve [ eauto ]).
        * intros s Y _. destruct l; cbn in R; try discriminate; injection R as ->;
            inversion Y; subst; try lia; left; reflexivity.
    - (* lookup *)
      destruct (branches_good _ F _ _ _ E) as (ls & A & L).
      exists ([(lvl, ("Searching for """ ++ key ++ """")%string)] ++ ls ++ []). split.
      + eapply adds_trans; [ apply adds_head; discriminate | ]. rewrite app_nil_r. exact A.
      + eapply assemble; [ | | constructor | exact L ].
        * intros l s. rewrite !in_app_iff. cbn [In]. split.
          -- intros Y. inversion Y; subst; auto.
          -- intros [[H|[]]|[]]. injection H as <- <-. constructor.
        * intros s Y _. inversion Y; subst. left. reflexivity.
    - (* merge *)
      destruct bs as [|c [|c' bs]].
      + injection E as <-. exists []. split; [ apply adds_none | ]. apply assemble_leaf.
        * intros l0 s0. split; [ intros Y; inversion Y | intros [] ].
        * intros m c BL. inversion BL.
      + assert (E1 : dump_branches show [c] lvl b = Ok b') by (cbn [dump_branches]; rewrite E; reflexivity).
        destruct (branches_good _ F _ _ _ E1) as (ls & A & L). exists ([] ++ ls ++ []). split; [ rewrite app_nil_r; exact A | ].
        eapply assemble; [ | | constructor | exact L ].
        * intros l0 s0. split; [ intros Y; inversion Y | intros [] ].
        * intros s0 Y. inversion Y.
      + rewrite label_called, options_same in E. set (opt := match options_of s with [] => [] | o => [(S lvl, ("Options: " ++ show (S lvl) (Some (VMap o)))%string)] end) in *.
        set (b1 := (new_line lvl b ++ "Merge strategy """ ++ called s ++ """")%string) in *.
        set (b2 := match options_of s with [] => b1 | o => (new_line (S lvl) b1 ++ "Options: " ++ show (S lvl) (Some (VMap o)))%string end) in *.
        destruct (dump_branches show (c :: c' :: bs) (S lvl) b2) as [b3| | |] eqn:E1; try discriminate. cbn [omap obind] in E. injection E as <-.
        destruct (branches_good _ F _ _ _ E1) as (ls & A & L).
        set (res := if String.eqb e "result" then [(S lvl, ("Merged result: " ++ show (S lvl) v)%string)] else []).
        exists (((lvl, ("Merge strategy """ ++ called s ++ """")%string) :: opt) ++ ls ++ res). split.
        * assert (AO : adds b b2 ([(lvl, ("Merge strategy """ ++ called s ++ """")%string)] ++ opt)).
          { eapply adds_trans; [ apply adds_line | ]. unfold b2, opt, b1. destruct (options_of s); [ apply adds_none | apply adds_line ]. }
          eapply adds_trans; [ exact AO | ]. eapply adds_trans; [ exact A | ].
          unfold res. destruct (String.eqb e "result"); [ apply adds_line | apply adds_none ].
        * eapply assemble; [ | | constructor | exact L ].
          -- intros l s0. rewrite in_app_iff. cbn [In].
             assert (GO : In (l, s0) opt <-> l = S lvl /\ options_of s <> [] /\ s0 = ("Options: " ++ show (S lvl) (Some (VMap (options_of s))))%string).
             { unfold opt. destruct (options_of s) as [|x r].
               - split; [ intros [] | intros (_ & H & _); congruence ].
               - cbn [In]. split; [ intros [H|[]]; injection H as <- <-; repeat split; auto; discriminate | intros (-> & _ & ->); auto ]. }
             assert (GR : In (l, s0) res <-> l = S lvl /\ e = "result" /\ s0 = ("Merged result: " ++ show (S lvl) v)%string).
             { unfold res. destruct (String.eqb_spec e "result") as [->|N].
               - cbn [In]. split; [ intros [H|[]]; injection H as <- <-; auto | intros (-> & _ & ->); auto ].
               - split; [ intros [] | intros (_ & H & _); congruence ]. }
             rewrite GO, GR. split.
             ++ intros Y. inversion Y; subst; auto 8.
             ++ intros [[H|(-> & N & ->)]|(-> & -> & ->)]; [ injection H as <- <- | | ]; (constructor; solve [ auto ]).
          -- intros s0 Y _. inversion Y; subst; try lia. left. reflexivity.
    - (* source of merge options *)
      injection E as <-. eexists. split; [ apply adds_line | ]. apply assemble_leaf.
      + intros l s0. cbn [In]. split; [ intros Y; inversion Y; subst; auto | ].
        intros [H|[]]. injection H as <- <-. constructor.
      + intros m c BL. inversion BL.
    - (* module *)
      destruct (String.eqb_spec e "module_not_found") as [->|N].
      + injection E as <-. eexists. split; [ apply adds_line | ]. apply assemble_leaf.
        * intros l s. cbn [In]. split; [ intros Y; inversion Y; subst; auto; congruence | ].
          intros [H|[]]. injection H as <- <-. constructor. reflexivity.
        * intros m0 c BL. inversion BL; congruence.
      + destruct (dump_branches show bs lvl b) as [b1| | |] eqn:E1; try discriminate. cbn [omap obind] in E. injection E as <-.
        destruct (branches_good _ F _ _ _ E1) as (ls & A & L). destruct (adds_outcome e key v ts lvl b1) as (o & A2 & HO).
        exists ([] ++ ls ++ (o ++ map (pair lvl) ts)). split; [ apply (adds_trans _ _ _ _ _ A A2) | ].
        eapply assemble; [ | | constructor; exact N | exact L ].
        * intros l s. cbn [List.app]. rewrite in_app_iff, HO, in_pair. split.
          -- intros Y. inversion Y; subst; auto; congruence.
          -- intros [(-> & H)|(-> & H)]; (econstructor; solve [ eauto ]).
        * intros s Y LT. lia.
    - (* sub lookup *)
      rewrite part_segment in E. destruct (dump_branches show bs (S lvl) _) as [b1| | |] eqn:E1; try discriminate. cbn [omap obind] in E. injection E as <-.
      destruct (branches_good _ F _ _ _ E1) as (ls & A & L). destruct (adds_outcome e key v ts (S lvl) b1) as (o & A2 & HO).
      exists ([(lvl, ("Sub key: """ ++ String.concat "." (map segment_text (tl (k_parts k))) ++ """")%string)] ++ ls ++ (o ++ map (pair (S lvl)) ts)). split.
      + eapply adds_trans; [ apply adds_line | ]. eapply adds_trans; eauto.
      + eapply assemble; [ | | constructor | exact L ].
        * intros l s. rewrite !in_app_iff, HO, in_pair. cbn [In]. split.
          -- intros Y. inversion Y; subst; auto.
          -- intros [[H|[]]|[(-> & H)|(-> & H)]]; [ injection H as <- <- | | ]; (econstructor; solve [ eauto ]).
        * intros s Y _. inversion Y; subst; [ left; reflexivity | lia | lia ].
  Qed.

  Lemma text_lines : forall x text, explainer_text show x = Ok text ->
    exists ls, adds "" text (ls ++ map (pair 0) (fr_ts (x_root x))) /\ lines_of 0 (fr_bs (x_root x)) ls.
  Proof.
    intros x text E. unfold explainer_text in E.
    destruct (dump_branches show (fr_bs (x_root x)) 0 "") as [b| | |] eqn:E1; try discriminate. cbn [omap obind] in E. injection E as <-.
    assert (F : Forall good (fr_bs (x_root x))) by (apply Forall_forall; intros; apply all_good).
    destruct (branches_good _ F _ _ _ E1) as (ls & A & L). exists ls. split; [ | exact L ].
    eapply adds_trans; [ exact A | apply adds_texts ].
  Qed.
End Proofs.

(** ** The theorems *)

(** Every line that a node of the explanation says is in the text, and so are the
    texts that were reported outside of all nodes. *)
Theorem C67_told : forall show x text, explainer_text show x = Ok text ->
  (forall d l lvl line, shown x d l -> says show d l lvl line -> exists p, line_at text p lvl line) /\
  (forall t, In t (fr_ts (x_root x)) -> exists p, line_at text p 0 t).
Proof.
  intros show x text E. destruct (text_lines _ _ _ E) as (ls & A & L). split.
  - intros d l lvl line (c & I & B) Y. apply (placed _ _ _ _ A). apply in_or_app. left.
    apply (lines_exact _ _ _ _ L). eauto 8.
  - intros t I. apply (placed _ _ _ _ A). apply in_or_app. right. apply in_pair. auto.
Qed.

(** A text made of lines: each on a new line and indented as its level says; a
    line that is not empty may do without the first line break. *)
Definition made_of (text : string) (ls : list (nat * string)) : Prop :=
  text = String.concat "" (map (fun p => str1 c_nl ++ indent (fst p) ++ snd p)%string ls) \/
  exists s r, ls = (0, s) :: r /\ s <> "" /\
    text = (s ++ String.concat "" (map (fun p => str1 c_nl ++ indent (fst p) ++ snd p)%string r))%string.

Lemma all_lines_concat : forall ls, all_lines ls = String.concat "" (map (fun p => str1 c_nl ++ indent (fst p) ++ snd p)%string ls).
Proof.
  induction ls as [|(l, s) ls IH]; [ reflexivity | ]. cbn [all_lines map fst snd]. rewrite IH. cbn [String.concat].
  destruct ls as [|q ls]; [ cbn [map String.concat]; rewrite app_nil_s; reflexivity | ].
  cbn [map String.concat]. rewrite !app_assoc_s. reflexivity.
Qed.

(** And the text has no other lines. *)
Theorem C67_only : forall show x text, explainer_text show x = Ok text ->
  exists ls, made_of text ls /\
    forall lvl line, In (lvl, line) ls ->
      (exists d l, shown x d l /\ says show d l lvl line) \/ (lvl = 0 /\ In line (fr_ts (x_root x))).
Proof.
  intros show x text E. destruct (text_lines _ _ _ E) as (ls & A & L). eexists. split.
  - unfold made_of. destruct A as [A|(_ & s & r & A1 & A2 & A3)].
    + left. rewrite <- all_lines_concat. exact A.
    + right. exists s, r. rewrite <- all_lines_concat. auto.
  - intros lvl line I. apply in_app_or in I. destruct I as [I|I].
    + left. apply (lines_exact _ _ _ _ L) in I. destruct I as (c & d & k & I & B & Y). exists d, k. split; [ exists c; auto | exact Y ].
    + right. apply in_pair in I. exact I.
Qed.

(** Things are told in the order in which they happened: what a node is comes
    before its branches, one branch comes before the next, also at the top, and
    what was reported outside of all nodes comes last. *)
Theorem C67_order : forall show x text, explainer_text show x = Ok text ->
  (forall n l m bs1 c1 bs2 c2 bs3, shown x n l -> branch_level n l m -> branches_of n = bs1 ++ c1 :: bs2 ++ c2 :: bs3 ->
     forall d1 k1 l1 s1 d2 k2 l2 s2, below c1 m d1 k1 -> says show d1 k1 l1 s1 -> below c2 m d2 k2 -> says show d2 k2 l2 s2 ->
     exists p q, p < q /\ line_at text p l1 s1 /\ line_at text q l2 s2) /\
  (forall bs1 c1 bs2 c2 bs3, fr_bs (x_root x) = bs1 ++ c1 :: bs2 ++ c2 :: bs3 ->
     forall d1 k1 l1 s1 d2 k2 l2 s2, below c1 0 d1 k1 -> says show d1 k1 l1 s1 -> below c2 0 d2 k2 -> says show d2 k2 l2 s2 ->
     exists p q, p < q /\ line_at text p l1 s1 /\ line_at text q l2 s2) /\
  (forall n l m c d k s l2 s2, shown x n l -> branch_level n l m -> l < m -> says show n l l s ->
     In c (branches_of n) -> below c m d k -> says show d k l2 s2 ->
     exists p q, p < q /\ line_at text p l s /\ line_at text q l2 s2) /\
  (forall d k l s t, shown x d k -> says show d k l s -> In t (fr_ts (x_root x)) ->
     exists p q, p < q /\ line_at text p l s /\ line_at text q 0 t).
Proof.
  intros show x text E. destruct (text_lines _ _ _ E) as (ls & A & L). split; [ | split; [ | split ] ].
  - intros n l m bs1 c1 bs2 c2 bs3 (c & I & B) BL E1 d1 k1 l1 s1 d2 k2 l2 s2 B1 Y1 B2 Y2.
    apply (placed_before _ _ _ _ _ _ A). destruct (lines_within _ _ _ _ L _ I) as (a & u & z & -> & O & _).
    apply before_l, before_r, before_l. eapply O; eauto.
  - intros bs1 c1 bs2 c2 bs3 E1 d1 k1 l1 s1 d2 k2 l2 s2 B1 Y1 B2 Y2.
    apply (placed_before _ _ _ _ _ _ A). apply before_l. eapply lines_siblings; eauto.
  - intros n l m c d k s l2 s2 (c' & I & B) BL LT Y I' B' Y'.
    apply (placed_before _ _ _ _ _ _ A). destruct (lines_within _ _ _ _ L _ I) as (a & u & z & -> & _ & O).
    apply before_l, before_r, before_l. eapply O; eauto.
  - intros d k l s t (c & I & B) Y T. apply (placed_before _ _ _ _ _ _ A). apply before_in.
    + apply (lines_exact _ _ _ _ L). eauto 8.
    + apply in_pair. auto.
Qed.

(** There is a text if all locations of the explanation have been resolved to
    paths and URIs. *)
Definition kind_of (n : node) : nkind := match n with Node k _ _ _ _ _ => k end.
Definition resolved_location (k : nkind) : Prop :=
  match k with NLocation (LGlob _) | NLocation (LMapped _ _ _) => False | _ => True end.

Lemma written_node : forall show n lvl b, (forall d l, below n lvl d l -> resolved_location (kind_of d)) ->
  exists b', append_to show n lvl b = Ok b'.
Proof.
  intros show n. induction n as [k bs ts e v key F] using tree_ind. intros lvl b H.
  assert (LS : forall m, branch_level (Node k bs ts e v key) lvl m -> forall b, exists b', dump_branches show bs m b = Ok b').
  { intros m BL.
    assert (K : Forall (fun c => forall d l, below c m d l -> resolved_location (kind_of d)) bs).
    { apply Forall_forall. intros c I d l B. apply (H d l). econstructor; eauto. }
    clear - F K. induction F as [|c bs Hc F IH]; intros b; cbn [dump_branches]; [ eauto | ].
    inversion K as [|? ? K1 K2]; subst. destruct (Hc m b K1) as (b1 & ->). cbn [obind]. apply IH, K2. }
  rewrite append_to_eq. destruct k.
  - destruct (LS _ (bl_provider _ _ _ _ _ _ _) (new_line lvl b ++ name)%string) as (b1 & ->). eexists. reflexivity.
  - destruct (LS _ (bl_interpolation _ _ _ _ _ _ _) (new_line lvl b ++ "Interpolation on """ ++ expr ++ """")%string) as (b1 & ->). eexists. reflexivity.
  - eexists. reflexivity.
  - eexists. reflexivity.
  - assert (R := H _ _ (below_self _ _)). destruct l; try (destruct R; fail); cbn [loc_resolved obind];
      match goal with |- context [dump_branches show bs (S lvl) ?b0] => destruct (LS _ (bl_location _ _ _ _ _ _ _) b0) as (b1 & ->) end;
      eexists; reflexivity.
  - match goal with |- context [dump_branches show bs (S lvl) ?b0] => destruct (LS _ (bl_lookup _ _ _ _ _ _) b0) as (b1 & ->) end.
    eexists. reflexivity.
  - destruct bs as [|c [|c' bs]].
    + eexists. reflexivity.
    + destruct (LS _ (bl_merge_one _ _ _ _ _ _ _) b) as (b1 & E). cbn [dump_branches] in E.
      destruct (append_to show c lvl b) as [b2| | |]; try discriminate. eauto.
    + match goal with |- context [dump_branches show (c :: c' :: bs) (S lvl) ?b0] => destruct (LS _ (bl_merge _ _ _ _ _ _ _ _ _) b0) as (b1 & ->) end.
      eexists. reflexivity.
  - eexists. reflexivity.
  - destruct (String.eqb_spec e "module_not_found") as [->|N]; [ eexists; reflexivity | ].
    destruct (LS _ (bl_module _ _ _ _ _ _ _ N) b) as (b1 & ->). eexists. reflexivity.
  - match goal with |- context [dump_branches show bs (S lvl) ?b0] => destruct (LS _ (bl_sub _ _ _ _ _ _ _) b0) as (b1 & ->) end.
    eexists. reflexivity.
Qed.

Theorem C67_written : forall show x, (forall d l, shown x d l -> resolved_location (kind_of d)) ->
  exists text, explainer_text show x = Ok text.
Proof.
  intros show x H. unfold explainer_text.
  assert (K : forall bs, (forall c, In c bs -> In c (fr_bs (x_root x))) -> forall b, exists b', dump_branches show bs 0 b = Ok b').
  { induction bs as [|c bs IH]; intros I b; cbn [dump_branches]; [ eauto | ].
    destruct (written_node show c 0 b) as (b1 & ->).
    - intros d l B. apply (H d l). exists c. split; [ apply I; left; reflexivity | exact B ].
    - cbn [obind]. apply IH. intros c' I'. apply I. right. exact I'. }
  destruct (K _ (fun c I => I) "") as (b & ->). eexists. reflexivity.
Qed.

(** ** The full claim *)

(** Everything that was reported is in the text. *)
Definition texts_of (n : node) : list string := match n with Node _ _ ts _ _ _ => ts end.
Definition C67_full : Prop := forall show x text, explainer_text show x = Ok text ->
  forall d l t, shown x d l -> In t (texts_of d) -> exists p lvl, line_at text p lvl t.

(** A lookup function at the top, besides others, that explains what it does. *)
Definition tell_w : world :=
  with_top LkMux (Some [LkUser "f"; LkScope])
    (with_funs [("f", fun _ => PExplain "asked f" (PRet None))] (file_world [] [])).
Definition tell_st : st := init_st (ScMap [(VStr "k", VInt 1)]) (Some (new_explainer false false)).
Definition tell_x : explainer := s_ex (snd (run_lookup tell_w 10 (mk_key "k" [PStr "k"]) None tell_st)).
Definition tell_text : string := "Searching for ""k""".

Lemma tell_text_is : forall show, explainer_text show tell_x = Ok tell_text.
Proof. intro show. vm_compute. reflexivity. Qed.

Theorem C67_all_reported_refuted : exists show x text d l t,
  explainer_text show x = Ok text /\ shown x d l /\ In t (texts_of d) /\ ~ (exists p lvl, line_at text p lvl t) /\
  (exists w n k s, iv_expl (s_iv s) = true /\ x = s_ex (snd (run_lookup w n k None s)) /\
     fst (run_lookup w n k None s) = Ok (Some (VInt 1))).
Proof.
  exists (fun _ _ => ""), tell_x, tell_text, (Node NLookup [] ["asked f"] "result" (Some (VInt 1)) "k"), 0, "asked f".
  split; [ apply tell_text_is | ].
  split. { eexists. split; [ | apply below_self ]. vm_compute. left. reflexivity. }
  split; [ left; reflexivity | ]. split.
  - intros (p & lvl & pre & post & _ & H & _).
    assert (K : exists a, tell_text = (a ++ "asked f" ++ post)%string).
    { destruct H as [H|(_ & _ & _ & H)].
      - exists (pre ++ str1 c_nl ++ indent lvl)%string. rewrite H, !app_assoc_s. reflexivity.
      - exists "". exact H. }
    destruct K as (a & K). unfold tell_text in K. clear - K.
    repeat (first [ discriminate K | destruct a as [|? a]; cbn [String.append] in K; [ discriminate K | injection K as _ K ] ]).
    destruct a; discriminate K.
  - exists tell_w, 10, (mk_key "k" [PStr "k"]), tell_st. split; [ reflexivity | ]. split; [ reflexivity | vm_compute; reflexivity ].
Qed.

Corollary C67_full_is_false : ~ C67_full.
Proof.
  intro F. destruct C67_all_reported_refuted as (show & x & text & d & l & t & E & S & I & N & _).
  exact (N (F show x text E d l t S I)).
Qed.

(** ** Examples *)

Definition no_show (_ : nat) (v : option value) : string := match v with Some (VInt 7) => "7" | Some _ => "{...}" | None => "nil" end.
Definition lines (l : list string) : string := String.concat (str1 c_nl) l.
Definition truth_x (opts : entries) : explainer :=
  s_ex (snd (config_lookup_at truth_w (run truth_w 10) opts "/h/hiera.yaml" "k" "" truth_st)).

(** The texts of two lookups, one of them merging. *)
Example C67_ex_first : explainer_text no_show (truth_x [])
  = Ok (lines ["Searching for ""k""";
               "  data_hash function 'yaml_data'";
               "    Path ""/h/data/none.yaml""";
               "      Original path: ""none.yaml""";
               "      path not found";
               "    Path ""/h/data/a.yaml""";
               "      Original path: ""a.yaml""";
               "      No such key: ""k""";
               "  data_hash function 'yaml_data'";
               "    Path ""/h/data/b.yaml""";
               "      Original path: ""b.yaml""";
               "      Found key: ""k"" value: {...}"]).
Proof. vm_compute. reflexivity. Qed.

Example C67_ex_hash : explainer_text no_show (truth_x [(VStr "merge", VStr "hash")])
  = Ok (lines ["Searching for ""k""";
               "  Using merge options from CLI option";
               "  Merge strategy ""hash merge strategy""";
               "    data_hash function 'yaml_data'";
               "      Merge strategy ""hash merge strategy""";
               "        Path ""/h/data/none.yaml""";
               "          Original path: ""none.yaml""";
               "          path not found";
               "        Path ""/h/data/a.yaml""";
               "          Original path: ""a.yaml""";
               "          No such key: ""k""";
               "    data_hash function 'yaml_data'";
               "      Path ""/h/data/b.yaml""";
               "        Original path: ""b.yaml""";
               "        Found key: ""k"" value: {...}";
               "    Merged result: {...}"]).
Proof. vm_compute. reflexivity. Qed.

(** A node four levels down, what it says, and the places of two lines. *)
Example C67_ex_shown : shown (truth_x []) b_there 2 /\
  says no_show b_there 2 3 "Found key: ""k"" value: {...}" /\
  shown (truth_x []) a_none 2 /\ says no_show a_none 2 3 "path not found".
Proof.
  assert (B : fr_bs (x_root (truth_x [])) = [Node NLookup [yaml_node [a_none; a_there] ""; yaml_node [b_there] ""] [] "result" (Some (vmap [("x", VInt 7)])) "k"])
    by (vm_compute; reflexivity).
  split; [ | split; [ | split ] ].
  - eexists. rewrite B. split; [ left; reflexivity | ].
    eapply below_branch; [ apply bl_lookup | right; left; reflexivity | ].
    eapply below_branch; [ apply bl_provider | left; reflexivity | apply below_self ].
  - apply say_location_outcome. exact (ol_found no_show _ _ _ _ eq_refl).
  - eexists. rewrite B. split; [ left; reflexivity | ].
    eapply below_branch; [ apply bl_lookup | left; reflexivity | ].
    eapply below_branch; [ apply bl_provider | left; reflexivity | apply below_self ].
  - apply say_path_absent. reflexivity.
Qed.

(** All locations of these explanations are resolved. *)
Fixpoint no_patterns (n : node) : bool :=
  match n with
  | Node k bs _ _ _ _ => match k with NLocation (LGlob _) | NLocation (LMapped _ _ _) => false | _ => true end && forallb no_patterns bs
  end.
Example C67_ex_resolved : forall d l, shown (truth_x [(VStr "merge", VStr "hash")]) d l -> resolved_location (kind_of d).
Proof.
  assert (R : forall n, no_patterns n = true -> forall lvl d l, below n lvl d l -> resolved_location (kind_of d)).
  { intros n. induction n as [k bs ts e v key F] using tree_ind. intros H lvl d l B.
    cbn [no_patterns] in H. apply andb_prop in H. destruct H as (H1 & H2). inversion B as [|? ? m c ? ? BL I B']; subst.
    - destruct k as [| | | |[]| | | | |]; cbn; auto; discriminate.
    - rewrite Forall_forall in F. rewrite forallb_forall in H2. eapply F; [ exact I | apply H2, I | exact B' ]. }
  assert (A : forallb no_patterns (fr_bs (x_root (truth_x [(VStr "merge", VStr "hash")]))) = true) by (vm_compute; reflexivity).
  rewrite forallb_forall in A. intros d l (c & I & B). exact (R c (A c I) 0 d l B).
Qed.

Print Assumptions C67_told.
Print Assumptions C67_only.
Print Assumptions C67_order.
Print Assumptions C67_written.
Print Assumptions C67_all_reported_refuted.
