(** What goroutines do with the things they share: loading a configuration
    (/repo/session/invocation.go:66-111), filling the data of a provider
    (/repo/internal/datahashprovider.go:76-101) and the variables of a REST
    request (/repo/hieraserver/rest/rest.go:129-138). *)

From Coq Require Import String List Bool Arith.
From Verif Require Import State Cache.
Import ListNotations.
Open Scope string_scope.
Open Scope list_scope.
Open Scope nat_scope.

(** *** Config *)

(** The lock of one configuration, /repo/session/invocation.go:85-86: locked by
    the goroutine that loads it, or free with so many readers. *)
Inductive config_lock : Type :=
| Locked
| Readers (n : nat).

Section ConfigCalls.
  (** What a loaded configuration is does not matter here. *)
  Context {C : Type}.
  (** The outcome of the n-th call of config.New (/repo/config/config.go:77) in
      the session, for this path: [None] when it panics.  The number stands for
      the time: the file may change between calls. *)
  Variable new : nat -> string -> option C.

  (** What the goroutines share: the configurations stored below
      hieraConfigsPrefix, the locks stored below hieraLockPrefix
      (/repo/session/invocation.go:76 and :83; only locks are ever stored
      there, so the case of line 101 does not occur), and, for stating things,
      the calls of config.New made so far, latest first. *)
  Record shared_cache : Type := mk_shared {
    sc_configs : smap C;
    sc_locks : smap config_lock;
    sc_news : list (string * option C)
  }.

  (** Where a goroutine is in Config, /repo/session/invocation.go:66-111, with
      the path it asks for.  [AtReturn] has the configuration or the panic. *)
  Inductive config_pc : Type :=
  | AtStart                               (* before :72 *)
  | AtLoad (p : string)                   (* before :77 *)
  | AtLoadOrStore (p : string)            (* before :89 *)
  | AtRLock (p : string)                  (* before :96 *)
  | AtReload (p : string)                 (* before :97 *)
  | AtRUnlock (p : string) (c : C)        (* before :99 *)
  | AtNew (p : string)                    (* before :104 *)
  | AtStore (p : string) (c : C)          (* before :105 *)
  | AtUnlock (p : string) (c : C)         (* before :106 *)
  | AtReturn (p : string) (r : option C). (* before :108, or unwinding *)

  (** A goroutine: the calls it still has to make, each with the path and
      whether it is made with a new invocation; the configurations its present
      invocation knows (ic.configs); where it is; and the results so far,
      latest first, [None] for a panic.  After a panic the goroutine may go on
      with further calls, as a server does. *)
  Record looker : Type := mk_looker {
    lk_calls : list (bool * string);
    lk_known : smap C;
    lk_pc : config_pc;
    lk_results : list (string * option C)
  }.

  (** The goroutine at another place. *)
Definition at_pc (l : looker) (pc : config_pc) : looker := mk_looker (lk_calls l) (lk_known l) pc (lk_results l).

  (** The next atomic step.  Line 108 (Resolve) uses nothing that is shared. *)
  Definition looker_step (l : looker) (s : shared_cache) : option (looker * shared_cache) :=
    match lk_pc l with
    | AtStart =>
        match lk_calls l with
        | [] => None
        | (fresh, p) :: r =>
            let known := if fresh then [] else lk_known l in
            match load p known with
            | Some c => Some (mk_looker r known AtStart ((p, Some c) :: lk_results l), s)
            | None => Some (mk_looker r known (AtLoad p) (lk_results l), s)
            end
        end
    | AtLoad p =>
        Some (at_pc l match load p (sc_configs s) with
                      | Some c => AtReturn p (Some c)
                      | None => AtLoadOrStore p
                      end, s)
    | AtLoadOrStore p =>
        let '(_, loaded, locks) := load_or_store p Locked (sc_locks s) in
        Some (at_pc l (if loaded then AtRLock p else AtNew p), mk_shared (sc_configs s) locks (sc_news s))
    | AtRLock p =>
        match load p (sc_locks s) with
        | Some (Readers n) =>
            Some (at_pc l (AtReload p), mk_shared (sc_configs s) (store p (Readers (S n)) (sc_locks s)) (sc_news s))
        | _ => None
        end
    | AtReload p =>
        Some (at_pc l match load p (sc_configs s) with
                      | Some c => AtRUnlock p c
                      | None => AtReturn p None
                      end, s)
    | AtRUnlock p c =>
        Some (at_pc l (AtReturn p (Some c)),
              mk_shared (sc_configs s)
                match load p (sc_locks s) with
                | Some (Readers (S n)) => store p (Readers n) (sc_locks s)
                | _ => sc_locks s
                end (sc_news s))
    | AtNew p =>
        let r := new (length (sc_news s)) p in
        Some (at_pc l match r with Some c => AtStore p c | None => AtReturn p None end,
              mk_shared (sc_configs s) (sc_locks s) ((p, r) :: sc_news s))
    | AtStore p c => Some (at_pc l (AtUnlock p c), mk_shared (store p c (sc_configs s)) (sc_locks s) (sc_news s))
    | AtUnlock p c =>
        Some (at_pc l (AtReturn p (Some c)), mk_shared (sc_configs s) (store p (Readers 0) (sc_locks s)) (sc_news s))
    | AtReturn p r =>
        Some (mk_looker (lk_calls l) match r with Some c => store p c (lk_known l) | None => lk_known l end
                AtStart ((p, r) :: lk_results l), s)
    end.

  (** A goroutine that is about to make these calls, and a session in which
      nothing has been loaded yet, /repo/session/session.go:93. *)
  Definition new_looker (calls : list (bool * string)) : looker := mk_looker calls [] AtStart [].
  Definition new_shared : shared_cache := mk_shared [] [] [].
End ConfigCalls.
Arguments shared_cache : clear implicits.
Arguments looker : clear implicits.
Arguments config_pc : clear implicits.

(** *** dataHash *)

(** The lock of a provider, /repo/internal/datahashprovider.go:18: locked by
    one goroutine, or free with so many readers.  Go holds back new readers
    when somebody waits in Lock; here they may pass, so that there are more
    schedules than in Go. *)
Inductive rw_lock : Type :=
| Writing
| Reading (n : nat).

Section DataHashCalls.
  (** What the data is does not matter here. *)
  Context {D : Type}.
  (** The outcome of the n-th call of the provider function for this location:
      [None] when it panics.  The number stands for the time.  A function that
      leads back to the same provider is treated in Engine.v. *)
  Variable call : nat -> string -> option D.

  (** What the goroutines share: dh.hashes, dh.hashesLock, and, for stating
      things, the calls made so far, latest first. *)
  Record provider_state : Type := mk_provider {
    pv_hashes : smap D;
    pv_lock : rw_lock;
    pv_calls : list (string * option D)
  }.

  (** Where a goroutine is in dataHash,
      /repo/internal/datahashprovider.go:76-101, with the key of the location. *)
  Inductive hash_pc : Type :=
  | HStart                                (* between calls *)
  | HRLock (k : string)                   (* before :85 *)
  | HGet (k : string)                     (* before :86 *)
  | HRUnlock (k : string) (d : option D)  (* before :87 *)
  | HLock (k : string)                    (* before :92 *)
  | HGet2 (k : string)                    (* before :95 *)
  | HCall (k : string)                    (* before :98 *)
  | HPut (k : string) (d : D)             (* before :99 *)
  | HUnlock (k : string) (d : option D).  (* the deferred :93; None: unwinding *)

  (** A goroutine: the locations it still asks for, where it is and the results
      so far, latest first, [None] for a panic. *)
  Record asker : Type := mk_asker {
    ak_keys : list string;
    ak_pc : hash_pc;
    ak_results : list (string * option D)
  }.

  (** The goroutine at another place. *)
Definition ask_pc (a : asker) (pc : hash_pc) : asker := mk_asker (ak_keys a) pc (ak_results a).

  (** The next atomic step. *)
  Definition asker_step (a : asker) (s : provider_state) : option (asker * provider_state) :=
    match ak_pc a with
    | HStart =>
        match ak_keys a with
        | [] => None
        | k :: r => Some (mk_asker r (HRLock k) (ak_results a), s)
        end
    | HRLock k =>
        match pv_lock s with
        | Reading n => Some (ask_pc a (HGet k), mk_provider (pv_hashes s) (Reading (S n)) (pv_calls s))
        | Writing => None
        end
    | HGet k => Some (ask_pc a (HRUnlock k (load k (pv_hashes s))), s)
    | HRUnlock k d =>
        let s' := mk_provider (pv_hashes s) match pv_lock s with Reading (S n) => Reading n | x => x end (pv_calls s) in
        match d with
        | Some _ => Some (mk_asker (ak_keys a) HStart ((k, d) :: ak_results a), s')
        | None => Some (ask_pc a (HLock k), s')
        end
    | HLock k =>
        match pv_lock s with
        | Reading 0 => Some (ask_pc a (HGet2 k), mk_provider (pv_hashes s) Writing (pv_calls s))
        | _ => None
        end
    | HGet2 k =>
        Some (ask_pc a match load k (pv_hashes s) with Some d => HUnlock k (Some d) | None => HCall k end, s)
    | HCall k =>
        let r := call (length (pv_calls s)) k in
        Some (ask_pc a match r with Some d => HPut k d | None => HUnlock k None end,
              mk_provider (pv_hashes s) (pv_lock s) ((k, r) :: pv_calls s))
    | HPut k d => Some (ask_pc a (HUnlock k (Some d)), mk_provider (store k d (pv_hashes s)) (pv_lock s) (pv_calls s))
    | HUnlock k d =>
        Some (mk_asker (ak_keys a) HStart ((k, d) :: ak_results a), mk_provider (pv_hashes s) (Reading 0) (pv_calls s))
    end.

  (** A goroutine that is about to ask for these, and a new provider,
      /repo/internal/datahashprovider.go:108-111. *)
  Definition new_asker (ks : list string) : asker := mk_asker ks HStart [].
  Definition new_provider : provider_state := mk_provider [] (Reading 0) [].
End DataHashCalls.
Arguments provider_state : clear implicits.
Arguments asker : clear implicits.
Arguments hash_pc : clear implicits.

(** *** The variables of a REST request *)

(** What the requests share: the backing array of cmdOpts.Variables,
    /repo/hieraserver/rest/rest.go:42 and :129; its length is its capacity.
    [opts := cmdOpts] copies the slice, not the array. *)
Definition backing : Type := list string.

(** Where a request is: before the append of
    /repo/hieraserver/rest/rest.go:136; putting the rest of its parameters into
    the shared array, the next one at place [at_]; reading what createScope
    (/repo/hiera/hiera.go:290-311) gets to see, place by place, in the shared
    array or in its own copy; or done. *)
Inductive request : Type :=
| ReqStart (params : list string)
| ReqPut (at_ : nat) (rest : list string)
| ReqReadShared (at_ upto : nat) (seen : list string)
| ReqDone (vars : list string).

(** Put one string at a place of an array. *)
Fixpoint put_at (i : nat) (x : string) (b : backing) : backing :=
  match b, i with
  | [], _ => []
  | _ :: r, 0 => x :: r
  | y :: r, S i => y :: put_at i x r
  end.

(** The next atomic step of a request when cmdOpts.Variables has length [n]:
    append writes into the array when its capacity suffices and otherwise
    copies it, /repo/hieraserver/rest/rest.go:136.  A copy is nobody else's and
    is read in one step. *)
Definition request_step (n : nat) (r : request) (b : backing) : option (request * backing) :=
  match r with
  | ReqStart ps =>
      if n + length ps <=? length b then Some (ReqPut n ps, b)
      else Some (ReqDone (firstn n b ++ ps), b)
  | ReqPut i [] => Some (ReqReadShared 0 i [], b)
  | ReqPut i (p :: ps) => Some (ReqPut (S i) ps, put_at i p b)
  | ReqReadShared i upto seen =>
      if i <? upto then Some (ReqReadShared (S i) upto (seen ++ [nth i b ""]), b)
      else Some (ReqDone seen, b)
  | ReqDone _ => None
  end.
