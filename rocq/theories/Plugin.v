(** Plugins: /repo/session/pluginloader.go.  The processes of a session, the
    registry that knows them, and calls of functions that they provide. *)

From Coq Require Import String Ascii List ZArith Bool Arith.
From Verif Require Import Str Value Outcome State.
Import ListNotations.
Open Scope string_scope.
Open Scope list_scope.
Open Scope bool_scope.

(** *** Meta data *)

(** The kinds of functions, /repo/session/pluginloader.go:270-277. *)
Inductive fkind : Type := FDig | FHash | FKey.

Section Meta.
  (** hiera.ProtoVersion of hierasdk, used at /repo/session/pluginloader.go:245,
      and the conversion of a float64 to int there. *)
  Variable proto : Z.
  Variable go_int : Z -> Z.

  (** plugin.initialize, /repo/session/pluginloader.go:243-261: address, network
      and functions out of the decoded JSON.  A JSON object is a list of
      entries with string keys, a JSON number is a float.  Simplification: the text
      about the protocol ends with the version, which is left out here. *)
  Definition initialize (path : string) (meta : entries) : outcome (string * string * entries) :=
    match mgets "version" meta with
    | Some (VFloat v) =>
        if Z.eqb (go_int v) proto then
          match mgets "address" meta with
          | Some (VStr addr) =>
              let network := match mgets "network" meta with Some (VStr n) => n | _ => "tcp" end in
              match mgets "functions" meta with
              | Some (VMap fs) => Ok (addr, network, fs)
              | _ => Panic (EErr ("plugin " ++ path ++ " did not provide a valid functions map"))
              end
          | _ => Panic (EErr ("plugin " ++ path ++ " did not provide a valid address"))
          end
        else Panic (EErr ("plugin " ++ path ++ " uses unsupported protocol"))
    | _ => Panic (EErr ("plugin " ++ path ++ " uses unsupported protocol"))
    end.
End Meta.

(** The dispatch chosen by a key of the functions map,
    /repo/session/pluginloader.go:270-277. *)
Definition kind_of (k : value) : fkind :=
  match k with
  | VStr "data_dig" => FDig
  | VStr "data_hash" => FHash
  | _ => FKey
  end.

(** The inner loop of functionMap, /repo/session/pluginloader.go:278-281. *)
Fixpoint add_names (k : fkind) (names : list value) (m : list (string * fkind)) : outcome (list (string * fkind)) :=
  match names with
  | [] => Ok m
  | VStr n :: r => add_names k r (aput n k m)
  | _ :: _ => Panic bad_assert
  end.

(** functionMap, /repo/session/pluginloader.go:265-284: the functions by name.
    Go visits the entries of the functions map in any order; here the order is
    the one of the list. *)
Fixpoint function_map (fs : entries) (m : list (string * fkind)) : outcome (list (string * fkind)) :=
  match fs with
  | [] => Ok m
  | (k, VArr names) :: r => obind (add_names (kind_of k) names m) (function_map r)
  | _ :: _ => Panic bad_assert
  end.

(** *** Processes *)

(** A process that was started, /repo/session/pluginloader.go:148-153: the path
    and whether it is alive. *)
Record process : Type := mk_process {
  pc_path : string;
  pc_alive : bool
}.

(** A plugin, /repo/session/pluginloader.go:29-37.  The process is [None] for
    nil; addr and network are needed for calls only. *)
Record plugin : Type := mk_plugin {
  pl_locked : bool;
  pl_process : option nat;
  pl_addr : string;
  pl_network : string;
  pl_functions : entries
}.

(** What the operating system and the plugin do when it is started: a pipe
    cannot be created (:149-150), the program cannot be started (:151), there
    is no meta data in time (:175), it is no JSON object (:178), or there is
    meta data (:181).  [msg] is the text of the error, [pipe] is stderr or stdout. *)
Inductive start_reply : Type :=
| RpPipe (pipe msg : string)
| RpStart (msg : string)
| RpTimeout
| RpBadMeta (msg : string)
| RpMeta (m : entries).

(** What happens when a process is asked to terminate,
    /repo/session/pluginloader.go:220-239: that fails, the process ends in time,
    or it has to be killed. *)
Inductive kill_reply : Type :=
| KlError
| KlEnds
| KlSlow.

(** What goroutines do with the registry: startPlugin and stopAll.  The third
    operation is not one of the program: a process ends by itself. *)
Inductive plugin_op : Type :=
| OpStart (path : string) (r : start_reply)
| OpStop (r : string -> kill_reply)
| OpEnd (pid : nat).

(** The registry with its lock (/repo/session/pluginloader.go:40-43), and the
    processes; a process is known by its place in the list. *)
Record registry : Type := mk_registry {
  rg_locked : bool;
  rg_plugins : option (list (string * plugin));
  rg_processes : list process
}.

(** Where a goroutine is. *)
Inductive plugin_pc : Type :=
| PcIdle
| PcStarted (path : string) (pid : nat) (r : start_reply)       (* after :153 *)
| PcRegistered (path : string) (pid : nat)                      (* after :192 *)
| PcStopping (rest : list string) (r : string -> kill_reply)    (* in the loop of :50 *)
| PcTerminated (path : string) (pid : nat) (rest : list string) (r : string -> kill_reply). (* after :221 *)

(** A goroutine: where it is, what it still has to do, and the results of its
    starts, latest first. *)
Record starter : Type := mk_starter {
  sr_pc : plugin_pc;
  sr_ops : list plugin_op;
  sr_results : list (string * outcome (list (string * fkind)))
}.

(** A process is no longer alive: process.Kill (/repo/session/pluginloader.go:158,
    :234, :238), or it has ended. *)
Fixpoint end_process (pid : nat) (ps : list process) : list process :=
  match ps, pid with
  | [], _ => []
  | p :: r, 0 => mk_process (pc_path p) false :: r
  | p :: r, S n => p :: end_process n r
  end.

(** The plugins of the registry, nil or not. *)
Definition plugins_of (g : registry) : list (string * plugin) :=
  match rg_plugins g with Some l => l | None => [] end.

(** r.plugins[path] = p, /repo/session/pluginloader.go:192: an entry of a map.  The
    same is used here for the changes that kill makes to a plugin (:208-217). *)
Fixpoint rput (path : string) (p : plugin) (l : list (string * plugin)) : list (string * plugin) :=
  match l with
  | [] => [(path, p)]
  | (q, x) :: r => if String.eqb path q then (path, p) :: r else (q, x) :: rput path p r
  end.

(** The plugin that is made from meta data, /repo/session/pluginloader.go:163 and
    :248-260. *)
Definition new_plugin (pid : nat) (i : string * string * entries) : plugin :=
  let '(addr, network, fs) := i in mk_plugin false (Some pid) addr network fs.

(** The results of startPlugin in Go: an error that says what went wrong,
    /repo/session/pluginloader.go:59, :152, :176 and :179.  With meta data the error
    is that of initialize, so the last text is not used. *)
Definition start_error (path : string) (r : start_reply) : err :=
  EErr match r with
       | RpPipe pipe msg => "unable to create " ++ pipe ++ " pipe to plugin " ++ path ++ ": " ++ msg
       | RpStart msg => "unable to start plugin " ++ path ++ ": " ++ msg
       | RpTimeout => "timeout while waiting for plugin " ++ path ++ " to start"
       | RpBadMeta msg => "error reading meta data of plugin " ++ path ++ ": " ++ msg
       | RpMeta _ => ""
       end.

Section Steps.
  Variable proto : Z.
  Variable go_int : Z -> Z.

  (** A goroutine is done with a start: the lock is released by the deferred
      call, /repo/session/pluginloader.go:141. *)
  Definition finish (path : string) (o : outcome (list (string * fkind))) (l : starter) : starter :=
    mk_starter PcIdle (sr_ops l) ((path, o) :: sr_results l).

  (** One step of a goroutine.  [None]: it has finished, or it waits for a lock.
      The steps of startPlugin (/repo/session/pluginloader.go:139-195) and of
      stopAll with kill (:46-54, :207-240). *)
  Definition plugin_step (l : starter) (g : registry) : option (starter * registry) :=
    match sr_pc l with
    | PcIdle =>
        match sr_ops l with
        | [] => None
        | OpStart path r :: ops =>
            if rg_locked g then None
            else
              let l1 := mk_starter PcIdle ops (sr_results l) in
              match aget path (plugins_of g) with
              | Some p => Some (finish path (function_map (pl_functions p) []) l1, g)
              | None =>
                  match r with
                  | RpPipe _ _ | RpStart _ => Some (finish path (Panic (start_error path r)) l1, g)
                  | _ =>
                      Some (mk_starter (PcStarted path (length (rg_processes g)) r) ops (sr_results l),
                            mk_registry true (rg_plugins g) (rg_processes g ++ [mk_process path true]))
                  end
              end
        | OpStop r :: ops =>
            if rg_locked g then None
            else Some (mk_starter (PcStopping (map fst (plugins_of g)) r) ops (sr_results l),
                       mk_registry true (rg_plugins g) (rg_processes g))
        | OpEnd pid :: ops =>
            Some (mk_starter PcIdle ops (sr_results l),
                  mk_registry (rg_locked g) (rg_plugins g) (end_process pid (rg_processes g)))
        end
    | PcStarted path pid r =>
        match r with
        | RpMeta m =>
            match initialize proto go_int path m with
            | Ok i =>
                Some (mk_starter (PcRegistered path pid) (sr_ops l) (sr_results l),
                      mk_registry true (Some (rput path (new_plugin pid i) (plugins_of g))) (rg_processes g))
            | o =>
                Some (finish path (recast o) l,
                      mk_registry false (Some (plugins_of g)) (end_process pid (rg_processes g)))
            end
        | _ =>
            Some (finish path (Panic (start_error path r)) l,
                  mk_registry false (rg_plugins g) (end_process pid (rg_processes g)))
        end
    | PcRegistered path pid =>
        match aget path (plugins_of g) with
        | None => Some (finish path (Panic nil_deref) l, g)
        | Some p =>
            match function_map (pl_functions p) [] with
            | Ok m => Some (finish path (Ok m) l, mk_registry false (rg_plugins g) (rg_processes g))
            | o => Some (finish path o l, mk_registry false (rg_plugins g) (end_process pid (rg_processes g)))
            end
        end
    | PcStopping [] r =>
        Some (mk_starter PcIdle (sr_ops l) (sr_results l), mk_registry false None (rg_processes g))
    | PcStopping (path :: rest) r =>
        match aget path (plugins_of g) with
        | None => Some (mk_starter (PcStopping rest r) (sr_ops l) (sr_results l), g)
        | Some p =>
            if pl_locked p then None
            else
              let locked := mk_plugin true (pl_process p) (pl_addr p) (pl_network p) (pl_functions p) in
              let g1 := mk_registry true (Some (rput path locked (plugins_of g))) (rg_processes g) in
              match pl_process p with
              | None => Some (mk_starter (PcStopping rest r) (sr_ops l) (sr_results l), g1)
              | Some pid => Some (mk_starter (PcTerminated path pid rest r) (sr_ops l) (sr_results l), g1)
              end
        end
    | PcTerminated path pid rest r =>
        match aget path (plugins_of g) with
        | None => Some (mk_starter (PcStopping rest r) (sr_ops l) (sr_results l), g)
        | Some p =>
            let gone := mk_plugin false None (pl_addr p) (pl_network p) (pl_functions p) in
            Some (mk_starter (PcStopping rest r) (sr_ops l) (sr_results l),
                  mk_registry true (Some (rput path gone (plugins_of g)))
                    (match r path with
                     | KlError => end_process pid (rg_processes g)  (* :238 *)
                     | KlEnds => end_process pid (rg_processes g)   (* :228, it has ended *)
                     | KlSlow => end_process pid (rg_processes g)   (* :234 *)
                     end))
        end
    end.
End Steps.

(** A session before any plugin has been started, /repo/session/session.go:97. *)
Definition no_plugins : registry := mk_registry false None [].
(** Goroutines that have done nothing yet. *)
Definition starters (opss : list (list plugin_op)) : list starter :=
  map (fun ops => mk_starter PcIdle ops []) opss.

(** *** Calls *)

(** A hexadecimal digit, as url.QueryEscape of Go writes it; called by
    url.Values.Encode at /repo/session/pluginloader.go:334. *)
Definition hex (n : nat) : ascii :=
  chr (if (n <? 10)%nat then 48 + n else 55 + n).

(** The characters that url.QueryEscape keeps (/repo/session/pluginloader.go:334):
    letters, digits and - _ . ~ *)
Definition unreserved (c : ascii) : bool :=
  let n := nat_of_ascii c in
  (((65 <=? n) && (n <=? 90)) || ((97 <=? n) && (n <=? 122)) || ((48 <=? n) && (n <=? 57)) ||
   (n =? 45) || (n =? 95) || (n =? 46) || (n =? 126))%nat.

(** url.QueryEscape, called by Encode at /repo/session/pluginloader.go:334. *)
Fixpoint query_escape (s : string) : string :=
  match s with
  | EmptyString => EmptyString
  | String c r =>
      let t := query_escape r in
      if unreserved c then String c t
      else if ceq c " " then String "+" t
      else String "%" (String (hex (nat_of_ascii c / 16)) (String (hex (nat_of_ascii c mod 16)) t))
  end.

(** Sorting by name, as url.Values.Encode does (/repo/session/pluginloader.go:334). *)
Fixpoint insert_value (x : string * string) (l : list (string * string)) : list (string * string) :=
  match l with
  | [] => [x]
  | y :: r => match String.compare (fst x) (fst y) with Gt => y :: insert_value x r | _ => x :: l end
  end.

(** url.Values.Encode, /repo/session/pluginloader.go:334.  The values are a list of
    names that differ, each with one value: params.Add is called once for each
    name (:290, :304, :315). *)
Definition encode_values (vs : list (string * string)) : string :=
  join "&" (map (fun x => query_escape (fst x) ++ "=" ++ query_escape (snd x))%string (fold_right insert_value [] vs)).

(** What the server of a plugin replies, as http.Client gives it at
    /repo/session/pluginloader.go:345-369: no reply (an error), or a status with
    the body, which may fail to be read. *)
Inductive http_reply : Type :=
| NoReply (e : string)
| Reply (code : Z) (status : string) (body : string + string).

(** Go's libraries: url.Parse of a URL and its text up to the query
    (/repo/session/pluginloader.go:325-328; a name with a question mark or a number sign
    is not modelled), net.Dial with network and address together with
    client.Get (:337-345), streamer.UnmarshalJSON (:357), the JSON of options
    (:313-315) and of a key (:289). *)
Record transport : Type := mk_transport {
  tr_parse : string -> outcome string;
  tr_get : string -> string -> string -> http_reply;
  tr_json : string -> outcome value;
  tr_options : entries -> string;
  tr_key : list value -> string
}.

(** callPlugin, /repo/session/pluginloader.go:320-369. *)
Definition call_plugin (t : transport) (p : plugin) (kind name : string) (params : list (string * string)) : outcome (option value) :=
  let host := if String.eqb (pl_network p) "unix" then pl_network p else pl_addr p in
  match tr_parse t ("http://" ++ host ++ "/" ++ kind ++ "/" ++ name) with
  | Ok ad =>
      let us := match params with [] => ad | _ => ad ++ "?" ++ encode_values params end in
      match tr_get t (pl_network p) (pl_addr p) us with
      | NoReply e => Panic (EStr e)
      | Reply code status body =>
          if Z.eqb code 200 then
            match body with
            | inl b => obind (tr_json t b) (fun v => Ok (Some v))
            | inr e => Panic (EErr e)
            end
          else if Z.eqb code 404 then Ok None
          else Panic (EErr (match body with inl b => us ++ " " ++ status ++ ": " ++ b | inr _ => us ++ " " ++ status end))
      end
  | o => recast o
  end%string.

(** makeOptions, /repo/session/pluginloader.go:309-318. *)
Definition make_options (t : transport) (opts : entries) : list (string * string) :=
  match opts with
  | [] => []
  | _ => [("options", trim_space (tr_options t opts))]
  end.

(** The key a function of a plugin is called with: an array of parts for
    data_dig, nothing for data_hash, and a string for lookup_key,
    /repo/session/pluginloader.go:287, :296 and :302. *)
Inductive call_key : Type :=
| KeyParts (l : list value)
| KeyNone
| KeyText (s : string).

(** The dispatch functions, /repo/session/pluginloader.go:286-307: a call of the
    function [name] that functionMap has made with the kind [k]. *)
Definition call_function (t : transport) (p : plugin) (k : fkind) (name : string) (opts : entries) (key : call_key) : outcome (option value) :=
  match k, key with
  | FDig, KeyParts l => call_plugin t p "data_dig" name (make_options t opts ++ [("key", tr_key t l)])
  | FHash, KeyNone => call_plugin t p "data_hash" name (make_options t opts)
  | FKey, KeyText s => call_plugin t p "lookup_key" name (make_options t opts ++ [("key", s)])
  | _, _ => Panic bad_assert
  end.

(** A call of a function of a plugin by its name, after functionMap
    (/repo/session/pluginloader.go:265-284) has made them. *)
Definition call_by_name (t : transport) (p : plugin) (name : string) (opts : entries) (key : call_key) : outcome (option value) :=
  obind (function_map (pl_functions p) []) (fun m =>
    match aget name m with
    | Some k => call_function t p k name opts key
    | None => Ok None
    end).

(** *** The environment of a plugin *)

(** getUnixSocketDir, /repo/session/pluginloader.go:113-121; [tmp] is os.TempDir(). *)
Definition socket_dir (tmp : string) (opts : entries) : string :=
  match mgets "unixSocketDir" opts with
  | Some (VStr s) => s
  | _ => if String.eqb tmp "" then "/tmp" else tmp
  end.

(** getDefaultPluginTransport, /repo/session/plugintransport.go:5-7 and
    /repo/session/plugintransport_windows.go:14-19: unix, except for a Windows that
    has no such sockets. *)
Definition default_transport (unix_sockets : bool) : string := if unix_sockets then "unix" else "tcp".

(** getPluginTransport, /repo/session/pluginloader.go:124-135. *)
Definition plugin_transport (unix_sockets : bool) (opts : entries) : string :=
  match mgets "pluginTransport" opts with
  | Some (VStr s) => if String.eqb s "unix" || String.eqb s "tcp" then s else default_transport unix_sockets
  | _ => default_transport unix_sockets
  end.

(** initCmd, /repo/session/pluginloader.go:197-205: the environment of the process;
    [cookie] is the text of hiera.MagicCookie. *)
Definition plugin_env (env : list string) (cookie tmp : string) (unix_sockets : bool) (opts : entries) : list string :=
  env ++ [String.append "HIERA_MAGIC_COOKIE=" cookie] ++ [String.append "HIERA_PLUGIN_SOCKET_DIR=" (socket_dir tmp opts)]
      ++ [String.append "HIERA_PLUGIN_TRANSPORT=" (plugin_transport unix_sockets opts)].
