(** The output of plugins and what waits for its end: copyErrToLog,
    awaitMetaData, ignoreOut and kill of /repo/session/pluginloader.go. *)

From Coq Require Import String Ascii List Bool Arith.
From Verif Require Import Str Outcome.
Import ListNotations.
Open Scope string_scope.
Open Scope list_scope.

(** *** Copying stderr to the log *)

(** Carriage return. *)
Definition c_cr : ascii := "013"%char.

(** How ReadSlice of bufio ends: with a line, with a full buffer or at the end
    of the input. *)
Inductive slice_end : Type := SlLine | SlFull | SlEof.

(** ReadSlice of bufio for a line break, with a buffer of [n] bytes: what is
    read without the line break, and the rest of the input.  The buffer is
    filled until there is a line break in it, so what comes in one read of the
    pipe does not matter. *)
Fixpoint read_slice (n : nat) (s : string) : string * slice_end * string :=
  match n, s with
  | O, _ => ("", SlFull, s)
  | S _, EmptyString => ("", SlEof, "")
  | S m, String c r =>
      if ceq c c_nl then ("", SlLine, r)
      else let '(l, e, t) := read_slice m r in (String c l, e, t)
  end.

(** A text without the carriage return that it ends with, if it does. *)
Fixpoint drop_cr (s : string) : option string :=
  match s with
  | EmptyString => None
  | String c EmptyString => if ceq c c_cr then Some "" else None
  | String c r => option_map (String c) (drop_cr r)
  end.

(** ReadLine of bufio, /repo/session/pluginloader.go:70: the line or a part of
    it, whether more of it follows, and the rest; [None] is io.EOF. *)
Definition read_line (n : nat) (s : string) : option (string * bool * string) :=
  let '(l, e, t) := read_slice n s in
  match e with
  | SlFull => match drop_cr l with Some l' => Some (l', true, String c_cr t) | None => Some (l, true, t) end
  | SlLine => match drop_cr l with Some l' => Some (l', false, t) | None => Some (l, false, t) end
  | SlEof => if String.eqb l "" then None else Some (l, false, t)
  end.

(** The loop of copyErrToLog, /repo/session/pluginloader.go:65-82: the calls of
    out.Write.  [n] is the size of the buffer, 0x10000.  Simplification: reading
    ends with io.EOF and not with another error. *)
Fixpoint copy_err_to_log (n fuel : nat) (s : string) : outcome (list string) :=
  match fuel with
  | O => NoFuel
  | S f =>
      match read_line n s with
      | None => Ok []
      | Some (line, pfx, t) =>
          omap (fun ws => line :: (if pfx then ws else str1 c_nl :: ws)) (copy_err_to_log n f t)
      end
  end.

(** *** Stopping one plugin *)

(** Where kill is, /repo/session/pluginloader.go:207-240: before terminateProc
    (:221), in the select (:231), in p.wGroup.Wait() (:215), or back. *)
Inductive killer : Type := KlStart | KlSelect | KlDrain | KlBack.

(** The goroutine that waits for the process, /repo/session/pluginloader.go:227-230:
    not started, in process.Wait(), in the send to the channel done, or ended. *)
Inductive reaper : Type := RpNone | RpWait | RpSend | RpEnded.

(** A plugin that is stopped: its process; the other processes that have its
    stdout and stderr open, its children; what was written on stderr and not
    read yet; the log; and the goroutines.  The goroutine of awaitMetaData
    (/repo/session/pluginloader.go:84-94) has ended before a plugin is known. *)
Record stopping : Type := mk_stopping {
  sp_alive : bool;
  sp_others : nat;
  sp_pending : list string;
  sp_log : list string;
  sp_copying : bool;      (* copyErrToLog, :65-82 *)
  sp_ignoring : bool;     (* ignoreOut, :96-105 *)
  sp_killer : killer;
  sp_reaper : reaper
}.

(** What can happen.  The first nine are steps of the program; the others are
    what the plugin and its children do. *)
Inductive stop_event : Type :=
| EvTermFails        (* terminateProc gives an error, and process.Kill(), :221-223 and :238 *)
| EvTermSent         (* terminateProc is done, and the goroutine is started, :226-230 *)
| EvReaped           (* process.Wait() returns, :228 *)
| EvDone             (* done <- true and <-done, :229 and :232 *)
| EvTimeout          (* time.After and process.Kill(), :233-234 *)
| EvCopy             (* some output is read and written to the log, :70-80 *)
| EvCopyEnd          (* io.EOF on stderr, :71-75 *)
| EvIgnoreEnd        (* io.EOF on stdout, :101-103 *)
| EvReturn           (* p.wGroup.Wait() returns, :215 *)
| EvWrite (t : string)
| EvExit
| EvFork
| EvOtherExit.

(** Whether some process has the pipes open. *)
Definition is_open (s : stopping) : bool := sp_alive s || negb (Nat.eqb (sp_others s) 0).

(** One step; [None]: it cannot happen now.  Simplification: process.Kill() ends
    the process at once. *)
Definition stop_step (e : stop_event) (s : stopping) : option stopping :=
  let '(mk_stopping alive others pending log copying ignoring k r) := s in
  match e with
  | EvTermFails => match k with KlStart => Some (mk_stopping false others pending log copying ignoring KlDrain r) | _ => None end
  | EvTermSent => match k with KlStart => Some (mk_stopping alive others pending log copying ignoring KlSelect RpWait) | _ => None end
  | EvReaped => match r with
                | RpWait => if alive then None else Some (mk_stopping alive others pending log copying ignoring k RpSend)
                | _ => None
                end
  | EvDone => match k, r with
              | KlSelect, RpSend => Some (mk_stopping alive others pending log copying ignoring KlDrain RpEnded)
              | _, _ => None
              end
  | EvTimeout => match k with KlSelect => Some (mk_stopping false others pending log copying ignoring KlDrain r) | _ => None end
  | EvCopy => match pending with
              | w :: p => if copying then Some (mk_stopping alive others p (log ++ [w]) copying ignoring k r) else None
              | [] => None
              end
  | EvCopyEnd => match pending with
                 | [] => if copying && negb (is_open s) then Some (mk_stopping alive others [] log false ignoring k r) else None
                 | _ => None
                 end
  | EvIgnoreEnd => if ignoring && negb (is_open s) then Some (mk_stopping alive others pending log copying false k r) else None
  | EvReturn => match k with
                | KlDrain => if copying || ignoring then None else Some (mk_stopping alive others pending log copying ignoring KlBack r)
                | _ => None
                end
  | EvWrite t => if is_open s then Some (mk_stopping alive others (pending ++ [t]) log copying ignoring k r) else None
  | EvExit => if alive then Some (mk_stopping false others pending log copying ignoring k r) else None
  | EvFork => if is_open s then Some (mk_stopping alive (S others) pending log copying ignoring k r) else None
  | EvOtherExit => match others with S n => Some (mk_stopping alive n pending log copying ignoring k r) | O => None end
  end.

(** Events, one after the other. *)
Fixpoint stop_run (es : list stop_event) (s : stopping) : option stopping :=
  match es with
  | [] => Some s
  | e :: r => match stop_step e s with Some s' => stop_run r s' | None => None end
  end.

(** A plugin that runs, with output not read yet and children, when kill has
    taken its lock, /repo/session/pluginloader.go:208-209. *)
Definition stop_start (others : nat) (pending log : list string) : stopping :=
  mk_stopping true others pending log true true KlStart RpNone.

(** *** Waiting for meta data *)

(** startPlugin in its select, /repo/session/pluginloader.go:174-182, after the
    timeout (:176) or with what came through the channel. *)
Inductive awaiting : Type := AwSelect | AwTimeout | AwGot.
(** awaitMetaData, /repo/session/pluginloader.go:84-94: in Decode, in the send to
    the channel metaCh, or ended. *)
Inductive decoder : Type := DcDecode | DcSend | DcEnded.
(** Decode returns, the value goes through the channel, or the time is up. *)
Inductive meta_event : Type := MeDecoded | MePassed | MeTimeout.

(** One step of startPlugin and awaitMetaData, /repo/session/pluginloader.go:84-94
    and :167-182; the channel has no buffer. *)
Definition meta_step (e : meta_event) (s : awaiting * decoder) : option (awaiting * decoder) :=
  match e, s with
  | MeDecoded, (a, DcDecode) => Some (a, DcSend)
  | MePassed, (AwSelect, DcSend) => Some (AwGot, DcEnded)
  | MeTimeout, (AwSelect, d) => Some (AwTimeout, d)
  | _, _ => None
  end.
(** Events, one after the other. *)
Fixpoint meta_run (es : list meta_event) (s : awaiting * decoder) : option (awaiting * decoder) :=
  match es with
  | [] => Some s
  | e :: r => match meta_step e s with Some s' => meta_run r s' | None => None end
  end.
