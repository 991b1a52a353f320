(** The event log of the console: a 32-entry ring written by interrupt
    handlers and read by the main loop. *)
Require Import ZArith List Bool.
From Verif Require Import Res Word.
Import ListNotations.
Open Scope Z_scope.

(** console.h 9-19, enum of event types. *)
Definition EVENT_NONE : Z := 0.
Definition EVENT_OUTPUT : Z := 1.
Definition EVENT_GPIO : Z := 2.
Definition EVENT_TRIGGER : Z := 3.

(** console.h 9-19, struct logged_event. *)
Record logged := Logged { lg_time : Z; lg_seq : Z; lg_type : Z; lg_value : Z }.

(** console.c 71 *)
Definition EVENT_LOG_SIZE : Z := 32.

(** console.c 73-79, the static event_log. *)
Record elog := ELog { el_enabled : bool; el_read : Z; el_write : Z; el_seq : Z; el_events : list logged }.

(** console.c 79: everything zero except enabled. *)
Definition no_event : logged := Logged 0 0 EVENT_NONE 0.
Definition elog_init : elog := ELog true 0 0 0 (repeat no_event 32).

(** console.c 81-88, event_log_next_idx. *)
Definition event_log_next_idx (idx : Z) : Z :=
  let idx := w32 (idx + 1) in
  if EVENT_LOG_SIZE <=? idx then 0 else idx.

(** console.c 107-127, console_record_event.  The body runs with interrupts
    disabled (a mutex on the hosted platform), so it is one step.  The [seq]
    field of the argument is overwritten (line 122). *)
Definition console_record_event (ev : logged) (l : elog) : res elog :=
  if negb (el_enabled l) then Ok l else
  let seq := el_seq l in
  let l := ELog (el_enabled l) (el_read l) (el_write l) (w32 (seq + 1)) (el_events l) in
  let read_pos := el_read l in
  let write_pos := el_write l in
  let next_write_pos := event_log_next_idx write_pos in
  if negb (next_write_pos =? read_pos) then
    evs <- put (el_events l) write_pos ev ;;
    e <- get evs write_pos ;;
    evs <- put evs write_pos (Logged (lg_time e) seq (lg_type e) (lg_value e)) ;;
    Ok (ELog (el_enabled l) (el_read l) next_write_pos (el_seq l) evs)
  else Ok l.

(** console.c 90-105, get_logged_event, run by the main loop with interrupts
    enabled: it is cut into steps at each access to shared memory; the copy of
    the entry (line 102) is cut at each of its four fields. *)
Inductive rpc :=
| RIdle                                       (* not in the function *)
| RReadPos (r : Z)                            (* line 91 done *)
| RWritePos (r w : Z)                         (* line 92 done *)
| RTest (r w : Z)                             (* lines 94-96 done *)
| RCopy0 (r : Z)                              (* lines 98-100 done *)
| RCopy1 (r t : Z)                            (* time copied *)
| RCopy2 (r t s : Z)                          (* sequence number copied *)
| RCopy3 (r t s k : Z)                        (* type copied *)
| RCopy4 (r : Z) (e : logged)                 (* value copied *)
| RRet (e : logged).                          (* about to return *)

(** One step of the reader. *)
Definition reader_step (p : rpc) (l : elog) : res (rpc * elog) :=
  match p with
  | RIdle => Ok (RReadPos (el_read l), l)
  | RReadPos r => Ok (RWritePos r (el_write l), l)
  | RWritePos r w => Ok (if negb (el_enabled l) then RRet no_event else RTest r w, l)
  | RTest r w => Ok (if r =? w then RRet no_event else RCopy0 r, l)
  | RCopy0 r => e <- get (el_events l) r ;; Ok (RCopy1 r (lg_time e), l)
  | RCopy1 r t => e <- get (el_events l) r ;; Ok (RCopy2 r t (lg_seq e), l)
  | RCopy2 r t s => e <- get (el_events l) r ;; Ok (RCopy3 r t s (lg_type e), l)
  | RCopy3 r t s k => e <- get (el_events l) r ;; Ok (RCopy4 r (Logged t s k (lg_value e)), l)
  | RCopy4 r e => Ok (RRet e, ELog (el_enabled l) (event_log_next_idx r) (el_write l) (el_seq l) (el_events l))
  | RRet e => Ok (RIdle, l)
  end.

(** console.c 1354-1357: the setting test.event-logging is the flag [enabled],
    written by the main loop, which is then not inside get_logged_event. *)
Definition set_logging (p : rpc) (on : bool) (l : elog) : elog :=
  match p with
  | RIdle => ELog on (el_read l) (el_write l) (el_seq l) (el_events l)
  | _ => l
  end.

(** What happens next: an interrupt handler records an event, the main loop
    makes one step of get_logged_event, or it switches logging on or off. *)
Inductive lact := Record (ev : logged) | Read | Switch (on : bool).

(** What can be observed: an event was recorded; the main loop obtained an
    event (the moment its entry is released, console.c 103); logging was
    switched on or off. *)
Inductive lobs := Recorded (ev : logged) | Received (ev : logged) | Switched (on : bool).

(** Runs of the log under an arbitrary schedule; the second component lists
    what was observed, oldest first. *)
Fixpoint log_run (acts : list lact) (p : rpc) (l : elog) : res (rpc * elog * list lobs) :=
  match acts with
  | [] => Ok (p, l, [])
  | Record ev :: acts =>
    l <- console_record_event ev l ;;
    '(p, l, os) <- log_run acts p l ;; Ok (p, l, Recorded ev :: os)
  | Read :: acts =>
    '(p', l) <- reader_step p l ;;
    '(q, l, os) <- log_run acts p' l ;;
    Ok (q, l, match p with RCopy4 _ e => Received e :: os | _ => os end)
  | Switch on :: acts =>
    '(q, l, os) <- log_run acts p (set_logging p on l) ;;
    Ok (q, l, match p with RIdle => Switched on :: os | _ => os end)
  end.
