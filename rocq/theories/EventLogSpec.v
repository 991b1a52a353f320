(** What the host may rely on, stated over what was recorded and received only. *)
Require Import ZArith List Bool.
From Verif Require Import EventLog.
Import ListNotations.
Open Scope Z_scope.

(** The log can hold this many events. *)
Definition CAPACITY : nat := 31.

(** The events that happen while logging is on ([on] when the history starts). *)
Fixpoint recorded (on : bool) (h : list lobs) : list logged :=
  match h with
  | [] => []
  | Recorded e :: h => if on then e :: recorded on h else recorded on h
  | Received _ :: h => recorded on h
  | Switched b :: h => recorded b h
  end.

(** The events the log keeps in a history, each with its number counted from 0
    over all events that happen while logging is on, kept or not: such an event
    is dropped exactly when 31 kept events have not been received yet.  [n]
    events were numbered and [pending] are kept and not received when the
    history starts. *)
Fixpoint kept (on : bool) (n pending : nat) (h : list lobs) : list (nat * logged) :=
  match h with
  | [] => []
  | Recorded ev :: h =>
    if on then
      if Nat.eqb pending CAPACITY then kept on (S n) pending h else (n, ev) :: kept on (S n) (S pending) h
    else kept on n pending h
  | Received _ :: h => kept on n (pred pending) h
  | Switched b :: h => kept b n pending h
  end.

(** The numbers of the dropped events. *)
Fixpoint dropped (on : bool) (n pending : nat) (h : list lobs) : list nat :=
  match h with
  | [] => []
  | Recorded ev :: h =>
    if on then
      if Nat.eqb pending CAPACITY then n :: dropped on (S n) pending h else dropped on (S n) (S pending) h
    else dropped on n pending h
  | Received _ :: h => dropped on n (pred pending) h
  | Switched b :: h => dropped b n pending h
  end.

(** The received events of a history. *)
Fixpoint received (h : list lobs) : list logged :=
  match h with
  | [] => []
  | Received e :: h => e :: received h
  | _ :: h => received h
  end.

(** All events of a history, logging on or off. *)
Fixpoint happened (h : list lobs) : list logged :=
  match h with
  | [] => []
  | Recorded e :: h => e :: happened h
  | _ :: h => happened h
  end.

(** Whether logging is on after a history. *)
Fixpoint logging (on : bool) (h : list lobs) : bool :=
  match h with
  | [] => on
  | Switched b :: h => logging b h
  | _ :: h => logging on h
  end.

(** Event number [n] as the host sees it: its time, type and value unchanged and
    its number modulo 2^32 as sequence number. *)
Definition numbered (x : nat * logged) : logged :=
  Logged (lg_time (snd x)) (Z.of_nat (fst x) mod 2 ^ 32) (lg_type (snd x)) (lg_value (snd x)).

(** The events of a schedule, the number of steps it gives the main loop, and
    whether it leaves the logging switch alone. *)
Fixpoint events_of (acts : list lact) : list logged :=
  match acts with
  | [] => []
  | Record ev :: acts => ev :: events_of acts
  | _ :: acts => events_of acts
  end.
Fixpoint reads_of (acts : list lact) : nat :=
  match acts with
  | [] => 0
  | Read :: acts => S (reads_of acts)
  | _ :: acts => reads_of acts
  end.
Fixpoint no_switch (acts : list lact) : Prop :=
  match acts with
  | [] => True
  | Switch _ :: _ => False
  | _ :: acts => no_switch acts
  end.
