(** What a timer-callback facility should do, without arrays or modular time.
    Callbacks are numbers, deadlines are unbounded instants. *)
Require Import ZArith List Bool Sorting.Sorted.
Import ListNotations.
Open Scope Z_scope.

(** The pending callbacks with their deadlines, in the order they will run. *)
Definition queue : Type := list (Z * Z).

Definition q_remove (id : Z) (q : queue) : queue := filter (fun e => negb (fst e =? id)) q.

(** Insert behind everything that is due no later. *)
Fixpoint q_insert (e : Z * Z) (q : queue) : queue :=
  match q with
  | [] => [e]
  | f :: r => if snd e <? snd f then e :: q else f :: q_insert e r
  end.

Definition q_schedule (id t : Z) (q : queue) : queue := q_insert (id, t) (q_remove id q).

Definition in_order (q : queue) : Prop := Sorted (fun a b => snd a <= snd b) q.

(** A history of what was requested and what ran. *)
Inductive happening : Type :=
| Requested (id deadline : Z)      (* schedule_callback *)
| Ran (id now : Z).                (* the callback function was called *)

(** Deadline pending for [id] after a history (most recent happening first). *)
Fixpoint pending (h : list happening) (id : Z) : option Z :=
  match h with
  | [] => None
  | Requested i t :: h' => if i =? id then Some t else pending h' id
  | Ran i _ :: h' => if i =? id then None else pending h' id
  end.

(** Deadlines close enough for the 32-bit comparison: less than half a period apart. *)
Definition close (a b : Z) : Prop := - 2 ^ 31 <= a - b < 2 ^ 31.

(** Every run in the history was of a pending callback, not before its deadline, and
    no other callback was due earlier.  (Most recent happening first.) *)
Fixpoint runs_ok (h : list happening) : Prop :=
  match h with
  | [] => True
  | Requested _ _ :: h' => runs_ok h'
  | Ran id now :: h' => runs_ok h' /\
      exists d, pending h' id = Some d /\ d <= now /\ forall j u, pending h' j = Some u -> d <= u
  end.
