(** What an output pulse scheduler should do, with unbounded time and no hardware.
    Time is divided in blocks of 128 ticks; the hardware plays one block while the
    next one is already final.  [n] is the block being played. *)
Require Import ZArith List Bool.
From Verif Require Import Outputs.
Import ListNotations.
Open Scope Z_scope.

(** An edge and its true time. *)
Record edge : Type := Edge { g_state : sstate; g_time : Z }.
(** A pulse: its turn-on and turn-off edges. *)
Record pulse : Type := Pulse { p_fuel : bool; p_on : edge; p_off : edge }.

(** First tick that is still open for planning while block [n] plays. *)
Definition open_from (n : Z) : Z := 128 * (n + 2).

(** Final edges are those handed to the hardware or already played. *)
Definition final (g : edge) : bool := match g_state g with SUBMITTED | FIRED => true | _ => false end.

(** (Re)plan one edge: only if it is not final and the time is still open. *)
Definition plan (n : Z) (g : edge) (t : Z) : bool * edge :=
  if final g then (false, g) else if t <? open_from n then (false, g) else (true, Edge SCHEDULED t).

(** (Re)plan a pulse.  If the turn-on edge of a fuel pulse stays where it is, the
    turn-off edge is placed so that the width is the requested one. *)
Definition request (n : Z) (p : pulse) (on off : Z) : pulse :=
  match g_state (p_on p), g_state (p_off p) with
  | UNSCHEDULED, UNSCHEDULED =>
    let '(ok, a) := plan n (p_on p) on in
    if ok then Pulse (p_fuel p) a (snd (plan n (p_off p) off)) else p
  | _, _ =>
    let '(ok, a) := plan n (p_on p) on in
    let off' := if negb ok && p_fuel p then g_time (p_on p) + (off - on) else off in
    Pulse (p_fuel p) a (snd (plan n (p_off p) off'))
  end.

Definition unplan (g : edge) : edge :=
  match g_state g with SCHEDULED => Edge UNSCHEDULED (g_time g) | _ => g end.
(** Cancel a pulse whose turn-on edge is not final. *)
Definition cancel (p : pulse) : pulse :=
  match g_state (p_on p) with
  | SCHEDULED => Pulse (p_fuel p) (unplan (p_on p)) (unplan (p_off p))
  | _ => p
  end.
(** Forget a pulse that has been played completely. *)
Definition forget (p : pulse) : pulse :=
  Pulse (p_fuel p) (Edge UNSCHEDULED (g_time (p_on p))) (Edge UNSCHEDULED (g_time (p_off p))).

(** Block [n+1] starts playing: block [n] is done, block [n+2] becomes final. *)
Definition tick_edge (n : Z) (g : edge) : edge :=
  match g_state g with
  | SUBMITTED => if g_time g / 128 =? n then Edge FIRED (g_time g) else g
  | SCHEDULED => if g_time g / 128 =? n + 2 then Edge SUBMITTED (g_time g) else g
  | _ => g
  end.
Definition tick_pulse (n : Z) (p : pulse) : pulse := Pulse (p_fuel p) (tick_edge n (p_on p)) (tick_edge n (p_off p)).

(** Where an edge can be while block [n] plays. *)
Definition edge_ok (n : Z) (g : edge) : Prop :=
  match g_state g with
  | UNSCHEDULED => True
  | SCHEDULED => open_from n <= g_time g < open_from n + 2 ^ 31
  | SUBMITTED => n <= g_time g / 128 <= n + 1
  | FIRED => g_time g / 128 < n
  end.

(** The safety property of a pulse: a turn-on edge that is planned, final or played has its
    turn-off edge, no earlier, still planned, final or played. *)
Definition pulse_safe (p : pulse) : Prop :=
  match g_state (p_on p) with
  | UNSCHEDULED => g_state (p_off p) = UNSCHEDULED
  | SCHEDULED => g_state (p_off p) = SCHEDULED /\ g_time (p_on p) <= g_time (p_off p)
  | SUBMITTED => (g_state (p_off p) = SCHEDULED \/ g_state (p_off p) = SUBMITTED) /\ g_time (p_on p) <= g_time (p_off p)
  | FIRED => g_state (p_off p) <> UNSCHEDULED /\ g_time (p_on p) <= g_time (p_off p)
  end.

(** A request that respects the 32-bit time window: everything it can write lies less
    than 2^31 ticks from the first open tick. *)
Definition in_window (n t : Z) : Prop := - 2 ^ 31 <= t - open_from n < 2 ^ 31.
Definition request_in_window (n : Z) (p : pulse) (on off : Z) : Prop :=
  in_window n on /\ in_window n off /\
  (p_fuel p = true -> g_state (p_on p) <> UNSCHEDULED \/ g_state (p_off p) <> UNSCHEDULED -> in_window n (g_time (p_on p) + (off - on))).

(** The turn-on edge stays where it is under this request. *)
Definition on_is_fixed (n : Z) (p : pulse) (on : Z) : Prop :=
  final (p_on p) = true \/ (g_state (p_on p) = SCHEDULED /\ on < open_from n).

(** A request with the edges in order, also with respect to a turn-on edge that can no
    longer follow. *)
Definition request_in_order (n : Z) (p : pulse) (on off : Z) : Prop :=
  on <= off /\ (p_fuel p = false -> on_is_fixed n p on -> g_time (p_on p) <= off \/ off < open_from n).
