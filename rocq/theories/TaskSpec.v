(** Specification of the tasks in true time: ticks (4000000 a second) since power-on, never wrapping. *)
Require Import ZArith List.
From Verif Require Import Res Word Tasks.
Import ListNotations.
Open Scope Z_scope.

Definition second : Z := 4000000.

(** A run of the fuel pump task: the three readings of the clock, and the last tooth seen by then. *)
Record prun : Type := PRun { p_a : Z; p_b : Z; p_c : Z; p_tooth : Z }.
(** A tooth within the last second. *)
Definition turning (r : prun) : Prop := p_a r - p_tooth r <= second.
Definition turningb (r : prun) : bool := p_a r - p_tooth r <=? second.
(** When the engine was last found turning; power-on counts. *)
Fixpoint last_turning (h : list prun) : Z :=
  match h with [] => 0 | r :: h => if turningb r then p_b r else last_turning h end.     (* latest run first *)

(** Time does not run backwards, teeth are in the past. *)
Fixpoint in_order (h : list prun) : Prop :=
  match h with
  | [] => True
  | r :: h => p_a r <= p_b r <= p_c r /\ 0 <= p_tooth r <= p_a r /\
      match h with [] => 0 <= p_a r | q :: _ => p_c q <= p_a r /\ p_tooth q <= p_tooth r end /\ in_order h
  end.

(** The code over a history (latest run first): it sees times modulo 2^32. *)
Fixpoint pump_history (h : list prun) : res (Z * Z) :=
  match h with
  | [] => Ok (0, 0)
  | r :: h => ' (_, lv) <- pump_history h ;; handle_fuel_pump (w32 (p_a r)) (w32 (p_b r)) (w32 (p_c r)) (w32 (p_tooth r)) lv
  end.

(** A run of the check engine light task: the readings, and the condition found. *)
Record crun : Type := CRun { l_a : Z; l_b : Z; l_c : Z; l_cond : cel }.
Fixpoint light_order (h : list crun) : Prop :=
  match h with
  | [] => True
  | r :: h => l_a r <= l_b r <= l_c r /\ match h with [] => 0 <= l_a r | q :: _ => l_c q <= l_a r end /\ light_order h
  end.
Fixpoint light_history (h : list crun) : res (Z * (cel * Z)) :=
  match h with
  | [] => Ok (0, (CEL_NONE, 0))
  | r :: h => ' (_, st) <- light_history h ;; handle_check_engine_light (l_cond r) (w32 (l_a r)) (w32 (l_b r)) (w32 (l_c r)) st
  end.
(** The condition that the light shows after a history. *)
Definition shown (h : list crun) (c : cel) : Prop := exists v t, light_history h = Ok (v, (c, t)).
(** Its level at [dt] ticks into the display: steady, or off and on for half a second or a fifth of a second each. *)
Definition light (c : cel) (dt : Z) (v : Z) : Prop :=
  match c with
  | CEL_NONE => v = 0
  | CEL_CONSTANT => v = 1
  | CEL_SLOWBLINK => exists k r, dt = (2 * k + v) * (second / 2) + r /\ 0 <= r < second / 2 /\ (v = 0 \/ v = 1)
  | CEL_FASTBLINK => exists k r, dt = (2 * k + v) * (second / 5) + r /\ 0 <= r < second / 5 /\ (v = 0 \/ v = 1)
  end.
