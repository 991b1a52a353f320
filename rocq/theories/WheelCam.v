(** A turning missing-tooth wheel with a cam pulse every second turn: the specification for C75. *)
Require Import ZArith List.
From Verif Require Import Word Decoder Wheel.
Import ListNotations.
Open Scope Z_scope.

(** The cam pulse comes, once every two turns, between tooth [m] and the next one for every tooth number [m]
    that is [x] modulo the 2 * (num - 1) teeth of two turns. *)
Definition cam_after (num x m : Z) : bool := m mod (2 * (num - 1)) =? x.

(** Tooth number [m] and the cam pulse that may follow it; [ct m] is the tick of that pulse. *)
Definition tooth_pulse (num : Z) (f : Z -> Z) (m : Z) : dev := Trigger 0 (w32 (tooth_time num f m)).
Definition cam_pulse (num x : Z) (ct : Z -> Z) (m : Z) : list dev := if cam_after num x m then [Trigger 1 (w32 (ct m))] else [].

(** The pulses of the [n] teeth from number [s] on, each followed by its cam pulse. *)
Definition wheel_cam (num x : Z) (f ct : Z -> Z) (s : Z) (n : nat) : list dev :=
  flat_map (fun j => tooth_pulse num f (s + Z.of_nat j) :: cam_pulse num x ct (s + Z.of_nat j)) (seq 0 n).

(** The first cam pulse at or after tooth [g] is the one behind tooth [c0]. *)
Definition is_first_cam (num x g c0 : Z) : Prop :=
  cam_after num x c0 = true /\ g <= c0 /\ forall m, g <= m -> cam_after num x m = true -> c0 <= m.

(** The first tooth of the turn tooth [m] belongs to. *)
Definition turn_start (num m : Z) : Z := (num - 1) * (m / (num - 1)).
