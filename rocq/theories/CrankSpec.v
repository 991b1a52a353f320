(** A crank that turns at a constant speed, and what it means that an edge is on its angle: the specification
    for C77. *)
Require Import ZArith Reals.
Open Scope R_scope.

(** Slot [i] of the wheel passes the sensor at the (real) tick [tau + q * i]; it is captured at a whole tick
    that is at most one tick off. *)
Definition constant_speed (f : Z -> Z) (tau q : R) : Prop := forall i, Rabs (IZR (f i) - (tau + q * IZR i)) <= 1.

(** The speed in turns per minute: [dpt] degrees in [q] ticks of 1/4000000 s. *)
Definition speed_of (dpt q : R) : R := 60 * 4000000 / q * dpt / 360.

(** The angle of the crank at tick [t], in degrees, counted from slot [zero]. *)
Definition crank_at (dpt tau q : R) (zero t : Z) : R := dpt * ((IZR t - tau) / q - IZR zero).

(** At tick [t] the crank is at [target] degrees of its cycle of 720, up to 1/400 degree, what it turns in
    three ticks, and a part of the angle it turns from the last tooth, at tick [from], to [t]. *)
Definition on_angle (dpt tau q : R) (zero : Z) (target : R) (from t : Z) : Prop :=
  exists k, Rabs (crank_at dpt tau q zero t - (target + 720 * IZR k)) <=
    / 400 + 3 * (dpt / q) + dpt / q * IZR (t - from) * (4 / q + 3 / speed_of dpt q + / 100000).
