(** What C87 says: one spark and one injection per engine cycle while the speed of the crank changes. *)
Require Import ZArith Reals List Bool.
From Verif Require Import CrankSpec SparkSpec.
Import ListNotations.
Open Scope R_scope.

(** The crank moves on and on; it is at position [x], counted in slots of [dpt] degrees, at the (real) tick [p x].
    Slot [i] is captured at the whole tick [f i], at most one tick off. From a cycle and a slot before any
    position to a cycle and a slot after it, the time per slot stays within a part [delta] of some [q]; over the
    whole life of the engine these [q] may be anything from [q1] to [q2]. *)
Record moves (f : Z -> Z) (p : R -> R) (dpt q1 q2 delta : R) : Prop := {
  mv_seen : forall i, Rabs (IZR (f i) - p (IZR i)) <= 1;
  mv_slow : forall x, exists q, q1 <= q <= q2 /\
    forall y z, x - (720 / dpt + 1) <= y -> y <= z -> z <= x + (720 / dpt + 1) ->
      q * (1 - delta) * (z - y) <= p z - p y <= q * (1 + delta) * (z - y) }.

(** The tick at which the crank is at [target] degrees of cycle [j]; degrees are counted from slot [zero]. *)
Definition due (p : R -> R) (dpt : R) (zero : Z) (target : R) (j : Z) : R := p (IZR zero + (target + 720 * IZR j) / dpt).

(** The longest cycle and the shortest one, in ticks. *)
Definition cycle_most (dpt q2 delta : R) : R := (1 + delta) * cycle_ticks dpt q2.
Definition cycle_least (dpt q1 delta : R) : R := (1 - delta) * cycle_ticks dpt q1.

(** How many ticks off an edge can be that is aimed at [ahead] ticks before: a few ticks, what the crank takes
    for 1/200 degree, and a part of the time ahead that grows with the change of the speed. *)
Definition vmiss (dpt q1 q2 delta ahead : R) : R := 7 + q2 / (200 * dpt) + (4 / q1 + 3 / speed_of dpt q2 + 4 * delta + / 100000) * ahead.
(** The uncertainty of a plan made one cycle ahead. *)
Definition vplan (dpt q1 q2 delta : R) : R := vmiss dpt q1 q2 delta (11 / 10 * cycle_most dpt q2 delta).

(** No edge is put into its final place longer before its pulse is due than this. *)
Definition vlook (dpt q1 q2 delta : R) (late len : Z) : R := IZR late + 2 * ((1 + delta) * q2) + 3 + 4 * IZR len + 3 * vplan dpt q1 q2 delta.

(** Speeds and settings the claim is for, as in C84. *)
Record vregime (dpt q1 q2 delta : R) (late len rest : Z) : Prop := {
  vr_width : / 100 <= dpt; vr_tooth : 16 <= q1 <= q2; vr_delta : 0 <= delta;
  vr_fast : speed_of dpt q1 <= 1000000; vr_slow : 20 <= speed_of dpt q2;
  vr_len : 2 * vmiss dpt q1 q2 delta (vlook dpt q1 q2 delta late len) < 4 * IZR len;
  vr_rest : (0 < rest)%Z -> 2 * vplan dpt q1 q2 delta < 4 * IZR len;
  vr_plan : vplan dpt q1 q2 delta <= cycle_least dpt q1 delta / 32;
  vr_fit : vlook dpt q1 q2 delta late len + 4 * IZR rest + 513 <= cycle_least dpt q1 delta;
  vr_long : cycle_most dpt q2 delta <= 268435456;
  vr_us : (0 <= len <= 16777216)%Z /\ (0 <= rest <= 16777216)%Z /\ (0 <= late)%Z }.

(** [log], what was written to the pin until tick [now], is one pulse in each cycle from cycle [j0] on: it ends
    within [err] ticks of the moment it is due, is as long as [width] asks, and none is missing or double; the
    last pulse may have been started only, then [len] microseconds before its end is due. *)
Definition pulse_when_due (at_ : Z -> R) (err plan : R) (len : Z) (width : Z -> Prop) (inverted : bool) (j0 : Z) (now : Z) (log : list (Z * bool)) : Prop :=
  exists l tl, log = pulses inverted l ++ tl /\
    (forall i on off, nth_error l i = Some (on, off) -> Rabs (IZR off - at_ (j0 + Z.of_nat i)%Z) <= err /\ width (off - on)%Z) /\
    (tl = [] \/ exists on, tl = [(on, negb inverted)] /\ Rabs (IZR on + 4 * IZR len - at_ (j0 + Z.of_nat (length l))%Z) <= err) /\
    (forall j, (j0 <= j)%Z -> at_ j + plan < IZR now -> (j < j0 + Z.of_nat (length l))%Z).

(** The first pulse is for one of the first three that are due after the tooth in slot [first]. *)
Definition soon_after (dpt : R) (zero first : Z) (target : R) (j0 : Z) : Prop :=
  dpt * IZR (first - zero) - / 400 <= target + 720 * IZR j0 <= dpt * IZR (first - zero) + 2160 + / 400.
