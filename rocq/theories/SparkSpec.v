(** What C84 and C85 say: one spark and one injection per engine cycle, each at its angle and with its length. *)
Require Import ZArith Reals List Bool.
From Verif Require Import CrankSpec.
Import ListNotations.
Open Scope R_scope.

(** The crank turns by [dpt] degrees in [q] ticks; an engine cycle is 720 degrees. *)
Definition cycle_ticks (dpt q : R) : R := 720 * q / dpt.

(** How many ticks off a spark can be that is aimed at [ahead] ticks before: a few ticks, what the crank takes
    for 1/400 degree, and a part of the time ahead, as in C77. *)
Definition miss (dpt q ahead : R) : R := 7 + q / (400 * dpt) + (4 / q + 3 / speed_of dpt q + / 100000) * ahead.

(** No edge is put into its final place longer before the spark than this: a late call ([late] ticks after
    its tooth), the distance of two teeth, the dwell and the uncertainty of the plan. *)
Definition lookahead (dpt q : R) (late dwell : Z) : R := IZR late + 2 * q + 3 + 4 * IZR dwell + 3 * miss dpt q (11 / 10 * cycle_ticks dpt q).

(** Speeds and settings the claim is for: the dwell is longer than the uncertainty of the final plan (and, if a
    rest between two pulses is asked for, than that of a plan made one cycle ahead), the uncertainty one cycle
    ahead is a small part of the cycle, and dwell, rest, lateness, the distance of the teeth and that uncertainty
    fit into one cycle. *)
Record regime (dpt q : R) (late dwell rest : Z) : Prop := {
  rg_width : / 100 <= dpt; rg_tooth : 16 <= q; rg_speed : 20 <= speed_of dpt q <= 1000000;
  rg_dwell : 2 * miss dpt q (lookahead dpt q late dwell) < 4 * IZR dwell;
  rg_rest : (0 < rest)%Z -> 2 * miss dpt q (11 / 10 * cycle_ticks dpt q) < 4 * IZR dwell;
  rg_plan : miss dpt q (11 / 10 * cycle_ticks dpt q) <= cycle_ticks dpt q / 32;
  rg_fit : lookahead dpt q late dwell + 4 * IZR rest + 513 <= cycle_ticks dpt q;
  rg_slow : cycle_ticks dpt q <= 268435456;
  rg_us : (0 <= dwell <= 16777216)%Z /\ (0 <= rest <= 16777216)%Z /\ (0 <= late)%Z }.

(** The writes to a pin that make pulses (on, off). *)
Definition pulses (inverted : bool) (l : list (Z * Z)) : list (Z * bool) := flat_map (fun ab => [(fst ab, negb inverted); (snd ab, inverted)]) l.

(** At tick [t] plus [before] ticks the crank is at [target] degrees of cycle [j], up to [miss]. *)
Definition at_cycle (dpt tau q : R) (zero : Z) (target : R) (j : Z) (before err : R) (t : Z) : Prop :=
  Rabs (crank_at dpt tau q zero t + dpt / q * before - (target + 720 * IZR j)) <= dpt / q * err.

(** [log], what was written to the pin until tick [now], is one pulse in each cycle from cycle [j0] on:
    it ends when the crank is at [target], is as long as [width] asks, and none is missing or double; the
    last pulse may have been started only, then [len] microseconds before its end is due. *)
Definition pulse_per_cycle (dpt tau q : R) (zero : Z) (target : R) (late len : Z) (width : Z -> Prop) (inverted : bool) (j0 : Z) (now : Z) (log : list (Z * bool)) : Prop :=
  let err := miss dpt q (lookahead dpt q late len) in
  exists l tl, log = pulses inverted l ++ tl /\
    (forall i on off, nth_error l i = Some (on, off) -> at_cycle dpt tau q zero target (j0 + Z.of_nat i) 0 err off /\ width (off - on)%Z) /\
    (tl = [] \/ exists on, tl = [(on, negb inverted)] /\ at_cycle dpt tau q zero target (j0 + Z.of_nat (length l)) (4 * IZR len) err on) /\
    (forall j, (j0 <= j)%Z -> target + 720 * IZR j + dpt / q * miss dpt q (11 / 10 * cycle_ticks dpt q) < crank_at dpt tau q zero now ->
       (j < j0 + Z.of_nat (length l))%Z).

(** A spark: the dwell is as commanded, up to the uncertainty of both edges. *)
Definition spark_per_cycle (dpt tau q : R) (zero : Z) (target : R) (late dwell : Z) : bool -> Z -> Z -> list (Z * bool) -> Prop :=
  pulse_per_cycle dpt tau q zero target late dwell (fun ticks => Rabs (IZR ticks - 4 * IZR dwell) <= 2 * miss dpt q (lookahead dpt q late dwell)).

(** An injection: the pulse is exactly as long as commanded. *)
Definition injection_per_cycle (dpt tau q : R) (zero : Z) (target : R) (late pw : Z) : bool -> Z -> Z -> list (Z * bool) -> Prop :=
  pulse_per_cycle dpt tau q zero target late pw (fun ticks => ticks = (4 * pw)%Z).
