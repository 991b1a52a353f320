(** What C88 says: one spark and one injection per engine cycle while the speed changes and the firmware asks for
    another advance and another length with every call. *)
Require Import ZArith Reals List Bool.
From Verif Require Import F32 F32Flocq CrankSpec SparkSpec VarySpec.
Import ListNotations.
Open Scope R_scope.

(** The pulse of cycle [j], due at [target] degrees, is the next one that is due at the call after the tooth in slot [x]. *)
Definition next_due (dpt : R) (zero x : Z) (target : R) (j : Z) : Prop :=
  dpt * IZR (x - zero) - / 400 <= target + 720 * IZR j <= dpt * IZR (x - zero) + 720 + / 400.

(** The commands: call [k], after the tooth in slot [idx k], is told to end the pulse at [target k] degrees and to
    make it [len k] microseconds long.
    - For each cycle [j] there is a place [about j]; all the calls for that cycle aim within [alpha] degrees of
      it, and from one cycle to the next it moves by at most [alpha].
    - The length stays between [len1] and [len2]; if [steady], it changes by at most [dv] microseconds between calls for the same cycle. *)
Record steers (dpt : R) (zero : Z) (idx : Z -> Z) (target : Z -> R) (len : Z -> Z) (about : Z -> R) (alpha : R) (len1 len2 dv : Z) (steady : bool) : Prop := {
  st_about : forall k j, (0 <= k)%Z -> next_due dpt zero (idx k) (target k) j -> Rabs (target k - about j) <= alpha;
  st_drift : forall j, Rabs (about (j + 1)%Z - about j) <= alpha;
  st_len : forall k, (0 <= k)%Z -> (len1 <= len k <= len2)%Z;
  st_steady : steady = true -> forall k k' j, (0 <= k)%Z -> (0 <= k')%Z -> next_due dpt zero (idx k) (target k) j -> next_due dpt zero (idx k') (target k') j -> (len k - len k' <= dv)%Z }.

(** From a call to the next one the advance stays the same, or is retarded by less than the crank turns. *)
Definition retards_slowly (dpt : R) (idx : Z -> Z) (adv : Z -> f32) : Prop := forall k, (0 <= k)%Z ->
  adv (k + 1)%Z = adv k \/ R_ (adv k) - R_ (adv (k + 1)%Z) + / 100 <= dpt * IZR (idx (k + 1)%Z - idx k).

(** The time the crank takes for [alpha] degrees, at most. *)
Definition wander (dpt q2 delta alpha : R) : R := (1 + delta) * q2 * alpha / dpt.
(** The uncertainty of a plan made one cycle ahead, and the longest time from the last adjustment to the pulse. *)
Definition splan (dpt q1 q2 delta alpha : R) (dv : Z) : R := vplan dpt q1 q2 delta + 2 * wander dpt q2 delta alpha + 4 * IZR dv.
Definition slook (dpt q1 q2 delta alpha : R) (late len2 dv : Z) : R := IZR late + 2 * ((1 + delta) * q2) + 3 + 4 * IZR len2 + 3 * splan dpt q1 q2 delta alpha dv.

(** Speeds and settings the claim is for. *)
Record sregime (dpt q1 q2 delta alpha : R) (late len1 len2 dv rest : Z) : Prop := {
  sr_width : / 100 <= dpt; sr_tooth : 16 <= q1 <= q2; sr_delta : 0 <= delta; sr_alpha : 0 <= alpha <= 90;
  sr_fast : speed_of dpt q1 <= 1000000; sr_slow : 20 <= speed_of dpt q2;
  sr_len : 2 * (vmiss dpt q1 q2 delta (slook dpt q1 q2 delta alpha late len2 dv) + 2 * wander dpt q2 delta alpha + 4 * IZR dv) < 4 * IZR len1;
  sr_rest : (0 < rest)%Z -> 2 * splan dpt q1 q2 delta alpha dv < 4 * IZR len1;
  sr_plan : splan dpt q1 q2 delta alpha dv <= cycle_least dpt q1 delta / 32;
  sr_fit : slook dpt q1 q2 delta alpha late len2 dv + 4 * IZR rest + 513 <= cycle_least dpt q1 delta - wander dpt q2 delta alpha;
  sr_long : cycle_most dpt q2 delta + wander dpt q2 delta alpha <= 268435456;
  sr_us : (0 <= len1 <= len2)%Z /\ (len2 <= 16777216)%Z /\ (0 <= rest <= 16777216)%Z /\ (0 <= late)%Z /\ (0 <= dv)%Z }.

(** Call [k] is a call for cycle [j]; its tooth came before [edge], and at most [look] ticks before the pulse is due. *)
Definition call_for (p : R -> R) (dpt : R) (zero : Z) (idx tt : Z -> Z) (target : Z -> R) (look : R) (k j edge : Z) : Prop :=
  (0 <= k)%Z /\ next_due dpt zero (idx k) (target k) j /\ (tt k <= edge)%Z /\ due p dpt zero (target k) j <= IZR (tt k) + look.

(** [log], what was written to the pin until tick [now], is one pulse in each cycle from cycle [j0] on. Its turn-on
    edge is where one call for that cycle wanted it, within [err] ticks. If [exact], the pulse is exactly as
    long as one call for that cycle wanted it; otherwise its turn-off edge is where one call for that cycle
    wanted it, within [err] ticks. None is missing or double; the last one may have been started only. *)
Definition pulse_as_told (p : R -> R) (dpt : R) (zero : Z) (idx tt : Z -> Z) (target : Z -> R) (len : Z -> Z) (about : Z -> R) (look err plan : R) (exact inverted : bool) (j0 now : Z) (log : list (Z * bool)) : Prop :=
  let starts on j := exists k, call_for p dpt zero idx tt target look k j on /\ Rabs (IZR on + 4 * IZR (len k) - due p dpt zero (target k) j) <= err in
  let stops on off j := exists k, call_for p dpt zero idx tt target look k j off /\
    if exact then (off = on + 4 * len k)%Z else Rabs (IZR off - due p dpt zero (target k) j) <= err in
  exists l tl, log = pulses inverted l ++ tl /\
    (forall i on off, nth_error l i = Some (on, off) -> let j := (j0 + Z.of_nat i)%Z in starts on j /\ stops on off j) /\
    (tl = [] \/ exists on, tl = [(on, negb inverted)] /\ starts on (j0 + Z.of_nat (length l))%Z) /\
    (forall j, (j0 <= j)%Z -> due p dpt zero (about j) j + plan < IZR now -> (j < j0 + Z.of_nat (length l))%Z).
