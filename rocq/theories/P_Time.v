(** Properties C01-C03: util.c. *)
Require Import ZArith Reals Lia Lra Bool.
Require Import Coq.Floats.SpecFloat.
From Flocq Require Import Core.
From Verif Require Import Res Word F32 F32Flocq TimeProofs.
Open Scope Z_scope.

(** Specification: instants are unbounded integers; the hardware counter shows an
    instant modulo 2^32. *)
Definition counter (t : Z) : Z := t mod 2 ^ 32.

(** C01: the comparisons decide the true order of instants, across wrap-around. *)
Theorem C01_time_before : forall a b : Z,
  - 2 ^ 31 <= a - b < 2 ^ 31 -> (time_before (counter a) (counter b) = true <-> a < b).
Proof. intros a b Hab. unfold counter. change (2^32) with W. rewrite time_before_spec by exact Hab. apply Z.ltb_lt. Qed.
Print Assumptions C01_time_before.

Theorem C01_time_before_or_equal : forall a b : Z,
  - 2 ^ 31 <= a - b < 2 ^ 31 -> (time_before_or_equal (counter a) (counter b) = true <-> a <= b).
Proof. intros a b Hab. unfold counter. change (2^32) with W. rewrite time_before_or_equal_spec by exact Hab. apply Z.leb_le. Qed.
Print Assumptions C01_time_before_or_equal.

Theorem C01_time_in_range : forall v t1 t2 : Z,
  t1 <= v < t1 + 2 ^ 32 -> t1 <= t2 < t1 + 2 ^ 32 ->
  (time_in_range (counter v) (counter t1) (counter t2) = true <-> v <= t2).
Proof. intros v t1 t2 Hv Ht. unfold counter. change (2^32) with W. rewrite time_in_range_spec by assumption. apply Z.leb_le. Qed.
Print Assumptions C01_time_in_range.

Theorem C01_time_diff : forall later earlier : Z,
  0 <= later - earlier < 2 ^ 32 -> time_diff (counter later) (counter earlier) = later - earlier.
Proof. exact time_diff_spec. Qed.
Print Assumptions C01_time_diff.

(** The bound is sharp: at a distance of exactly 2^31 the order is inverted. *)
Theorem C01_sharp : exists a b, a - b = 2 ^ 31 /\ time_before (counter a) (counter b) = true.
Proof. exists (2^31), 0. split; reflexivity. Qed.

(* A case on the other side of a wrap: instant 2^32+5 is after instant 2^32-7. *)
Example C01_ex : time_before (counter (2^32 - 7)) (counter (2^32 + 5)) = true
  /\ time_before (counter (2^32 + 5)) (counter (2^32 - 7)) = false
  /\ - 2^31 <= (2^32 - 7) - (2^32 + 5) < 2^31.
Proof. repeat split; try reflexivity; lia. Qed.

(** C02: microseconds to ticks. *)
Theorem C02_exact : forall us, 0 <= us <= 2 ^ 24 -> time_from_us us = Ok (4 * us).
Proof. exact time_from_us_exact. Qed.
Print Assumptions C02_exact.

Theorem C02_approx : forall us, 2 ^ 24 <= us < 2 ^ 30 - 32 ->
  exists t, time_from_us us = Ok t /\ 2 ^ 24 * Z.abs (t - 4 * us) <= 4 * us.
Proof. exact time_from_us_approx. Qed.
Print Assumptions C02_approx.

Theorem C02_undefined : forall us, 2 ^ 30 - 32 <= us < 2 ^ 32 -> time_from_us us = Err FloatToInt.
Proof. exact time_from_us_ub. Qed.
Print Assumptions C02_undefined.

Example C02_ex : time_from_us 5000000 = Ok 20000000 /\ time_from_us 16777217 = Ok 67108864.
Proof. split; vm_compute; reflexivity. Qed.

(** C03: angle normalisation.  [vf]: a well-formed binary32; [fin]: finite. *)
Theorem C03_range : forall a m r, vf a -> vf m -> fin a -> fin m -> flt f_zero m = true ->
  clamp_angle a m = Ok r -> vf r /\ fin r /\ fge r f_zero = true /\ flt r m = true.
Proof. exact clamp_angle_range. Qed.
Print Assumptions C03_range.

Theorem C03_identity : forall a m, fge a f_zero = true -> flt a m = true -> clamp_angle a m = Ok a.
Proof. exact clamp_angle_id. Qed.
Print Assumptions C03_identity.

(** Every angle of magnitude up to 2^23 degrees is normalised in finite time, for
    every cycle length from 1 to 65536 degrees. *)
Theorem C03_terminates : forall a m, vf a -> vf m -> fin a -> fin m ->
  (Rabs (R_ a) <= 8388608)%R -> (1 <= R_ m <= 65536)%R -> exists r, clamp_angle a m = Ok r.
Proof.
  intros a m Va Vm Fa Fm Ha Hm. apply clamp_angle_terminates; auto; simpl bpow; lra.
Qed.
Print Assumptions C03_terminates.

(** On any common binary grid the result is exactly the mathematical remainder. *)
Theorem C03_exact : forall a m i j e,
  vf a -> vf m -> fin a -> fin m -> -149 <= e <= 100 ->
  R_ a = (IZR i * bpow radix2 e)%R -> R_ m = (IZR j * bpow radix2 e)%R ->
  Z.abs i <= 2 ^ 23 -> 0 < j <= 2 ^ 23 ->
  exists r, clamp_angle a m = Ok r /\ vf r /\ fin r /\ R_ r = (IZR (i mod j) * bpow radix2 e)%R.
Proof. exact clamp_angle_grid. Qed.
Print Assumptions C03_exact.

(** Large angles never normalise: after any number of iterations of the C loop body
    the loop condition still holds. *)
Theorem C03_diverges_refuted : exists a, vf a /\ fin a /\
  (forall n, flt (Nat.iter n (fun x => fadd x (f_of_Z 720)) a) f_zero = true)
  /\ clamp_angle a (f_of_Z 720) = Err Diverges.
Proof.
  exists (f_of_Z (- 2 ^ 40)). repeat split; try (vm_compute; reflexivity).
  intros n. assert (E : Nat.iter n (fun x => fadd x (f_of_Z 720)) (f_of_Z (-2^40)) = f_of_Z (-2^40)).
  { induction n; [reflexivity|]. cbn [Nat.iter nat_rect]. unfold Nat.iter in IHn. rewrite IHn. vm_compute. reflexivity. }
  rewrite E. vm_compute. reflexivity.
Qed.
Print Assumptions C03_diverges_refuted.

(* -450 degrees is 270 degrees. *)
Example C03_ex : clamp_angle (f_of_Z (-450)) (f_of_Z 720) = Ok (f_of_Z 270)
  /\ vf (f_of_Z (-450)) /\ fin (f_of_Z (-450)) /\ flt f_zero (f_of_Z 720) = true.
Proof. repeat split; vm_compute; reflexivity. Qed.
