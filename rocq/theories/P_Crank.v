(** C77: pulses end at the commanded crank angle. *)
Require Import ZArith Reals List Bool Lia Lra SpecFloat.
From Flocq Require Import Core.
From Verif Require Import Res Word F32 F32Flocq TimeProofs TableProofs AngleProofs PulseProofs RelErr Arr Decoder DecoderProofs DecoderSafe DecoderRun DecoderMissing DecoderAngle DecoderLoss
  Wheel WheelProofs WheelRun WheelAngle P_Wheel WheelCam WheelCamProofs P_WheelCam Outputs RunProofs P_Outputs P_Pulses CrankSpec.
Import ListNotations.
Open Scope Z_scope.
Ltac Zify.zify_post_hook ::= idtac.

(** ** The arithmetic of the delay *)
Lemma ratio_close a b rho : (0 < a <= / 16)%R -> (0 < b <= / 20)%R -> ((1 - 2 * a) * (1 - / 1000000) - b <= rho <= / (1 - 2 * a) * (1 + / 1000000))%R ->
  (0 < rho)%R /\ (Rabs (/ rho - 1) <= 3 * a + 2 * b + / 200000)%R /\ (87 / 100 <= / rho <= 13 / 10)%R.
Proof.
  intros Ha Hb [L U]. set (X := (2 * a + b + / 1000000)%R). set (Y := (3 * a + 2 * b + / 200000)%R).
  assert (LX : (1 - X <= rho)%R) by (unfold X; nra). assert (BX : (0 < X <= 18 / 100)%R) by (unfold X; lra). assert (BY : (0 < Y <= 3 / 10)%R) by (unfold Y; lra).
  assert (P : (0 < rho)%R) by lra. assert (XY : (X * Y <= X * (3 / 10))%R) by (apply Rmult_le_compat_l; lra).
  assert (Hi : (/ rho <= 1 + Y)%R).
  { apply Rmult_le_reg_l with rho; [lra|]. rewrite Rinv_r by lra. apply Rle_trans with ((1 - X) * (1 + Y))%R; [unfold X, Y in *; lra|apply Rmult_le_compat_r; lra]. }
  assert (Lo : ((1 - 2 * a) * (1 - / 1000000) <= / rho)%R).
  { apply Rmult_le_reg_l with rho; [lra|]. rewrite Rinv_r by lra. apply Rle_trans with (/ (1 - 2 * a) * (1 + / 1000000) * ((1 - 2 * a) * (1 - / 1000000)))%R; [apply Rmult_le_compat_r; [apply Rmult_le_pos; lra|lra]|].
    replace (/ (1 - 2 * a) * (1 + / 1000000) * ((1 - 2 * a) * (1 - / 1000000)))%R with ((1 + / 1000000) * (1 - / 1000000))%R by (field; lra). lra. }
  split; [exact P|]. split.
  - apply Rabs_le. unfold Y in *. split; lra.
  - split; lra.
Qed.

Lemma aim w q S r y t gam : (0 < w)%R -> (16 <= q)%R -> S = (2000000 / 3 * w)%R -> (20 <= S)%R ->
  (S * (1 - 2 * / q) <= y <= S * / (1 - 2 * / q))%R -> (y * (1 - 14 * ur) - 1 <= r <= y * (1 + 14 * ur))%R -> (0 <= gam)%R ->
  (Rabs (t - 2000000 / 3 * gam / r) <= 1 + 2000000 / 3 * gam / r / 4194304)%R ->
  (Rabs (w * t - gam) <= 2 * w + w * t * (4 / q + 3 / S + / 100000))%R.
Proof.
  intros Hw Hq HS HS20 Hy Hr Hg Ht. set (a := (/ q)%R) in *. set (b := (/ S)%R).
  assert (A : (0 < a <= / 16)%R) by (unfold a; split; [apply Rinv_0_lt_compat; lra|apply Rinv_le; lra]). assert (B : (0 < b <= / 20)%R) by (unfold b; split; [apply Rinv_0_lt_compat; lra|apply Rinv_le; lra]).
  set (rho := (r * b)%R).
  assert (SB : (S * b = 1)%R) by (unfold b; apply Rinv_r; lra).
  assert (Y : (1 - 2 * a <= y * b <= / (1 - 2 * a))%R).
  { split; [apply Rle_trans with (S * (1 - 2 * a) * b)%R|apply Rle_trans with (S * / (1 - 2 * a) * b)%R]; try (apply Rmult_le_compat_r; lra).
    - replace (S * (1 - 2 * a) * b)%R with (S * b * (1 - 2 * a))%R by ring. rewrite SB. lra.
    - replace (S * / (1 - 2 * a) * b)%R with (S * b * / (1 - 2 * a))%R by ring. rewrite SB. lra. }
  assert (IA : (0 < / (1 - 2 * a))%R) by (apply Rinv_0_lt_compat; lra).
  assert (RB : (y * b * (1 - 14 * ur) - b <= rho <= y * b * (1 + 14 * ur))%R).
  { unfold rho. destruct Hr as [R1 R2]. apply (Rmult_le_compat_r b) in R1; [|lra]. apply (Rmult_le_compat_r b) in R2; [|lra]. split; lra. }
  unfold ur in RB. set (yb := (y * b)%R) in *.
  destruct (ratio_close a b rho A B) as (P & Q1 & Q2).
  { split.
    - apply Rle_trans with (yb * (1 - 14 * / 16777216) - b)%R; [|lra]. apply Rplus_le_compat_r. apply Rmult_le_compat; lra.
    - apply Rle_trans with (yb * (1 + 14 * / 16777216))%R; [lra|]. apply Rmult_le_compat; lra. }
  assert (Pr : (0 < r)%R). { apply Rmult_lt_reg_r with b; [lra|]. unfold rho in P. lra. }
  set (sg := (/ rho)%R) in *.
  assert (E : (w * (2000000 / 3 * gam / r) = gam * sg)%R). { unfold sg, rho, b. rewrite HS. field. split; lra. }
  apply Rabs_le_inv in Ht. apply Rabs_le_inv in Q1. set (x := (2000000 / 3 * gam / r)%R) in *.
  assert (T1 : (w * t - gam * sg <= w + gam * sg / 4194304)%R). { rewrite <- E. replace (w * t - w * x)%R with (w * (t - x))%R by ring. replace (w + w * x / 4194304)%R with (w * (1 + x / 4194304))%R by field. apply Rmult_le_compat_l; lra. }
  assert (T2 : (- (w + gam * sg / 4194304) <= w * t - gam * sg)%R). { rewrite <- E. replace (w * t - w * x)%R with (w * (t - x))%R by ring. replace (- (w + w * x / 4194304))%R with (w * (- (1 + x / 4194304)))%R by field. apply Rmult_le_compat_l; lra. }
  set (eps := (3 * a + 2 * b + / 200000)%R) in *.
  assert (G1 : (gam * sg <= gam * (13 / 10))%R) by (apply Rmult_le_compat_l; lra). assert (G2 : (gam * (87 / 100) <= gam * sg)%R) by (apply Rmult_le_compat_l; lra).
  assert (G3 : (gam * (sg - 1) <= gam * eps)%R) by (apply Rmult_le_compat_l; lra). assert (G4 : (gam * - eps <= gam * (sg - 1))%R) by (apply Rmult_le_compat_l; lra).
  assert (G5 : (gam <= 116 / 100 * (w * t + w))%R) by lra.
  set (z := (w * t)%R) in *.
  assert (Z0 : (0 <= z + w)%R) by lra.
  assert (G6 : (gam * (eps + / 2000000) <= 116 / 100 * (z + w) * (eps + / 2000000))%R) by (apply Rmult_le_compat_r; unfold eps; lra).
  assert (EB : (0 < eps <= 3 / 10)%R) by (unfold eps; lra).
  assert (W1 : (w * (eps + / 2000000) <= w * (4 / 10))%R) by (apply Rmult_le_compat_l; lra).
  assert (Zl : (116 / 100 * z * (eps + / 2000000) <= w * / 2 + z * (4 * a + 3 * b + / 100000))%R).
  { destruct (Rle_dec 0 z) as [Zp|Zn].
    - apply Rle_trans with (z * (4 * a + 3 * b + / 100000))%R; [|lra]. replace (116 / 100 * z * (eps + / 2000000))%R with (z * (116 / 100 * (eps + / 2000000)))%R by ring. apply Rmult_le_compat_l; [lra|]. unfold eps. lra.
    - assert (- w <= z)%R by lra. set (c1 := (116 / 100 * (eps + / 2000000))%R). set (c2 := (4 * a + 3 * b + / 100000)%R). assert (C : (0 <= c2 - c1 <= / 2)%R) by (unfold c1, c2, eps; lra).
      replace (116 / 100 * z * (eps + / 2000000))%R with (z * c1)%R by (unfold c1; ring).
      assert (K : ((- z) * (c2 - c1) <= w * / 2)%R) by (apply Rmult_le_compat; lra). lra. }
  replace (4 / q + 3 / S + / 100000)%R with (4 * a + 3 * b + / 100000)%R by (unfold a, b, Rdiv; ring).
  apply Rabs_le. split; lra.
Qed.

(** ** The decoder's view of the crank *)
(** What the scheduler sees of the decoder (scheduler.c 134-182, 184-238). *)
Definition seen (c : dcfg) (d : dec) : dview := DView (dd_valid d) (dd_rpm d) (dd_tooth_rpm d) (dd_last_time d) (dd_last_angle d) (dc_offset c).

Section crank.
Variable c : dcfg.
Variable f : Z -> Z.
Variables tau q : R.
Variable s : Z.
Notation num := (dc_num c).
Notation dpt := (R_ (dc_dpt c)).
Notation T := (tooth_time (dc_num c) f).
Hypothesis Tu : turning c f s.
Hypothesis CS : constant_speed f tau q.
Hypothesis Hq : (16 <= q)%R.
Hypothesis Hs : (20 <= speed_of dpt q <= 1000000)%R.

Let S := speed_of dpt q.
Let w := (dpt / q)%R.
Let Sw : S = (2000000 / 3 * w)%R. Proof. unfold S, speed_of, w. field. lra. Qed.
Let Bd : (/ 100 <= dpt <= 359)%R. Proof. destruct Tu. intuition. Qed.
Let Hw : (0 < w)%R. Proof. unfold w. apply Rdiv_lt_0_compat; lra. Qed.
Let q_max : (q <= 12000000)%R.
Proof. assert (E : (2000000 / 3 * dpt = S * q)%R) by (rewrite Sw; unfold w; field; lra). assert (20 * q <= S * q)%R by (apply Rmult_le_compat_r; unfold S; lra). lra. Qed.

Lemma interval_range k m : k = 1 \/ k = 2 -> (IZR k * q - 2 <= IZR (f (m + k) - f m) <= IZR k * q + 2)%R /\ 1 <= f (m + k) - f m < W.
Proof.
  intros Hk. pose proof (CS (m + k)) as C1. pose proof (CS m) as C2. apply Rabs_le_inv in C1. apply Rabs_le_inv in C2. rewrite plus_IZR in C1.
  assert (B : (IZR k * q - 2 <= IZR (f (m + k) - f m) <= IZR k * q + 2)%R) by (rewrite minus_IZR; lra). split; [exact B|].
  assert (K : (q <= IZR k * q <= 2 * q)%R) by (destruct Hk as [->| ->]; lra). assert (13 < f (m + k) - f m < 25000000) by (split; apply lt_IZR; lra). unfold W. lia.
Qed.

Lemma tooth_speed n d : after c f s n d -> settled c d -> missing c = true -> first_gap num (dc_required c) s <= s + n - 1 -> exists y, (S * (1 - 2 * / q) <= y <= S * / (1 - 2 * / q))%R /\ (y * (1 - 14 * ur) - 1 <= IZR (dd_tooth_rpm d) <= y * (1 + 14 * ur))%R.
Proof.
  intros [An [L G] Ac As Ay] Se HM Hg. destruct (Ay Hg) as (St & Si & _). set (m := s + n - 1) in *.
  assert (N3 : 3 <= num) by (destruct Tu; lia). pose proof (first_gap_spec num (dc_required c) s N3) as (_ & G2 & _). assert (Hn : 2 <= n) by (destruct Tu; lia).
  apply settled_iff in Se. destruct Se as [[N|E] _]; [rewrite St in N; discriminate|]. unfold missing_tooth_rpm in E. rewrite St, Si in E. cbn [is_sync andb] in E.
  rewrite !G in E by lia. destruct (Z.ltb_spec 0 n); [|lia]. destruct (Z.ltb_spec 1 n); [|lia]. cbn [bind] in E. replace (m - 0) with m in E by ring.
  set (k := if m mod (num - 1) =? 0 then 2 else 1) in E. assert (Hk : k = 1 \/ k = 2) by (unfold k; destruct (_ =? _); auto).
  pose proof (slot_succ num N3 (m - 1)) as SS. replace (m - 1 + 1) with m in SS by ring. change (if m mod (num - 1) =? 0 then 2 else 1) with k in SS.
  destruct (interval_range k (slot num (m - 1)) Hk) as (D1 & D2). rewrite <- SS in D1, D2. fold (tooth_time num f m) in D1, D2. fold (tooth_time num f (m - 1)) in D1, D2.
  rewrite w32_diff in E by lia. set (delta := T m - T (m - 1)) in *.
  assert (Wh : wheel c) by (destruct Tu as [? ? ? (? & ? & ?) ? ? ? ? ?]; split; auto).
  destruct (rpm_accuracy delta (fmul (dc_dpt c) (f_of_Z k)) (IZR k * dpt) 3) as (r & E' & _ & B).
  - unfold W in D2. lia.
  - destruct (dpt_times c k Wh Hk) as (V & F & Ek). split; auto. split; auto. rewrite Ek, Rmult_comm. apply rel_weaken with 0%R; [|lra]. apply rel_refl. destruct Hk as [Hk|Hk]; rewrite Hk; lra.
  - lra.
  - destruct Hk as [Hk|Hk]; rewrite Hk; lra.
  - cbv zeta in B. assert (X : dd_tooth_rpm d = r) by congruence. rewrite X. exists (2000000 / 3 * (IZR k * dpt) / IZR delta)%R. split; [|replace 14%R with (3 + 11)%R by ring; exact B].
    assert (K : (1 <= IZR k)%R) by (destruct Hk as [Hk|Hk]; rewrite Hk; lra).
    set (u := (IZR k * q)%R) in *. assert (U : (q <= u)%R) by (unfold u; apply Rle_trans with (1 * q)%R; [lra|apply Rmult_le_compat_r; lra]).
    assert (D : (0 < IZR delta)%R) by lra. assert (Eu : (2000000 / 3 * (IZR k * dpt) = S * u)%R) by (rewrite Sw; unfold w, u; field; lra). rewrite Eu.
    assert (SU : (0 < S * u)%R) by (apply Rmult_lt_0_compat; unfold S; lra).
    assert (IU : (/ u <= / q)%R) by (apply Rinv_le; lra). assert (IU0 : (0 < / u)%R) by (apply Rinv_0_lt_compat; lra). assert (IQ : (/ q <= / 16)%R) by (apply Rinv_le; lra).
    split.
    + apply Rle_trans with (S * u / (u + 2))%R; [|unfold Rdiv; apply Rmult_le_compat_l; [lra|apply Rinv_le; lra]].
      replace (S * u / (u + 2))%R with (S * (u / (u + 2)))%R by (field; lra). apply Rmult_le_compat_l; [unfold S; lra|].
      apply Rmult_le_reg_r with (u + 2)%R; [lra|]. replace (u / (u + 2) * (u + 2))%R with u by (field; lra).
      apply Rle_trans with ((1 - 2 * / u) * (u + 2))%R; [apply Rmult_le_compat_r; lra|]. replace ((1 - 2 * / u) * (u + 2))%R with (u - 4 * / u)%R by (field; lra). lra.
    + apply Rle_trans with (S * u / (u - 2))%R; [unfold Rdiv; apply Rmult_le_compat_l; [lra|apply Rinv_le; lra]|].
      replace (S * u / (u - 2))%R with (S * / (1 - 2 * / u))%R by (field; lra). apply Rmult_le_compat_l; [unfold S; lra|]. apply Rinv_le; lra.
Qed.

Lemma rpm_bound n d : after c f s n d -> 1 <= n -> first_gap num (dc_required c) s <= s + n - 1 -> 1 <= dd_rpm d <= 2 ^ 24 /\ (S / 2 <= IZR (dd_rpm d) <= 3 / 2 * S)%R.
Proof.
  intros [An [L G] Ac As Ay] Hn Hg. destruct (Ay Hg) as (_ & _ & Ro). set (m := s + n - 1) in *.
  assert (N3 : 3 <= num) by (destruct Tu; lia). destruct Tu as [Tr Tw Tn Td Tt Tm Ts Te To]. destruct (Ts (slot num m)) as (a & b & B1 & B2).
  assert (R : rpm_in dpt (dd_rpm d) a b).
  { apply Ro. split; [exact B1|]. intros i H1 H2. apply B2; [exact H1|]. pose proof (Z.div_mod m (num - 1) ltac:(lia)) as DM. pose proof (Z.mod_pos_bound m (num - 1) ltac:(lia)). unfold slot in *. nia. }
  split; [apply (rpm_in_range dpt (R_ (dc_max_change c)) (dd_rpm d) a b B1 Bd R)|].
  assert (SM : slot num s <= slot num m) by (replace m with (s + (m - s)) by ring; apply slot_mono; [exact N3|lia]).
  specialize (B2 (slot num m) SM ltac:(lia)). destruct (interval_range 1 (slot num m) ltac:(auto)) as (D & _).
  destruct B1 as [C1 C2 C3 C4]. assert (A1 : (16 <= IZR a)%R) by (apply (IZR_le 16); lia). assert (A2 : (IZR (f (slot num m + 1) - f (slot num m)) <= IZR b)%R) by (apply IZR_le; lia).
  assert (A3 : (IZR b <= IZR a * (13 / 10))%R) by (eapply Rle_trans; [exact C4|]; apply Rmult_le_compat_l; lra).
  assert (A4 : (67 / 100 * q <= IZR a)%R) by lra.
  assert (A5 : (IZR b <= 147 / 100 * q)%R). { assert (A6 : (IZR a <= IZR (f (slot num m + 1) - f (slot num m)))%R) by (apply IZR_le; lia). lra. }
  assert (Hs2 : (20 <= S)%R) by exact (proj1 Hs).
  destruct R as [R0 R]. split.
  { assert (Bp : (0 < IZR b)%R) by (assert (IZR a <= IZR b)%R by (apply IZR_le; lia); lra).
    assert (L1 : (S * (100 / 147) <= 2000000 / 3 * dpt / IZR b)%R).
    { apply Rle_trans with (2000000 / 3 * dpt / (147 / 100 * q))%R; [right; rewrite Sw; unfold w; field; lra|]. unfold Rdiv at 1 3. apply Rmult_le_compat_l; [lra|]. apply Rinv_le; lra. }
    unfold ur in R0. set (v := (2000000 / 3 * dpt / IZR b)%R) in *. clearbody v. lra. }
  eapply Rle_trans; [exact R|]. rewrite Sw. unfold w, ur.
  apply Rle_trans with (2000000 / 3 * dpt / (67 / 100 * q) * (1 + 20 * / 16777216))%R.
  - apply Rmult_le_compat_r; [lra|]. unfold Rdiv. apply Rmult_le_compat_l; [lra|]. apply Rinv_le; lra.
  - replace (2000000 / 3 * dpt / (67 / 100 * q))%R with (2000000 / 3 * (dpt / q) * (100 / 67))%R by (field; lra). fold w. lra.
Qed.

End crank.

(** ** What the decoder knows of a crank *)
(** The decoder's last tooth is slot [idx] of the wheel, seen at tick [at_]; its angle counts from slot
    [zero], its speeds are those of a wheel whose slots are [q] ticks apart. *)
Definition tracks (c : dcfg) (tau q : R) (zero idx at_ : Z) (d : dec) : Prop :=
  let dpt := R_ (dc_dpt c) in let S := speed_of dpt q in
  dd_valid d = 1 /\ 1 <= dd_rpm d <= 2 ^ 24 /\ (S / 2 <= IZR (dd_rpm d) <= 3 / 2 * S)%R /\ angle_ok (dd_last_angle d) /\ dd_last_time d = w32 at_ /\
  (Rabs (IZR at_ - (tau + q * IZR idx)) <= 1)%R /\ (exists z, R_ (dd_last_angle d) = (dpt * IZR (idx - zero) - 720 * IZR z)%R) /\
  exists y, (S * (1 - 2 * / q) <= y <= S * / (1 - 2 * / q))%R /\ (y * (1 - 14 * ur) - 1 <= IZR (dd_tooth_rpm d) <= y * (1 + 14 * ur))%R.

Lemma tracks_aim c tau q zero idx last d : (0 < R_ (dc_dpt c))%R -> (16 <= q)%R -> (20 <= speed_of (R_ (dc_dpt c)) q <= 1000000)%R -> tracks c tau q zero idx last d ->
  1 <= dd_tooth_rpm d <= 2 ^ 24 /\
  (forall gam k t target, (0 <= gam)%R -> (Rabs (gam - (target - R_ (dd_last_angle d) + 720 * IZR k)) <= / 400)%R ->
     (Rabs (IZR t - 2000000 / 3 * gam / IZR (dd_tooth_rpm d)) <= 1 + 2000000 / 3 * gam / IZR (dd_tooth_rpm d) / 4194304)%R ->
     on_angle (R_ (dc_dpt c)) tau q zero target last (last + t)) /\
  exists h, time_from_rpm_diff (dd_rpm d) (f_of_Z 180) = Ok h /\ 0 <= h < 2 ^ 29 /\ forall z, (Rabs (R_ (dc_dpt c) / q * IZR z) <= 90)%R -> - 2 ^ 29 <= z <= h.
Proof.
  intros Hd Hq Hs (V & Rp & Rs & Al & Ti & CS & (z & An) & y & Y1 & Y2). cbv zeta in *.
  assert (Wd : (0 < R_ (dc_dpt c) / q)%R) by (apply Rdiv_lt_0_compat; lra).
  assert (SK : (speed_of (R_ (dc_dpt c)) q = 2000000 / 3 * (R_ (dc_dpt c) / q))%R) by (unfold speed_of; field; lra).
  split; [|split].
  - assert (Q : (0 < / q <= / 16)%R) by (split; [apply Rinv_0_lt_compat; lra|apply Rinv_le; lra]). unfold ur in Y2. set (S := speed_of (R_ (dc_dpt c)) q) in *.
    assert (L1 : (S * (7 / 8) <= y)%R) by (apply Rle_trans with (S * (1 - 2 * / q))%R; [apply Rmult_le_compat_l; lra|lra]).
    assert (L2 : (y <= S * (8 / 7))%R) by (apply Rle_trans with (S * / (1 - 2 * / q))%R; [lra|apply Rmult_le_compat_l; [lra|]]; replace (8 / 7)%R with (/ (7 / 8))%R by lra; apply Rinv_le; lra).
    split; apply le_IZR; [lra|]. change (IZR (2 ^ 24)) with 16777216%R. lra.
  - intros gam k t target Hg Ha Ht. set (S := speed_of (R_ (dc_dpt c)) q) in *. set (w := (R_ (dc_dpt c) / q)%R) in *.
    pose proof (aim w q S (IZR (dd_tooth_rpm d)) y (IZR t) gam Wd Hq SK ltac:(lra) Y1 Y2 Hg Ht) as A. exists (k + z). unfold crank_at.
    replace (last + t - last) with t by ring. fold w. fold S. set (e := (IZR last - (tau + q * IZR idx))%R) in *.
    assert (E : (R_ (dc_dpt c) * ((IZR (last + t) - tau) / q - IZR zero) = R_ (dc_dpt c) * IZR (idx - zero) + w * e + w * IZR t)%R).
    { unfold e, w. rewrite plus_IZR, minus_IZR. field. lra. }
    rewrite E. assert (Ce : (- w <= w * e <= w)%R) by (apply Rabs_le_inv in CS; split; [replace (- w)%R with (w * -1)%R by ring|replace w with (w * 1)%R at 2 by ring]; apply Rmult_le_compat_l; lra).
    rewrite plus_IZR. apply Rabs_le_inv in Ha. apply Rabs_le_inv in A. apply Rabs_le. rewrite An in Ha. split; lra.
  - destruct (f_of_Z_exact 180) as [E1 F1]; [cbn; lia|].
    destruct (time_from_rpm_accuracy (dd_rpm d) (f_of_Z 180)) as (h & H3 & H4 & H5); auto using vf_of_Z; [rewrite E1; lra|]. exists h. split; [exact H3|]. split; [lia|].
    intros u Mv. cbv zeta in H5. rewrite E1 in H5. apply Rabs_le_inv in H5.
    set (w := (R_ (dc_dpt c) / q)%R) in *. set (S := speed_of (R_ (dc_dpt c)) q) in *.
    assert (Rp1 : (1 <= IZR (dd_rpm d))%R) by (apply (IZR_le 1); lia).
    assert (Hh : (120 / w * (1 - / 4194304) - 1 <= IZR h)%R).
    { assert (X : (120 / w <= 2000000 / 3 * 180 / IZR (dd_rpm d))%R).
      { apply Rle_trans with (2000000 / 3 * 180 / (3 / 2 * S))%R; [right; rewrite SK; field; lra|]. unfold Rdiv at 1 3. apply Rmult_le_compat_l; [lra|]. apply Rinv_le; lra. }
      set (v := (2000000 / 3 * 180 / IZR (dd_rpm d))%R) in *. lra. }
    assert (Wx : (w <= 3 / 2)%R) by lra. assert (Iw : (2 / 3 <= / w)%R) by (replace (2 / 3)%R with (/ (3 / 2))%R by lra; apply Rinv_le; lra).
    assert (Mv2 : (- (90 / w) <= IZR u <= 90 / w)%R).
    { apply Rabs_le_inv in Mv. set (v := IZR u) in *. split; apply Rmult_le_reg_l with w; auto; [replace (w * - (90 / w))%R with (- 90)%R by (field; lra)|replace (w * (90 / w))%R with 90%R by (field; lra)]; lra. }
    assert (Mv3 : (90 / w <= 4050000)%R). { assert (/ w <= / (3 / 100000))%R by (apply Rinv_le; lra). unfold Rdiv. lra. }
    split; apply le_IZR; [change (IZR (- 2 ^ 29)) with (- 536870912)%R; lra|]. unfold Rdiv in *. lra.
Qed.

(** ** Ignition *)
(** A pulse that is planned and not yet handed to the hardware. *)
Definition pending (o : output) : Prop := e_state (o_start o) = SCHEDULED /\ e_state (o_stop o) = SCHEDULED.

Lemma commit_pending lim o start stop : pending o -> lim <= start -> start <= stop -> stop - lim < 2 ^ 31 ->
  planned_pulse (schedule_output_event_safely (w32 lim) o (w32 start) (w32 stop)) o stop (stop - start).
Proof.
  intros [P1 P2] H1 H2 H3. unfold schedule_output_event_safely, commit_times, event_is_unscheduled, set_pins, with_entries, sched_entry_enable. cbn. rewrite P1, P2. cbn.
  assert (B : forall z, lim <= z -> z - lim < 2 ^ 31 -> time_before (w32 z) (w32 lim) = false).
  { intros z Z1 Z2. change (w32 z) with (z mod W). change (w32 lim) with (lim mod W). rewrite time_before_spec by (unfold HALF; lia). apply Z.ltb_ge. lia. }
  rewrite (B start) by lia. cbn. rewrite (B stop) by lia. cbn. unfold planned_pulse. cbn. replace (stop - (stop - start)) with start by ring. repeat split; auto.
Qed.

Lemma stop_commit E o st0 st : o_type o <> FUEL_EVENT -> let o' := schedule_output_event_safely E o st0 st in e_time (o_stop o') = e_time (o_stop o) \/ e_time (o_stop o') = st.
Proof.
  intros Ty. unfold schedule_output_event_safely, commit_times. assert (F : match o_type (set_pins o) with FUEL_EVENT => true | _ => false end = false) by (unfold set_pins; cbn; destruct (o_type o); congruence).
  destruct (event_is_unscheduled (set_pins o)).
  - destruct (sched_entry_enable E (o_start (set_pins o)) st0) as [[] a]; [|left; reflexivity].
    unfold sched_entry_enable. destruct (_ || _); [left; reflexivity|]. destruct (time_before st E); [left|right]; reflexivity.
  - destruct (sched_entry_enable E (o_start (set_pins o)) st0) as [ok a]. rewrite F, andb_false_r.
    unfold sched_entry_enable. destruct (_ || _); [left; reflexivity|]. destruct (time_before st E); [left|right]; reflexivity.
Qed.

Lemma ignition_stop nd lim mf d o adv dwell r o' : o_type o <> FUEL_EVENT -> schedule_ignition_event nd lim mf d o adv dwell = Ok (r, o') ->
  e_time (o_stop o') = e_time (o_stop o) \/ exists g t, clamp_angle (fadd (fsub (fsub (o_angle o) adv) (dv_last_angle d)) (dv_offset d)) (f_of_Z 720) = Ok g /\ time_from_rpm_diff (dv_tooth_rpm d) g = Ok t /\ e_time (o_stop o') = w32 (dv_last_time d + t).
Proof.
  intros Ty H. unfold schedule_ignition_event in H. destruct (_ || _); [left; congruence|].
  destruct (clamp_angle _ _) as [g|]; [|discriminate]. cbn [bind] in H. destruct (time_from_rpm_diff (dv_tooth_rpm d) g) as [t|] eqn:Et; [|discriminate]. cbn [bind] in H.
  destruct (time_from_us dwell) as [z|]; [|discriminate]. cbn [bind] in H. set (st := w32 (dv_last_time d + t)) in *.
  destruct (recycle nd d o st) as [[o1|]|] eqn:Rc; [| |discriminate]; cbn [bind] in H; [|left; congruence].
  assert (O1 : e_time (o_stop o1) = e_time (o_stop o) /\ o_type o1 = o_type o).
  { unfold recycle in Rc. destruct (event_has_fired o); [|assert (o1 = o) by congruence; subst; auto]. destruct (time_from_rpm_diff (dv_rpm d) _); [|discriminate]. cbn [bind] in Rc. destruct (_ <? _); [discriminate|].
    unfold reset_fired_event in Rc. destruct (c_assert nd _); [|discriminate]. cbn [bind] in Rc. destruct (c_assert nd _); [|discriminate]. cbn [bind] in Rc. assert (X : o1 = with_entries o (with_state (o_start o) UNSCHEDULED) (with_state (o_stop o) UNSCHEDULED)) by congruence. rewrite X. split; reflexivity. }
  destruct O1 as [O1 O2]. destruct (moves_too_far d o1 st) as [far|]; [|discriminate]. cbn [bind] in H. destruct far; [left; congruence|].
  destruct (time_from_us mf) as [z2|]; [|discriminate]. cbn [bind] in H. destruct (_ <? _); [left; congruence|]. assert (X : o' = schedule_output_event_safely lim o1 (w32 (st - z)) st) by congruence.
  destruct (stop_commit lim o1 (w32 (st - z)) st ltac:(congruence)) as [Q|Q]; [left; congruence|]. right. exists g, t. split; [reflexivity|]. split; [exact Et|]. rewrite X. exact Q.
Qed.

Lemma ignition_new nd lim mf d o adv dwell g t last : event_is_unscheduled o = true -> dv_valid d <> 0 -> dv_rpm d <> 0 ->
  clamp_angle (fadd (fsub (fsub (o_angle o) adv) (dv_last_angle d)) (dv_offset d)) (f_of_Z 720) = Ok g -> time_from_rpm_diff (dv_tooth_rpm d) g = Ok t -> dv_last_time d = w32 last ->
  0 <= t < 2 ^ 29 -> 0 <= dwell <= 2 ^ 24 -> 0 <= mf <= 2 ^ 24 -> lim - 2 ^ 29 <= last <= lim + 2 ^ 29 ->
  exists r o', schedule_ignition_event nd (w32 lim) mf d o adv dwell = Ok (r, o') /\
    let stop := last + t in
    if (4 * mf <=? (stop - 4 * dwell - e_time (o_stop o)) mod 2 ^ 32) && (lim <=? stop - 4 * dwell) then r = 1 /\ planned_pulse o' o stop (4 * dwell) else event_is_unscheduled o' = true.
Proof.
  intros U Hv Hr Eg Et El Bt Hd Hm Hl. destruct (unscheduled_not_fired o U) as [NF NS].
  unfold schedule_ignition_event. destruct (Z.eqb_spec (dv_rpm d) 0); [lia|]. destruct (Z.eqb_spec (dv_valid d) 0); [lia|]. cbn [orb].
  rewrite Eg. cbn [bind]. rewrite Et. cbn [bind]. rewrite !time_from_us_exact by lia. cbn [bind].
  unfold recycle, moves_too_far. rewrite NF. cbn [bind]. rewrite NS. cbn [andb bind]. rewrite El.
  assert (E0 : w32 (w32 last + t) = w32 (last + t)) by (unfold w32; apply Zplus_mod_idemp_l). rewrite E0.
  set (stop := last + t). unfold time_diff.
  assert (E1 : w32 (w32 stop - 4 * dwell) = w32 (stop - 4 * dwell)) by (unfold w32; apply Zminus_mod_idemp_l). rewrite E1.
  assert (E2 : (w32 (w32 (stop - 4 * dwell) - e_time (o_stop o))) = (stop - 4 * dwell - e_time (o_stop o)) mod 2 ^ 32) by (unfold w32; apply Zminus_mod_idemp_l). rewrite E2.
  destruct (Z.ltb_spec ((stop - 4 * dwell - e_time (o_stop o)) mod 2 ^ 32) (4 * mf)) as [L|L]; eexists _, _; (split; [reflexivity|]); cbv zeta; fold stop.
  - destruct (Z.leb_spec (4 * mf) ((stop - 4 * dwell - e_time (o_stop o)) mod 2 ^ 32)); [lia|]. exact U.
  - destruct (Z.leb_spec (4 * mf) ((stop - 4 * dwell - e_time (o_stop o)) mod 2 ^ 32)); [|lia]. cbn [andb].
    destruct (whole_pulse lim o stop (4 * dwell) U ltac:(unfold stop; lia) ltac:(lia) ltac:(unfold stop; lia)) as [(Q1 & Q2)|(Q1 & Q2)];
    destruct (Z.leb_spec lim (stop - 4 * dwell)); try lia; auto.
Qed.

Lemma ignition_move nd lim mf d o adv dwell g t last old h : pending o -> dv_valid d <> 0 -> dv_rpm d <> 0 ->
  clamp_angle (fadd (fsub (fsub (o_angle o) adv) (dv_last_angle d)) (dv_offset d)) (f_of_Z 720) = Ok g -> time_from_rpm_diff (dv_tooth_rpm d) g = Ok t -> dv_last_time d = w32 last ->
  time_from_rpm_diff (dv_rpm d) (f_of_Z 180) = Ok h -> e_time (o_stop o) = w32 old ->
  0 <= t < 2 ^ 29 -> 0 <= dwell <= 2 ^ 24 -> 0 <= mf <= 2 ^ 24 -> lim - 2 ^ 29 <= last <= lim + 2 ^ 29 ->
  let stop := last + t in - 2 ^ 29 <= stop - old <= h -> h < 2 ^ 29 -> stop - 4 * dwell < old -> lim <= stop - 4 * dwell ->
  exists o', schedule_ignition_event nd (w32 lim) mf d o adv dwell = Ok (1, o') /\ planned_pulse o' o stop (4 * dwell).
Proof.
  intros [P1 P2] Hv Hr Eg Et El Eh Eo Bt Hd Hm Hl stop Ho Hh Ho2 Hl2.
  unfold schedule_ignition_event. destruct (Z.eqb_spec (dv_rpm d) 0); [lia|]. destruct (Z.eqb_spec (dv_valid d) 0); [lia|]. cbn [orb].
  rewrite Eg. cbn [bind]. rewrite Et. cbn [bind]. rewrite !time_from_us_exact by lia. cbn [bind].
  assert (NF : event_has_fired o = false) by (unfold event_has_fired; rewrite P2; destruct (e_state (o_start o)); reflexivity).
  unfold recycle, moves_too_far. rewrite NF. cbn [bind]. rewrite P2, El, Eo, Eh. cbn [sstate_eqb andb bind].
  assert (E0 : w32 (w32 last + t) = w32 stop) by (unfold w32; apply Zplus_mod_idemp_l). rewrite E0. unfold time_diff.
  assert (E1 : w32 (w32 stop - 4 * dwell) = w32 (stop - 4 * dwell)) by (unfold w32; apply Zminus_mod_idemp_l). rewrite E1.
  assert (WW : forall a b, w32 (w32 a - w32 b) = (a - b) mod 2 ^ 32) by (intros; unfold w32; rewrite <- Zminus_mod; reflexivity). rewrite !WW.
  assert (MV : (if time_before (w32 old) (w32 stop) then Ok (h <? (stop - old) mod 2 ^ 32) else Ok false) = Ok false).
  { change (w32 old) with (old mod W). change (w32 stop) with (stop mod W). rewrite time_before_spec by (unfold HALF; lia). destruct (Z.ltb_spec old stop); [|reflexivity]. rewrite Z.mod_small by lia. f_equal. apply Z.ltb_ge. lia. }
  rewrite MV. cbn [bind].
  assert (M2 : (stop - 4 * dwell - old) mod 2 ^ 32 = stop - 4 * dwell - old + 2 ^ 32).
  { rewrite <- (Z.mod_add _ 1) by lia. rewrite Z.mod_small by lia. ring. }
  rewrite M2. destruct (Z.ltb_spec (stop - 4 * dwell - old + 2 ^ 32) (4 * mf)); [lia|]. eexists. split; [reflexivity|].
  replace (4 * dwell) with (stop - (stop - 4 * dwell)) at 2 by ring. apply commit_pending; [split; auto|lia|lia|unfold stop; lia].
Qed.

(** What the decoder of a synchronised, steadily turning wheel hands to the scheduler. *)
(** The decoder has seen [n] teeth from number [s] on, each with its cam pulse; or the cam pulse of the last
    one, if it has one, is still to come, and it is not the first one the decoder takes. *)
Definition cam_history (num x : Z) (f ct : Z -> Z) (s c0 : Z) (n : nat) (h : list dev) : Prop :=
  h = wheel_cam num x f ct s n \/ exists k, n = S k /\ c0 < s + Z.of_nat k /\ h = wheel_cam num x f ct s k ++ [tooth_pulse num f (s + Z.of_nat k)].

Lemma synced_crank c f ct tau q s x g c0 n h : turning c f s -> dc_type c = MISSING_CAMSYNC -> is_first_gap (dc_num c) (dc_required c) s g -> is_first_cam (dc_num c) x g c0 ->
  0 <= x < 2 * (dc_num c - 1) -> (exists z, R_ (dc_dpt c) = IZR z / 8192)%R -> (IZR (dc_num c) * R_ (dc_dpt c) = 360)%R ->
  constant_speed f tau q -> (16 <= q)%R -> (20 <= speed_of (R_ (dc_dpt c)) q <= 1000000)%R -> cam_history (dc_num c) x f ct s c0 n h ->
  let m := s + Z.of_nat n - 1 in c0 <= m -> g < m ->
  exists d fx, drun c dec_init h = Ok (d, fx) /\ dd_last_angle d = cam_angle c c0 (Z.to_nat (m - c0)) /\
    tracks c tau q (slot (dc_num c) (turn_start (dc_num c) x)) (slot (dc_num c) m) (tooth_time (dc_num c) f m) d.
Proof.
  intros Tu Ty G C Hx D N CS Hq Hs Hh m Hm Hgm.
  destruct (C75_angle_exact c f ct s x g c0 n Tu Ty G C Hx D N Hm) as (d0 & fx0 & z & E0 & Bl & An). fold m in An.
  destruct (turning_cam c f ct s x g c0 Tu Ty G C) as (Eg & Su & Wh & N3 & R & R').
  assert (A0 : dd_last_angle d0 = cam_angle c c0 (Z.to_nat (m - c0))).
  { destruct (R n) as (d' & es & E' & [_ _ _ Fl _ _] & _). assert (X : d' = d0) by congruence. subst d'. unfold last_cam in Fl. fold m in Fl. destruct (Z.ltb_spec m c0); [lia|]. apply Fl. }
  assert (K : exists d fx l, drun c dec_init h = Ok (d, fx) /\ ctracked c f s x c0 (Z.of_nat n) (Some l) d).
  { destruct Hh as [->|(k & -> & Hk & ->)].
    - destruct (R n) as (d & es & E & Ct & _). unfold last_cam in Ct. fold m in Ct. destruct (Z.ltb_spec m c0); [lia|]. eauto.
    - destruct (R' k) as (d & es & e & E & Ct). unfold last_cam in Ct. destruct (Z.ltb_spec (s + Z.of_nat k - 1) c0); [lia|]. replace (Z.of_nat k + 1) with (Z.of_nat (Datatypes.S k)) in Ct by lia. eauto. }
  destruct K as (d & fx & l & E & [A I Se Fl So Ti]). fold m in Fl, So, Ti. rewrite Eg in Hgm. specialize (Ti Hgm).
  destruct Fl as (_ & _ & V & Aa & _).
  assert (Hn : 1 <= Z.of_nat n) by (pose proof (first_gap_spec (dc_num c) (dc_required c) s N3) as (_ & ? & _); destruct Tu; unfold m in Hgm; lia).
  destruct (tooth_speed c f tau q s Tu CS Hq Hs (Z.of_nat n) d A (Se Hn)) as (y & Y1 & Y2); [unfold missing; now rewrite Ty|fold m; lia|].
  destruct (rpm_bound c f tau q s Tu CS Hq Hs (Z.of_nat n) d A Hn) as (Rp & Rs); [fold m; lia|].
  assert (Al : angle_ok (dd_last_angle d)).
  { destruct (drun_cycle c _ dec_init d fx Su Wh (dec_init_dinv c Su) in_cycle_zero E) as (V1 & F1 & B1). split; [auto|]. split; [auto|]. rewrite Rabs_pos_eq; lra. }
  exists d, fx. split; [exact E|]. split; [exact Aa|]. split; [exact V|]. split; [exact Rp|]. split; [exact Rs|]. split; [exact Al|]. split; [exact Ti|]. split; [exact (CS (slot (dc_num c) m))|]. split; [exists z; rewrite Aa, <- A0; exact An|]. exists y. auto.
Qed.

(** The conclusions of C77, for any wheel: [zero] is the slot the decoder's angle counts from, [last] the tick
    of the last tooth. *)
(** The turn-off edge of an ignition output is only ever moved to [stop], at which the crank is on the
    commanded angle. An idle output gets a pulse of the commanded length that ends there, if it can still be
    played and leaves the coil its rest; a pending pulse is moved there whole, if it moves by less than a
    quarter turn and can still be played. *)
Definition spark_on_angle (c : dcfg) (tau q : R) (zero last : Z) (d : dec) : Prop :=
  forall nd lim mf o adv dwell, o_type o = IGNITION_EVENT -> angle_ok (o_angle o) -> angle_ok adv -> 0 <= dwell <= 2 ^ 24 -> 0 <= mf <= 2 ^ 24 -> last - 2 ^ 29 <= lim <= last + 2 ^ 29 ->
  exists stop, on_angle (R_ (dc_dpt c)) tau q zero (R_ (o_angle o) - R_ adv + R_ (dc_offset c)) last stop /\
  (forall r o', schedule_ignition_event nd (w32 lim) mf (seen c d) o adv dwell = Ok (r, o') -> e_time (o_stop o') = w32 stop \/ e_time (o_stop o') = e_time (o_stop o)) /\
  (event_is_unscheduled o = true -> exists r o', schedule_ignition_event nd (w32 lim) mf (seen c d) o adv dwell = Ok (r, o') /\
     if (4 * mf <=? (stop - 4 * dwell - e_time (o_stop o)) mod 2 ^ 32) && (lim <=? stop - 4 * dwell) then r = 1 /\ planned_pulse o' o stop (4 * dwell) else event_is_unscheduled o' = true) /\
  (forall old, pending o -> e_time (o_stop o) = w32 old -> (Rabs (R_ (dc_dpt c) / q * IZR (stop - old)) <= 90)%R -> stop - 4 * dwell < old -> lim <= stop - 4 * dwell ->
     exists o', schedule_ignition_event nd (w32 lim) mf (seen c d) o adv dwell = Ok (1, o') /\ planned_pulse o' o stop (4 * dwell)).

Lemma tracks_spark c tau q zero idx last d : (0 < R_ (dc_dpt c))%R -> (16 <= q)%R -> (20 <= speed_of (R_ (dc_dpt c)) q <= 1000000)%R -> angle_ok (dc_offset c) ->
  tracks c tau q zero idx last d -> spark_on_angle c tau q zero last d.
Proof.
  intros Hd0 Hq Hs Ao Tk. destruct (tracks_aim c tau q zero idx last d Hd0 Hq Hs Tk) as (Tr & Re & h & Eh & Bh & Hh). destruct Tk as (V & Rp & _ & Al & Ti & _).
  intros nd lim mf o adv dwell To Aa Av Hd Hmf Hl.
  destruct (ignition_angle (o_angle o) adv (dd_last_angle d) (dc_offset c) Aa Av Al Ao) as (ga & k & Ega & Vg & Fg & Rg & Kg).
  destruct (time_from_rpm_accuracy (dd_tooth_rpm d) ga Tr Vg Fg ltac:(lra)) as (t & Et & Bt & Kt).
  exists (last + t). split; [|split; [|split]].
  - apply (Re (R_ ga) k t); [lra| |exact Kt].
    replace (R_ (o_angle o) - R_ adv + R_ (dc_offset c) - R_ (dd_last_angle d))%R with (R_ (o_angle o) - R_ adv - R_ (dd_last_angle d) + R_ (dc_offset c))%R by ring. exact Kg.
  - intros r o' H. destruct (ignition_stop nd _ mf (seen c d) o adv dwell r o' ltac:(congruence) H) as [Q|(g' & t' & Q1 & Q2 & Q3)]; [right; exact Q|]. left.
    cbn [seen dv_last_angle dv_offset dv_tooth_rpm dv_last_time] in *. assert (g' = ga) by congruence. subst g'. assert (t' = t) by congruence. subst t'. rewrite Q3, Ti. unfold w32. apply Zplus_mod_idemp_l.
  - intros U. destruct (ignition_new nd lim mf (seen c d) o adv dwell ga t last U) as (r & o' & Q1 & Q2); cbn [seen dv_valid dv_rpm]; auto; try lia. exists r, o'. split; [exact Q1|exact Q2].
  - intros old Po Eo Mv H1 H2. destruct (Hh _ Mv).
    destruct (ignition_move nd lim mf (seen c d) o adv dwell ga t last old h Po) as (o' & Q1 & Q2); cbn [seen dv_valid dv_rpm]; auto; try lia. exists o'. split; [exact Q1|exact Q2].
Qed.

(** A steadily turning missing-tooth wheel with cam sync whose tooth width is a multiple of 1/8192 degree, and
    a decoder that has its position: after every tooth, and after its cam pulse, the turn-off edge (the spark) of an ignition output
    is only ever moved to [stop], at which the crank is at the output's angle less the advance, from the
    decoder's zero (the first tooth of the turn with the cam pulse) shifted by the configured offset. An idle
    output gets a pulse of the commanded length that ends there, if it can still be played and leaves the
    coil its rest; a pending pulse is moved there whole, if it moves by less than a quarter turn and can
    still be played. *)
Theorem C77_spark : forall c f ct tau q s x g c0 n h, turning c f s -> dc_type c = MISSING_CAMSYNC -> is_first_gap (dc_num c) (dc_required c) s g -> is_first_cam (dc_num c) x g c0 ->
  0 <= x < 2 * (dc_num c - 1) -> (exists z, R_ (dc_dpt c) = IZR z / 8192)%R -> (IZR (dc_num c) * R_ (dc_dpt c) = 360)%R ->
  constant_speed f tau q -> (16 <= q)%R -> (20 <= speed_of (R_ (dc_dpt c)) q <= 1000000)%R -> angle_ok (dc_offset c) -> cam_history (dc_num c) x f ct s c0 n h ->
  let m := s + Z.of_nat n - 1 in let last := tooth_time (dc_num c) f m in c0 <= m -> g < m ->
  exists d fx, drun c dec_init h = Ok (d, fx) /\
  spark_on_angle c tau q (slot (dc_num c) (turn_start (dc_num c) x)) last d.
Proof.
  intros c f ct tau q s x g c0 n h Tu Ty G C Hx D N CS Hq Hs Ao Hh m last Hm Hgm.
  destruct (synced_crank c f ct tau q s x g c0 n h Tu Ty G C Hx D N CS Hq Hs Hh Hm Hgm) as (d & fx & E & _ & Tk). exists d, fx. split; [exact E|].
  eapply tracks_spark; eauto. destruct Tu as [? ? ? (? & ? & ?) ? ? ? ? ?]; lra.
Qed.
Print Assumptions C77_spark.

(** ** Injection *)
Lemma fuel_new nd lim now d o pw g t last : event_is_unscheduled o = true -> dv_valid d <> 0 -> dv_rpm d <> 0 ->
  clamp_angle (fadd (fsub (o_angle o) (dv_last_angle d)) (dv_offset d)) (f_of_Z 720) = Ok g -> time_from_rpm_diff (dv_tooth_rpm d) g = Ok t -> dv_last_time d = w32 last ->
  0 <= t < 2 ^ 29 -> 0 <= pw <= 2 ^ 24 -> lim - 2 ^ 29 <= last <= lim + 2 ^ 29 ->
  exists o' cb, schedule_fuel_event nd (w32 lim) now d o pw = Ok (1, o', cb) /\
    let stop := last + t in if lim <=? stop - 4 * pw then planned_pulse o' o stop (4 * pw) else event_is_unscheduled o' = true.
Proof.
  intros U Hv Hr Eg Et El Bt Hd Hl. destruct (unscheduled_not_fired o U) as [NF NS].
  unfold schedule_fuel_event. destruct (Z.eqb_spec (dv_rpm d) 0); [lia|]. destruct (Z.eqb_spec (dv_valid d) 0); [lia|]. cbn [orb].
  rewrite Eg. cbn [bind]. rewrite Et. cbn [bind].
  unfold recycle, moves_too_far. rewrite NF. cbn [bind]. rewrite NS. cbn [andb bind]. rewrite El.
  assert (E0 : w32 (w32 last + t) = w32 (last + t)) by (unfold w32; apply Zplus_mod_idemp_l). rewrite E0. set (stop := last + t).
  assert (E1 : w32 (w32 stop - w32 (4 * pw)) = w32 (stop - 4 * pw)) by (unfold w32; now rewrite Zminus_mod_idemp_l, Zminus_mod_idemp_r). rewrite E1.
  eexists _, _. split; [reflexivity|]. cbv zeta. fold stop.
  destruct (whole_pulse lim o stop (4 * pw) U ltac:(unfold stop; lia) ltac:(lia) ltac:(unfold stop; lia)) as [(Q1 & Q2)|(Q1 & Q2)];
    destruct (Z.leb_spec lim (stop - 4 * pw)); try lia; auto.
Qed.

Lemma fuel_move nd lim now d o pw g t last old h : pending o -> dv_valid d <> 0 -> dv_rpm d <> 0 ->
  clamp_angle (fadd (fsub (o_angle o) (dv_last_angle d)) (dv_offset d)) (f_of_Z 720) = Ok g -> time_from_rpm_diff (dv_tooth_rpm d) g = Ok t -> dv_last_time d = w32 last ->
  time_from_rpm_diff (dv_rpm d) (f_of_Z 180) = Ok h -> e_time (o_stop o) = w32 old ->
  0 <= t < 2 ^ 29 -> 0 <= pw <= 2 ^ 24 -> lim - 2 ^ 29 <= last <= lim + 2 ^ 29 ->
  let stop := last + t in - 2 ^ 29 <= stop - old <= h -> h < 2 ^ 29 -> lim <= stop - 4 * pw ->
  exists o' cb, schedule_fuel_event nd (w32 lim) now d o pw = Ok (1, o', cb) /\ planned_pulse o' o stop (4 * pw).
Proof.
  intros [P1 P2] Hv Hr Eg Et El Eh Eo Bt Hd Hl stop Ho Hh Hl2.
  unfold schedule_fuel_event. destruct (Z.eqb_spec (dv_rpm d) 0); [lia|]. destruct (Z.eqb_spec (dv_valid d) 0); [lia|]. cbn [orb].
  rewrite Eg. cbn [bind]. rewrite Et. cbn [bind].
  assert (NF : event_has_fired o = false) by (unfold event_has_fired; rewrite P2; destruct (e_state (o_start o)); reflexivity).
  unfold recycle, moves_too_far. rewrite NF. cbn [bind]. rewrite P2, El, Eo, Eh. cbn [sstate_eqb andb bind].
  assert (E0 : w32 (w32 last + t) = w32 stop) by (unfold w32; apply Zplus_mod_idemp_l). rewrite E0. unfold time_diff.
  assert (E1 : w32 (w32 stop - w32 (4 * pw)) = w32 (stop - 4 * pw)) by (unfold w32; now rewrite Zminus_mod_idemp_l, Zminus_mod_idemp_r). rewrite E1.
  assert (WW : forall a b, w32 (w32 a - w32 b) = (a - b) mod 2 ^ 32) by (intros; unfold w32; rewrite <- Zminus_mod; reflexivity). rewrite !WW.
  assert (MV : (if time_before (w32 old) (w32 stop) then Ok (h <? (stop - old) mod 2 ^ 32) else Ok false) = Ok false).
  { change (w32 old) with (old mod W). change (w32 stop) with (stop mod W). rewrite time_before_spec by (unfold HALF; lia). destruct (Z.ltb_spec old stop); [|reflexivity]. rewrite Z.mod_small by lia. f_equal. apply Z.ltb_ge. lia. }
  rewrite MV. cbn [bind]. eexists _, _. split; [reflexivity|].
  replace (4 * pw) with (stop - (stop - 4 * pw)) at 2 by ring. apply commit_pending; [split; auto|lia|lia|unfold stop; lia].
Qed.

(** A commit leaves the turn-off edge alone, puts it at the requested time, or - when the turn-on edge could
    not be moved - behind the old turn-on edge by the requested length. *)
Lemma stop_commit_any E o st0 st : let o' := schedule_output_event_safely E o st0 st in
  e_time (o_stop o') = e_time (o_stop o) \/ e_time (o_stop o') = st \/ (event_is_unscheduled o = false /\ e_time (o_start o') = e_time (o_start o) /\ e_time (o_stop o') = w32 (st + w32 (e_time (o_start o) - st0))).
Proof.
  cbv zeta. unfold schedule_output_event_safely, commit_times. replace (event_is_unscheduled (set_pins o)) with (event_is_unscheduled o) by reflexivity.
  destruct (event_is_unscheduled o) eqn:U.
  - destruct (sched_entry_enable E (o_start (set_pins o)) st0) as [[] a]; [|left; reflexivity].
    unfold sched_entry_enable. destruct (_ || _); [left; reflexivity|]. destruct (time_before st E); [left|right; left]; reflexivity.
  - assert (K : sched_entry_enable E (o_start (set_pins o)) st0 = (false, o_start (set_pins o)) \/ exists a, sched_entry_enable E (o_start (set_pins o)) st0 = (true, a)).
    { unfold sched_entry_enable. destruct (_ || _); [auto|]. destruct (time_before st0 E); eauto. }
    assert (K2 : forall t, snd (sched_entry_enable E (o_stop (set_pins o)) t) = o_stop (set_pins o) \/ e_time (snd (sched_entry_enable E (o_stop (set_pins o)) t)) = t).
    { intros t. unfold sched_entry_enable. destruct (_ || _); [auto|]. destruct (time_before t E); auto. }
    destruct K as [->|[a ->]]; cbn [negb andb].
    + destruct (o_type (set_pins o)).
      * specialize (K2 st). destruct (sched_entry_enable _ _ _) as [ok b]. cbn [snd] in K2. destruct K2 as [->|K2]; [left; reflexivity|right; left; exact K2].
      * specialize (K2 (w32 (st + w32 (e_time (o_start (set_pins o)) - st0)))). destruct (sched_entry_enable _ _ _) as [ok b]. cbn [snd] in K2. destruct K2 as [->|K2]; [left; reflexivity|]. right; right. split; [reflexivity|]. split; [reflexivity|]. exact K2.
      * specialize (K2 st). destruct (sched_entry_enable _ _ _) as [ok b]. cbn [snd] in K2. destruct K2 as [->|K2]; [left; reflexivity|right; left; exact K2].
    + specialize (K2 st). destruct (sched_entry_enable _ _ _) as [ok b]. cbn [snd] in K2. destruct K2 as [->|K2]; [left; reflexivity|right; left; exact K2].
Qed.

Lemma wrap_width a s z : w32 (s + w32 (a - w32 (s - w32 z))) = w32 (a + z).
Proof.
  unfold w32. rewrite Zplus_mod_idemp_r, (Zminus_mod_idemp_r s z), Z.add_sub_assoc, Zminus_mod_idemp_r. f_equal. ring.
Qed.

Lemma fuel_stop nd lim now d o pw r o' cb : schedule_fuel_event nd lim now d o pw = Ok (r, o', cb) ->
  e_time (o_stop o') = e_time (o_stop o) \/ exists g t, clamp_angle (fadd (fsub (o_angle o) (dv_last_angle d)) (dv_offset d)) (f_of_Z 720) = Ok g /\ time_from_rpm_diff (dv_tooth_rpm d) g = Ok t /\
    (e_time (o_stop o') = w32 (dv_last_time d + t) \/ (event_is_unscheduled o = false /\ e_time (o_start o') = e_time (o_start o) /\ e_time (o_stop o') = w32 (e_time (o_start o) + 4 * pw))).
Proof.
  intros H. unfold schedule_fuel_event in H. destruct (_ || _); [left; congruence|].
  destruct (clamp_angle _ _) as [g|]; [|discriminate]. cbn [bind] in H. destruct (time_from_rpm_diff (dv_tooth_rpm d) g) as [t|] eqn:Et; [|discriminate]. cbn [bind] in H.
  set (st := w32 (dv_last_time d + t)) in *.
  destruct (recycle nd d o st) as [[o1|]|] eqn:Rc; [| |discriminate]; cbn [bind] in H; [|left; congruence].
  assert (O1 : e_time (o_stop o1) = e_time (o_stop o) /\ e_time (o_start o1) = e_time (o_start o) /\ (event_is_unscheduled o1 = false -> event_is_unscheduled o = false)).
  { unfold recycle in Rc. destruct (event_has_fired o); [|assert (o1 = o) by congruence; subst; auto]. destruct (time_from_rpm_diff (dv_rpm d) _); [|discriminate]. cbn [bind] in Rc. destruct (_ <? _); [discriminate|].
    unfold reset_fired_event in Rc. destruct (c_assert nd _); [|discriminate]. cbn [bind] in Rc. destruct (c_assert nd _); [|discriminate]. cbn [bind] in Rc. assert (X : o1 = with_entries o (with_state (o_start o) UNSCHEDULED) (with_state (o_stop o) UNSCHEDULED)) by congruence. rewrite X. split; [reflexivity|]. split; [reflexivity|]. cbn. discriminate. }
  destruct O1 as (O1 & O2 & O3). destruct (moves_too_far d o1 st) as [far|]; [|discriminate]. cbn [bind] in H. destruct far; [left; congruence|].
  assert (X : o' = schedule_output_event_safely lim o1 (w32 (st - w32 (4 * pw))) st) by congruence. clear H. rewrite X.
  destruct (stop_commit_any lim o1 (w32 (st - w32 (4 * pw))) st) as [Q|[Q|(Q1 & Q2 & Q3)]]; [left; congruence|right; exists g, t; auto..].
  split; [reflexivity|]. split; [exact Et|]. right. split; [auto|]. split; [congruence|]. rewrite Q3, O2. apply wrap_width.
Qed.

(** The same for an injector: its pulse ends at the output's angle. The one other place its end can be moved
    to is behind a turn-on edge that stays where it is, by the commanded opening time. *)
Definition injection_on_angle (c : dcfg) (tau q : R) (zero last : Z) (d : dec) : Prop :=
  forall nd lim now o pw, angle_ok (o_angle o) -> 0 <= pw <= 2 ^ 24 -> last - 2 ^ 29 <= lim <= last + 2 ^ 29 ->
  exists stop, on_angle (R_ (dc_dpt c)) tau q zero (R_ (o_angle o) + R_ (dc_offset c)) last stop /\
  (forall r o' cb, schedule_fuel_event nd (w32 lim) now (seen c d) o pw = Ok (r, o', cb) ->
     e_time (o_stop o') = w32 stop \/ e_time (o_stop o') = e_time (o_stop o) \/ (event_is_unscheduled o = false /\ e_time (o_start o') = e_time (o_start o) /\ e_time (o_stop o') = w32 (e_time (o_start o) + 4 * pw))) /\
  (event_is_unscheduled o = true -> exists o' cb, schedule_fuel_event nd (w32 lim) now (seen c d) o pw = Ok (1, o', cb) /\
     if lim <=? stop - 4 * pw then planned_pulse o' o stop (4 * pw) else event_is_unscheduled o' = true) /\
  (forall old, pending o -> e_time (o_stop o) = w32 old -> (Rabs (R_ (dc_dpt c) / q * IZR (stop - old)) <= 90)%R -> lim <= stop - 4 * pw ->
     exists o' cb, schedule_fuel_event nd (w32 lim) now (seen c d) o pw = Ok (1, o', cb) /\ planned_pulse o' o stop (4 * pw)).

Lemma tracks_injection c tau q zero idx last d : (0 < R_ (dc_dpt c))%R -> (16 <= q)%R -> (20 <= speed_of (R_ (dc_dpt c)) q <= 1000000)%R -> angle_ok (dc_offset c) ->
  tracks c tau q zero idx last d -> injection_on_angle c tau q zero last d.
Proof.
  intros Hd0 Hq Hs Ao Tk. destruct (tracks_aim c tau q zero idx last d Hd0 Hq Hs Tk) as (Tr & Re & h & Eh & Bh & Hh). destruct Tk as (V & Rp & _ & Al & Ti & _).
  intros nd lim now o pw Aa Hd Hl.
  destruct (fuel_angle (o_angle o) (dd_last_angle d) (dc_offset c) Aa Al Ao) as (ga & k & Ega & Vg & Fg & Rg & Kg).
  destruct (time_from_rpm_accuracy (dd_tooth_rpm d) ga Tr Vg Fg ltac:(lra)) as (t & Et & Bt & Kt).
  exists (last + t). split; [|split; [|split]].
  - apply (Re (R_ ga) k t); [lra| |exact Kt].
    replace (R_ (o_angle o) + R_ (dc_offset c) - R_ (dd_last_angle d))%R with (R_ (o_angle o) - R_ (dd_last_angle d) + R_ (dc_offset c))%R by ring. exact Kg.
  - intros r o' cb H. destruct (fuel_stop nd _ now (seen c d) o pw r o' cb H) as [Q|(g' & t' & Q1 & Q2 & Q3)]; [right; left; exact Q|].
    cbn [seen dv_last_angle dv_offset dv_tooth_rpm dv_last_time] in *. assert (g' = ga) by congruence. subst g'. assert (t' = t) by congruence. subst t'.
    destruct Q3 as [Q3|Q3]; [left|right; right; exact Q3]. rewrite Q3, Ti. unfold w32. apply Zplus_mod_idemp_l.
  - intros U. destruct (fuel_new nd lim now (seen c d) o pw ga t last U) as (o' & cb & Q1 & Q2); cbn [seen dv_valid dv_rpm]; auto; try lia. exists o', cb. split; [exact Q1|exact Q2].
  - intros old Po Eo Mv H1. destruct (Hh _ Mv).
    destruct (fuel_move nd lim now (seen c d) o pw ga t last old h Po) as (o' & cb & Q1 & Q2); cbn [seen dv_valid dv_rpm]; auto; try lia. exists o', cb. split; [exact Q1|exact Q2].
Qed.

Theorem C77_injection : forall c f ct tau q s x g c0 n h, turning c f s -> dc_type c = MISSING_CAMSYNC -> is_first_gap (dc_num c) (dc_required c) s g -> is_first_cam (dc_num c) x g c0 ->
  0 <= x < 2 * (dc_num c - 1) -> (exists z, R_ (dc_dpt c) = IZR z / 8192)%R -> (IZR (dc_num c) * R_ (dc_dpt c) = 360)%R ->
  constant_speed f tau q -> (16 <= q)%R -> (20 <= speed_of (R_ (dc_dpt c)) q <= 1000000)%R -> angle_ok (dc_offset c) -> cam_history (dc_num c) x f ct s c0 n h ->
  let m := s + Z.of_nat n - 1 in let last := tooth_time (dc_num c) f m in c0 <= m -> g < m ->
  exists d fx, drun c dec_init h = Ok (d, fx) /\
  injection_on_angle c tau q (slot (dc_num c) (turn_start (dc_num c) x)) last d.
Proof.
  intros c f ct tau q s x g c0 n h Tu Ty G C Hx D N CS Hq Hs Ao Hh m last Hm Hgm.
  destruct (synced_crank c f ct tau q s x g c0 n h Tu Ty G C Hx D N CS Hq Hs Hh Hm Hgm) as (d & fx & E & _ & Tk). exists d, fx. split; [exact E|].
  eapply tracks_injection; eauto. destruct Tu as [? ? ? (? & ? & ?) ? ? ? ? ?]; lra.
Qed.
Print Assumptions C77_injection.

(* The wheel of C75's example, at a constant 1666.67 RPM (4000 ticks for each 10 degrees): the hypotheses hold
   from its first cam pulse on. After tooth 248, which is at 30 degrees, the coil of P_Outputs (180 degrees)
   with 30 degrees of advance is to fire 120 degrees = 48000 ticks later; the decoder's 1666 RPM make it
   48019, i.e. 0.05 degrees late. *)
Example C77_example : constant_speed (fun k => 100000 + 4000 * k) 100000 4000 /\ (20 <= speed_of (R_ (dc_dpt wheel36c)) 4000 <= 1000000)%R /\ angle_ok (dc_offset wheel36c) /\
  (exists z, R_ (dc_dpt wheel36c) = IZR z / 8192)%R /\ (IZR (dc_num wheel36c) * R_ (dc_dpt wheel36c) = 360)%R /\
  exists d fx o', drun wheel36c dec_init (wheel_cam 36 40 (fun k => 100000 + 4000 * k) (fun m => 102000 + 4000 * slot 36 m) 20 229) = Ok (d, fx) /\
    schedule_ignition_event false (w32 1125000) 500 (seen wheel36c d) coil (f_of_Z 30) 2000 = Ok (1, o') /\
    e_time (o_stop o') - tooth_time 36 (fun k => 100000 + 4000 * k) 248 = 48019 /\ e_time (o_stop o') - e_time (o_start o') = 8000.
Proof.
  assert (D : R_ (dc_dpt wheel36c) = 10%R) by (cbn [wheel36c dc_dpt]; destruct (f_of_Z_exact 10) as [E _]; [cbn; lia|exact E]).
  split; [intros i; rewrite plus_IZR, mult_IZR; replace (100000 + 4000 * IZR i - (100000 + 4000 * IZR i))%R with 0%R by ring; rewrite Rabs_R0; lra|].
  split; [rewrite D; unfold speed_of; lra|]. split; [cbn [wheel36c dc_offset]; split; [reflexivity|]; split; [reflexivity|]; unfold R_, f_zero; cbn; rewrite Rabs_R0; lra|].
  split; [exists 81920; rewrite D; lra|]. split; [rewrite D; cbn [wheel36c dc_num]; lra|].
  eexists _, _, _. split; [vm_compute; reflexivity|]. split; [vm_compute; reflexivity|]. split; vm_compute; reflexivity.
Qed.
