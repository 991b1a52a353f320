(** Accuracy of the conversions between crank angle and time (src/util.c). *)
Require Import ZArith Reals Lia Lra List Bool.
Require Import Coq.Floats.SpecFloat.
From Flocq Require Import Core IEEE754.BinarySingleNaN Relative.
From Verif Require Import Res Word F32 F32Flocq TimeProofs TableProofs.
Open Scope Z_scope.

(** ** Generic tools *)
Lemma fmul_ok x y e : -149 <= e < 128 -> vf x -> vf y -> fin x -> fin y -> (Rabs (R_ x * R_ y) <= bpow radix2 e)%R ->
  R_ (fmul x y) = rnd (R_ x * R_ y) /\ fin (fmul x y).
Proof. intros. apply fmul_correct; auto. now apply (rnd_abs_lt_max _ e). Qed.
Lemma fdiv_ok x y e : -149 <= e < 128 -> vf x -> vf y -> fin x -> fin y -> R_ y <> 0%R -> (Rabs (R_ x / R_ y) <= bpow radix2 e)%R ->
  R_ (fdiv x y) = rnd (R_ x / R_ y) /\ fin (fdiv x y).
Proof. intros. apply fdiv_correct; auto. now apply (rnd_abs_lt_max _ e). Qed.
Lemma fadd_ok x y e : -149 <= e < 128 -> vf x -> vf y -> fin x -> fin y -> (Rabs (R_ x + R_ y) <= bpow radix2 e)%R ->
  R_ (fadd x y) = rnd (R_ x + R_ y) /\ fin (fadd x y).
Proof. intros. apply fadd_correct; auto. now apply (rnd_abs_lt_max _ e). Qed.
Lemma fsub_ok x y e : -149 <= e < 128 -> vf x -> vf y -> fin x -> fin y -> (Rabs (R_ x - R_ y) <= bpow radix2 e)%R ->
  R_ (fsub x y) = rnd (R_ x - R_ y) /\ fin (fsub x y).
Proof. intros. apply fsub_correct; auto. now apply (rnd_abs_lt_max _ e). Qed.

(** Unit roundoff. *)
Definition ur : R := (/ 16777216)%R.
Lemma ur_b2 : b2 (-24) = ur.
Proof. unfold b2, ur. simpl. lra. Qed.

(** Relative error of one rounding of a number that is not tiny. *)
Lemma rnd_rel x : (/ 1000000000000000000000000000000 <= Rabs x)%R -> (Rabs (rnd x - x) <= ur * Rabs x)%R.
Proof.
  intros H. change fexp32 with (FLT_exp (-149) 24). rewrite <- ur_b2.
  replace (b2 (-24)) with (/ 2 * bpow radix2 (-24 + 1))%R by (unfold b2; simpl; lra).
  apply relative_error_N_FLT; [reflexivity|]. eapply Rle_trans; [|exact H]. simpl. lra.
Qed.
Lemma rnd_pos_bounds x : (/ 1000000000000000000000000000000 <= x)%R -> (x * (1 - ur) <= rnd x <= x * (1 + ur))%R.
Proof.
  intros H. pose proof (rnd_rel x) as K. rewrite Rabs_pos_eq in K by lra. specialize (K H).
  apply Rabs_le_inv in K. lra.
Qed.
Lemma rnd_nonneg_upper x : (0 <= x)%R -> (rnd x <= x * (1 + ur) + b2 (-150))%R.
Proof.
  intros H. pose proof (rnd_err x) as K. rewrite ur_b2, (Rabs_pos_eq x) in K by lra. apply Rabs_le_inv in K. lra.
Qed.

Lemma Ztrunc_pos_bounds x : (0 <= x)%R -> (x - 1 < IZR (Ztrunc x) <= x)%R /\ 0 <= Ztrunc x.
Proof.
  intros H. rewrite Ztrunc_floor by auto. pose proof (Zfloor_lb x). pose proof (Zfloor_ub x). split; [lra|].
  apply Zfloor_lub. simpl. lra.
Qed.

(** ** The constant TICKRATE / 6 *)
Lemma ratio_val : exists m e, tick_degree_rpm_ratio = S754_finite false m e /\ Z.pos m = 10666667 /\ e = -4.
Proof. eexists _, _. split; [vm_compute; reflexivity|]. split; reflexivity. Qed.
Lemma ratio_R : (R_ tick_degree_rpm_ratio = 10666667 / 16)%R.
Proof.
  destruct ratio_val as (m & e & -> & Em & ->). unfold R_, SF2R, F2R. simpl. rewrite Em. lra.
Qed.
Lemma ratio_vf : vf tick_degree_rpm_ratio.
Proof. unfold tick_degree_rpm_ratio. auto with vf. Qed.
Lemma ratio_fin : fin tick_degree_rpm_ratio.
Proof. destruct ratio_val as (m & e & -> & _). reflexivity. Qed.

(** Ticks per degree. *)
Lemma tpd_spec rpm : 1 <= rpm <= 2 ^ 24 ->
  let q := fdiv tick_degree_rpm_ratio (f_of_Z rpm) in
  vf q /\ fin q /\ (2000000 / 3 / IZR rpm * (1 - 2 * ur) <= R_ q <= 2000000 / 3 / IZR rpm * (1 + 2 * ur))%R.
Proof.
  intros H q. destruct (f_of_Z_exact rpm) as [A F]; [lia|].
  assert (H1 : (1 <= IZR rpm <= 16777216)%R) by (split; apply IZR_le; lia).
  assert (I : (0 < / IZR rpm <= 1)%R).
  { split; [apply Rinv_0_lt_compat; lra|]. rewrite <- Rinv_1. apply Rinv_le; lra. }
  assert (I2 : (/ 16777216 <= / IZR rpm)%R) by (apply Rinv_le; lra).
  destruct (fdiv_ok tick_degree_rpm_ratio (f_of_Z rpm) 20) as [B G]; auto using ratio_vf, ratio_fin with vf; try lia.
  - rewrite A. lra.
  - rewrite ratio_R, A. unfold Rdiv. rewrite Rabs_pos_eq by nra. simpl. nra.
  - fold q in B, G. split; [unfold q; auto using ratio_vf with vf|]. split; auto.
    rewrite B, ratio_R, A.
    pose proof (rnd_pos_bounds (10666667 / 16 / IZR rpm)) as K. unfold Rdiv in *.
    assert (K' : (/ 1000000000000000000000000000000 <= 10666667 * / 16 * / IZR rpm)%R) by nra.
    specialize (K K'). unfold ur in *. split; nra.
Qed.

(** ** time_from_rpm_diff *)
Lemma time_from_rpm_accuracy rpm deg : 1 <= rpm <= 2 ^ 24 -> vf deg -> fin deg -> (0 <= R_ deg <= 720)%R ->
  exists t, time_from_rpm_diff rpm deg = Ok t /\ 0 <= t <= 480000000 + 200 /\
    let x := (2000000 / 3 * R_ deg / IZR rpm)%R in (Rabs (IZR t - x) <= 1 + x / 4194304)%R.
Proof.
  intros H V F D. destruct (tpd_spec rpm H) as (Vq & Fq & Bq). unfold time_from_rpm_diff.
  set (q := fdiv tick_degree_rpm_ratio (f_of_Z rpm)) in *.
  assert (H1 : (1 <= IZR rpm <= 16777216)%R) by (split; apply IZR_le; lia).
  assert (I : (0 < / IZR rpm <= 1)%R).
  { split; [apply Rinv_0_lt_compat; lra|]. rewrite <- Rinv_1. apply Rinv_le; lra. }
  unfold Rdiv in Bq. set (r := (/ IZR rpm)%R) in *.
  assert (Q : (0 <= R_ q <= 666667)%R) by (unfold ur in Bq; nra).
  destruct (fmul_ok q deg 30) as [A G]; auto; try lia.
  { rewrite Rabs_pos_eq by nra. simpl. nra. }
  unfold f_to_u32. rewrite f_to_range_fin by exact G. rewrite A.
  set (p := (R_ q * R_ deg)%R) in *.
  set (x := (2000000 / 3 * R_ deg * r)%R).
  assert (X0 : (0 <= x)%R) by (unfold x; apply Rmult_le_pos; nra).
  assert (P : (x * (1 - 2 * ur) <= p <= x * (1 + 2 * ur))%R).
  { unfold p, x. unfold ur in *. split; nra. }
  assert (P0 : (0 <= p)%R) by (unfold p; nra).
  assert (R0 : (0 <= rnd p)%R) by (rewrite <- rnd_0; apply rnd_le; lra).
  destruct (Ztrunc_pos_bounds (rnd p) R0) as [T T0].
  assert (XB : (x <= 480000000)%R).
  { unfold x. assert (R_ deg * r <= 720)%R by nra. nra. }
  pose proof (rnd_nonneg_upper p P0) as U. assert (B0 : (0 < b2 (-150) < / 1000000)%R).
  { split; [apply bpow_gt_0|]. unfold b2. simpl. lra. }
  assert (TB : Ztrunc (rnd p) <= 480000200).
  { apply le_IZR. unfold ur in *. nra. }
  destruct (Z.leb_spec 0 (Ztrunc (rnd p))); [|lia]. destruct (Z.leb_spec (Ztrunc (rnd p)) (W - 1)); [|unfold W in *; lia].
  cbn [andb]. eexists. split; [reflexivity|]. split; [lia|]. cbv zeta.
  change (2000000 / 3 * R_ deg / IZR rpm)%R with x.
  destruct (Rlt_or_le x (/ 2)) as [S|S].
  - assert (E : Ztrunc (rnd p) = 0).
    { assert (Ztrunc (rnd p) < 1) by (apply lt_IZR; unfold ur in *; nra). lia. }
    rewrite E. rewrite Rabs_minus_sym, Rminus_0_r, Rabs_pos_eq by lra. lra.
  - pose proof (rnd_pos_bounds p) as K.
    assert (K' : (/ 1000000000000000000000000000000 <= p)%R) by (unfold ur in *; nra). specialize (K K').
    apply Rabs_le. unfold ur in *. split; nra.
Qed.

Lemma fmul_mono_r q a b : vf q -> vf a -> vf b -> fin q -> fin a -> fin b -> (0 <= R_ q)%R ->
  (Rabs (R_ q * R_ a) <= bpow radix2 100)%R -> (Rabs (R_ q * R_ b) <= bpow radix2 100)%R -> (R_ a <= R_ b)%R ->
  (R_ (fmul q a) <= R_ (fmul q b))%R.
Proof.
  intros. destruct (fmul_ok q a 100) as [A _]; auto; try lia. destruct (fmul_ok q b 100) as [B _]; auto; try lia.
  rewrite A, B. apply rnd_le. now apply Rmult_le_compat_l.
Qed.

Lemma time_from_rpm_mono rpm a b ta tb : 1 <= rpm <= 2 ^ 24 -> vf a -> vf b -> fin a -> fin b -> (0 <= R_ a)%R -> (R_ a <= R_ b <= 720)%R ->
  time_from_rpm_diff rpm a = Ok ta -> time_from_rpm_diff rpm b = Ok tb -> ta <= tb.
Proof.
  intros H Va Vb Fa Fb A0 AB Ea Eb. destruct (tpd_spec rpm H) as (Vq & Fq & Bq). unfold time_from_rpm_diff in *.
  set (q := fdiv tick_degree_rpm_ratio (f_of_Z rpm)) in *.
  assert (H1 : (1 <= IZR rpm <= 16777216)%R) by (split; apply IZR_le; lia).
  assert (I : (0 < / IZR rpm <= 1)%R).
  { split; [apply Rinv_0_lt_compat; lra|]. rewrite <- Rinv_1. apply Rinv_le; lra. }
  unfold Rdiv in Bq. set (r := (/ IZR rpm)%R) in *.
  assert (Q : (0 <= R_ q <= 666667)%R) by (unfold ur in Bq; nra).
  assert (BB : (bpow radix2 30 <= bpow radix2 100)%R) by (apply bpow_le; lia). simpl (bpow radix2 30) in BB.
  assert (Ba : (Rabs (R_ q * R_ a) <= bpow radix2 100)%R) by (rewrite Rabs_pos_eq by nra; nra).
  assert (Bb : (Rabs (R_ q * R_ b) <= bpow radix2 100)%R) by (rewrite Rabs_pos_eq by nra; nra).
  pose proof (fmul_mono_r q a b Vq Va Vb Fq Fa Fb (proj1 Q) Ba Bb (proj1 AB)) as M.
  destruct (fmul_ok q a 100) as [_ Ga]; auto; try lia. destruct (fmul_ok q b 100) as [_ Gb]; auto; try lia.
  unfold f_to_u32 in *. rewrite f_to_range_fin in Ea, Eb by auto.
  destruct (_ && _) in Ea; [|discriminate]. destruct (_ && _) in Eb; [|discriminate].
  injection Ea as <-. injection Eb as <-. now apply Ztrunc_le.
Qed.

(** ** degrees_from_time_diff *)
Lemma degrees_accuracy t rpm : 0 <= t < W -> 1 <= rpm <= 2 ^ 24 ->
  let g := degrees_from_time_diff t rpm in vf g /\ fin g /\
    let x := (3 / 2000000 * IZR t * IZR rpm)%R in (x * (1 - 6 * ur) <= R_ g <= x * (1 + 6 * ur))%R.
Proof.
  intros Ht H g. destruct (tpd_spec rpm H) as (Vq & Fq & Bq). unfold g, degrees_from_time_diff.
  set (q := fdiv tick_degree_rpm_ratio (f_of_Z rpm)) in *.
  assert (H1 : (1 <= IZR rpm <= 16777216)%R) by (split; apply IZR_le; lia).
  assert (I : (0 < / IZR rpm <= 1)%R).
  { split; [apply Rinv_0_lt_compat; lra|]. rewrite <- Rinv_1. apply Rinv_le; lra. }
  assert (I2 : (/ 16777216 <= / IZR rpm)%R) by (apply Rinv_le; lra).
  assert (RI : (/ IZR rpm * IZR rpm = 1)%R) by (apply Rinv_l; lra).
  unfold Rdiv in Bq. set (r := (/ IZR rpm)%R) in *. set (n := IZR rpm) in *.
  assert (Q : (/ 100 <= R_ q <= 666667)%R) by (unfold ur in Bq; nra).
  destruct (f_of_Z_u32 t) as [A F]; [unfold W in *; change (2^64) with (2^32*2^32); lia|].
  assert (T0 : (0 <= IZR t < 4294967296)%R) by (split; [apply IZR_le|apply IZR_lt]; unfold W in *; lia).
  assert (T : (IZR t * (1 - ur) <= R_ (f_of_Z t) <= IZR t * (1 + ur))%R).
  { rewrite A. destruct (Z.eq_dec t 0) as [->|]; [rewrite rnd_0; lra|]. apply rnd_pos_bounds.
    assert (1 <= IZR t)%R by (apply IZR_le; lia). lra. }
  set (ft := R_ (f_of_Z t)) in *.
  assert (IQ : (0 < / R_ q <= 100)%R).
  { split; [apply Rinv_0_lt_compat; lra|]. replace 100%R with (/ / 100)%R by lra. apply Rinv_le; lra. }
  assert (QI : (R_ q * / R_ q = 1)%R) by (apply Rinv_r; lra).
  set (iq := (/ R_ q)%R) in *.
  (* bounds on 1/q *)
  assert (IB : (3 / 2000000 * n * (1 - 2 * ur) <= iq <= 3 / 2000000 * n * (1 + 3 * ur))%R).
  { destruct Bq as [B1 B2]. split.
    - assert (L : (3 / 2000000 * n * (1 - 2 * ur) * R_ q <= 1)%R).
      { apply Rle_trans with (3 / 2000000 * n * (1 - 2 * ur) * (2000000 * / 3 * r * (1 + 2 * ur)))%R.
        - apply Rmult_le_compat_l; [unfold ur; nra|exact B2].
        - replace (3 / 2000000 * n * (1 - 2 * ur) * (2000000 * / 3 * r * (1 + 2 * ur)))%R with ((r * n) * ((1 - 2 * ur) * (1 + 2 * ur)))%R by field.
          rewrite RI. unfold ur. lra. }
      apply Rmult_le_reg_r with (R_ q); [lra|]. rewrite (Rmult_comm iq), QI. exact L.
    - assert (L : (1 <= 3 / 2000000 * n * (1 + 3 * ur) * R_ q)%R).
      { apply Rle_trans with (3 / 2000000 * n * (1 + 3 * ur) * (2000000 * / 3 * r * (1 - 2 * ur)))%R.
        - replace (3 / 2000000 * n * (1 + 3 * ur) * (2000000 * / 3 * r * (1 - 2 * ur)))%R with ((r * n) * ((1 + 3 * ur) * (1 - 2 * ur)))%R by field.
          rewrite RI. unfold ur. lra.
        - apply Rmult_le_compat_l; [unfold ur; nra|exact B1]. }
      apply Rmult_le_reg_r with (R_ q); [lra|]. rewrite (Rmult_comm iq), QI. exact L. }
  assert (FT : (0 <= ft <= 4294967296 * (1 + ur))%R) by (unfold ur in *; nra).
  destruct (fdiv_ok (f_of_Z t) q 64) as [C G]; auto with vf; try lia; [lra| |].
  { fold ft. unfold Rdiv. fold iq. rewrite Rabs_pos_eq by nra. simpl. unfold ur in *. nra. }
  split; [auto with vf|]. split; [exact G|]. cbv zeta. rewrite C. fold ft. change (ft / R_ q)%R with (ft * iq)%R.
  set (x := (3 / 2000000 * IZR t * n)%R).
  destruct (Z.eq_dec t 0) as [->|N].
  - assert (ft = 0)%R as -> by (simpl in T; lra). rewrite Rmult_0_l, rnd_0. unfold x. lra.
  - assert (T1 : (1 <= IZR t)%R) by (apply IZR_le; lia).
    assert (P : (x * (1 - ur) * (1 - 2 * ur) <= ft * iq <= x * (1 + ur) * (1 + 3 * ur))%R).
    { split.
      - apply Rle_trans with ((IZR t * (1 - ur)) * (3 / 2000000 * n * (1 - 2 * ur)))%R; [unfold x; right; ring|].
        apply Rmult_le_compat; try lra; unfold ur; nra.
      - apply Rle_trans with ((IZR t * (1 + ur)) * (3 / 2000000 * n * (1 + 3 * ur)))%R; [|unfold x; right; ring].
        apply Rmult_le_compat; try lra. }
    assert (X0 : (3 / 2000000 <= x)%R) by (unfold x; nra).
    set (y := (ft * iq)%R) in *.
    assert (C1 : (x * (1 - 4 * ur) <= x * (1 - ur) * (1 - 2 * ur))%R).
    { rewrite Rmult_assoc. apply Rmult_le_compat_l; [lra|]. unfold ur. lra. }
    assert (Y0 : (3 / 4000000 <= y)%R).
    { apply Rle_trans with (x * (1 - 4 * ur))%R; [unfold ur; lra|lra]. }
    pose proof (rnd_pos_bounds y) as K. specialize (K ltac:(lra)). split.
    + apply Rle_trans with (y * (1 - ur))%R; [|lra].
      apply Rle_trans with (x * (1 - ur) * (1 - 2 * ur) * (1 - ur))%R.
      * rewrite !Rmult_assoc. apply Rmult_le_compat_l; [lra|]. unfold ur. lra.
      * apply Rmult_le_compat_r; [unfold ur; lra|lra].
    + apply Rle_trans with (y * (1 + ur))%R; [lra|].
      apply Rle_trans with (x * (1 + ur) * (1 + 3 * ur) * (1 + ur))%R.
      * apply Rmult_le_compat_r; [unfold ur; lra|lra].
      * rewrite !Rmult_assoc. apply Rmult_le_compat_l; [lra|]. unfold ur. lra.
Qed.
