(** A small calculus of relative errors, and the accuracy of the RPM computation. *)
Require Import ZArith Reals Lia Lra Bool.
From Flocq Require Import Core.
From Verif Require Import Res Word F32 F32Flocq TimeProofs TableProofs AngleProofs.
Open Scope R_scope.

(** [a] is [x] up to a relative error of [k] units of roundoff. *)
Definition rel (k a x : R) : Prop := 0 < x /\ 0 <= k <= 1000 /\ x * (1 - k * ur) <= a <= x * (1 + k * ur).

Lemma ur_val : ur = / 16777216. Proof. reflexivity. Qed.
Lemma ur_prod j k : 0 <= j <= 1000 -> 0 <= k <= 1000 -> 0 <= (j * / 16777216) * (k * / 16777216) <= / 16777216.
Proof.
  intros. split; [apply Rmult_le_pos; lra|]. apply Rle_trans with ((1000 * / 16777216) * (1000 * / 16777216)); [apply Rmult_le_compat; lra|lra].
Qed.
Lemma rel_pos k a x : rel k a x -> 0 < a.
Proof. intros (A & B & C & D). rewrite ur_val in *. apply Rlt_le_trans with (x * (1 - k * / 16777216)); auto. apply Rmult_lt_0_compat; lra. Qed.
Lemma rel_refl x : 0 < x -> rel 0 x x.
Proof. intros. repeat split; lra. Qed.
Lemma rel_weaken j k a x : rel j a x -> j <= k <= 1000 -> rel k a x.
Proof.
  intros (A & B & C & D) H. repeat split; auto; try lra; rewrite ur_val in *.
  - eapply Rle_trans; [|exact C]. apply Rmult_le_compat_l; lra.
  - eapply Rle_trans; [exact D|]. apply Rmult_le_compat_l; lra.
Qed.
Lemma rel_rnd k a x : rel k a x -> k <= 900 -> / 100000000000000000000000000000 <= x -> rel (k + 2) (rnd a) x.
Proof.
  intros H K X. pose proof (rel_pos _ _ _ H) as P. destruct H as (A & B & C & D).
  assert (L : / 1000000000000000000000000000000 <= a).
  { eapply Rle_trans; [|exact C]. rewrite ur_val. apply Rle_trans with (x * / 2); [lra|]. apply Rmult_le_compat_l; lra. }
  pose proof (rnd_pos_bounds a L) as [E1 E2]. repeat split; auto; try lra.
  - eapply Rle_trans; [|exact E1]. eapply Rle_trans; [|apply Rmult_le_compat_r; [|exact C]; rewrite ur_val; lra].
    rewrite ur_val. rewrite Rmult_assoc. pose proof (ur_prod k 1 ltac:(lra) ltac:(lra)). apply Rmult_le_compat_l; lra.
  - eapply Rle_trans; [exact E2|]. eapply Rle_trans; [apply Rmult_le_compat_r; [|exact D]; rewrite ur_val; lra|].
    rewrite ur_val. rewrite Rmult_assoc. pose proof (ur_prod k 1 ltac:(lra) ltac:(lra)). apply Rmult_le_compat_l; lra.
Qed.
Lemma rel_mul j k a b x y : rel j a x -> rel k b y -> j + k + 1 <= 1000 -> rel (j + k + 1) (a * b) (x * y).
Proof.
  intros Ha Hb K. pose proof (rel_pos _ _ _ Ha). pose proof (rel_pos _ _ _ Hb). destruct Ha as (A1 & A2 & A3 & A4), Hb as (B1 & B2 & B3 & B4).
  assert (0 < x * y) by now apply Rmult_lt_0_compat. pose proof (ur_prod j k ltac:(lra) ltac:(lra)). rewrite ur_val in *. repeat split; auto; try lra; rewrite ?ur_val.
  - apply Rle_trans with ((x * (1 - j * / 16777216)) * (y * (1 - k * / 16777216))).
    + replace (x * (1 - j * / 16777216) * (y * (1 - k * / 16777216))) with ((x * y) * ((1 - j * / 16777216) * (1 - k * / 16777216))) by ring.
      apply Rmult_le_compat_l; lra.
    + apply Rmult_le_compat; auto; apply Rmult_le_pos; lra.
  - apply Rle_trans with ((x * (1 + j * / 16777216)) * (y * (1 + k * / 16777216))).
    + apply Rmult_le_compat; auto; lra.
    + replace (x * (1 + j * / 16777216) * (y * (1 + k * / 16777216))) with ((x * y) * ((1 + j * / 16777216) * (1 + k * / 16777216))) by ring.
      apply Rmult_le_compat_l; lra.
Qed.
Lemma rel_inv k a x : rel k a x -> k <= 900 -> rel (k + 1) (/ a) (/ x).
Proof.
  intros H K. pose proof (rel_pos _ _ _ H) as P. destruct H as (A & B & C & D). rewrite ur_val in *.
  assert (0 < / x) by now apply Rinv_0_lt_compat. repeat split; auto; try lra; rewrite ur_val.
  - apply Rmult_le_reg_r with a; auto. rewrite Rinv_l by lra.
    eapply Rle_trans; [apply Rmult_le_compat_l; [|exact D]; apply Rmult_le_pos; lra|].
    replace (/ x * (1 - (k + 1) * / 16777216) * (x * (1 + k * / 16777216))) with ((/ x * x) * ((1 - (k + 1) * / 16777216) * (1 + k * / 16777216))) by ring.
    rewrite Rinv_l by lra. pose proof (ur_prod k (k+1) ltac:(lra) ltac:(lra)). lra.
  - apply Rmult_le_reg_r with a; auto. rewrite Rinv_l by lra.
    eapply Rle_trans; [|apply Rmult_le_compat_l; [|exact C]; apply Rmult_le_pos; lra].
    replace (/ x * (1 + (k + 1) * / 16777216) * (x * (1 - k * / 16777216))) with ((/ x * x) * ((1 + (k + 1) * / 16777216) * (1 - k * / 16777216))) by ring.
    rewrite Rinv_l by lra. pose proof (ur_prod k (k+1) ltac:(lra) ltac:(lra)). lra.
Qed.
Lemma rel_div j k a b x y : rel j a x -> rel k b y -> j + k + 2 <= 900 -> rel (j + k + 2) (a / b) (x / y).
Proof.
  intros Ha Hb K. pose proof Ha as (_ & ? & _). pose proof Hb as (_ & ? & _). pose proof (rel_inv _ _ _ Hb ltac:(lra)) as Hi.
  replace (j + k + 2) with (j + (k + 1) + 1) by ring. apply rel_mul; auto. lra.
Qed.

Lemma rel_of_Z z : (1 <= z < 2 ^ 33)%Z -> vf (f_of_Z z) /\ fin (f_of_Z z) /\ rel 2 (R_ (f_of_Z z)) (IZR z).
Proof.
  intros H. assert (P : 1 <= IZR z) by (apply IZR_le; lia). split; [apply vf_of_Z|].
  destruct (f_of_Z_u32 z) as [E F]; [change (2 ^ 64)%Z with (2 ^ 33 * 2 ^ 31)%Z; lia|]. split; auto.
  rewrite E. replace 2 with (0 + 2) by ring. apply rel_rnd; [apply rel_refl; lra|lra|lra].
Qed.

(** Float operations on positive numbers of ordinary size. *)
Definition sane_mag (x : R) : Prop := / 1000000000000000 <= x <= 1000000000000000.
Definition frel (k : R) (f : f32) (x : R) : Prop := vf f /\ fin f /\ rel k (R_ f) x.

Lemma frel_bound k f x : frel k f x -> sane_mag x -> 0 < R_ f <= bpow radix2 60.
Proof.
  intros (V & F & H) S. split; [eapply rel_pos; eauto|]. destruct H as (A & B & C & D). eapply Rle_trans; [exact D|]. unfold sane_mag in S.
  rewrite ur_val. apply Rle_trans with (1000000000000000 * 2); [apply Rmult_le_compat; lra|]. simpl. lra.
Qed.
Lemma frel_mul j k f g x y : frel j f x -> frel k g y -> j + k <= 800 -> sane_mag x -> sane_mag y -> sane_mag (x * y) -> frel (j + k + 3) (fmul f g) (x * y).
Proof.
  intros Hf Hg K Sx Sy Sxy. pose proof (frel_bound _ _ _ Hf Sx). pose proof (frel_bound _ _ _ Hg Sy).
  destruct Hf as (V1 & F1 & R1), Hg as (V2 & F2 & R2). destruct (fmul_ok f g 120) as [E F]; auto; try lia.
  { rewrite Rabs_pos_eq by (apply Rmult_le_pos; lra). replace (bpow radix2 120) with (bpow radix2 60 * bpow radix2 60) by (rewrite <- bpow_plus; reflexivity).
    apply Rmult_le_compat; lra. }
  split; [auto with vf|]. split; auto. rewrite E. replace (j + k + 3) with (j + k + 1 + 2) by ring.
  apply rel_rnd; [apply rel_mul; auto; lra|lra|]. unfold sane_mag in Sxy. lra.
Qed.
Lemma frel_div j k f g x y : frel j f x -> frel k g y -> j + k <= 800 -> sane_mag x -> sane_mag y -> sane_mag (x / y) -> frel (j + k + 4) (fdiv f g) (x / y).
Proof.
  intros Hf Hg K Sx Sy Sxy. pose proof (frel_bound _ _ _ Hf Sx). pose proof (frel_bound _ _ _ Hg Sy).
  destruct Hf as (V1 & F1 & R1), Hg as (V2 & F2 & R2). pose proof (rel_div _ _ _ _ _ _ R1 R2 ltac:(lra)) as Q.
  destruct (fdiv_ok f g 60) as [E F]; auto; try lia; try lra.
  { pose proof (rel_pos _ _ _ Q). rewrite Rabs_pos_eq by lra. destruct Q as (A & B & C & D). eapply Rle_trans; [exact D|]. unfold sane_mag in Sxy.
    rewrite ur_val. apply Rle_trans with (1000000000000000 * 2); [apply Rmult_le_compat; lra|]. simpl. lra. }
  split; [auto with vf|]. split; auto. rewrite E. replace (j + k + 4) with (j + k + 2 + 2) by ring.
  apply rel_rnd; auto; [lra|]. unfold sane_mag in Sxy. lra.
Qed.
Lemma frel_of_Z z : (1 <= z < 2 ^ 33)%Z -> frel 2 (f_of_Z z) (IZR z).
Proof. exact (rel_of_Z z). Qed.
Lemma frel_self f : vf f -> fin f -> 0 < R_ f -> frel 0 f (R_ f).
Proof. intros. split; [auto|]. split; auto. now apply rel_refl. Qed.
Lemma frel_small_Z z : (1 <= z <= 2 ^ 24)%Z -> frel 0 (f_of_Z z) (IZR z).
Proof.
  intros H. destruct (f_of_Z_exact z) as [E F]; [lia|]. split; [apply vf_of_Z|]. split; auto. rewrite E. apply rel_refl. apply IZR_lt. lia.
Qed.
Lemma sane_Z z : (1 <= z < 2 ^ 33)%Z -> sane_mag (IZR z).
Proof. intros H. assert (1 <= IZR z <= 8589934592) by (split; apply IZR_le; lia). unfold sane_mag. lra. Qed.

(** Conversion to an unsigned integer. *)
Lemma frel_u32 k f x : frel k f x -> 0 < x <= 4000000000 -> exists z, f_to_u32 f = Ok z /\ (0 <= z < W)%Z /\
  x * (1 - k * ur) - 1 <= IZR z <= x * (1 + k * ur).
Proof.
  intros (V & F & H) X. pose proof (rel_pos _ _ _ H) as P. destruct H as (A & B & C & D).
  unfold f_to_u32. rewrite f_to_range_fin by auto. destruct (Ztrunc_pos_bounds (R_ f)) as [T1 T2]; [lra|].
  assert (U : (Ztrunc (R_ f) <= W - 1)%Z).
  { apply le_IZR. unfold W. simpl. rewrite ur_val in D.
    assert (x * (1 + k * / 16777216) <= 4000000000 * (1 + 1000 * / 16777216)) by (apply Rmult_le_compat; lra). lra. }
  destruct (Z.leb_spec 0 (Ztrunc (R_ f))); [|lia]. destruct (Z.leb_spec (Ztrunc (R_ f)) (W - 1)); [|lia]. cbn [andb].
  eexists. split; [reflexivity|]. split; [lia|]. lra.
Qed.

Lemma frel_ratio : frel 1 tick_degree_rpm_ratio (2000000 / 3).
Proof.
  split; [apply ratio_vf|]. split; [apply ratio_fin|]. rewrite ratio_R. unfold rel. rewrite ur_val. repeat split; lra.
Qed.

(** Accuracy of rpm_from_time_diff: within one RPM and 12 roundoffs of the exact value. *)
Lemma rpm_accuracy t deg d k : (1 <= t < 2 ^ 33)%Z -> frel k deg d -> k <= 10 -> / 1000 <= d <= 2000 ->
  exists r, rpm_from_time_diff t deg = Ok r /\ (0 <= r < W)%Z /\
    let x := 2000000 / 3 * d / IZR t in x * (1 - (k + 11) * ur) - 1 <= IZR r <= x * (1 + (k + 11) * ur).
Proof.
  intros Ht Hd Hk D. pose proof Hd as (_ & _ & (_ & K0 & _)). assert (T : 1 <= IZR t <= 8589934592) by (split; apply IZR_le; lia).
  assert (I : / 10000000000 <= / IZR t <= 1). { split; [apply Rinv_le; lra|]. rewrite <- Rinv_1. apply Rinv_le; lra. }
  assert (J : / 2000 <= / d <= 1000). { split; [apply Rinv_le; lra|]. replace 1000 with (/ / 1000) by lra. apply Rinv_le; lra. }
  assert (S1 : sane_mag (IZR t / d)).
  { unfold sane_mag, Rdiv. split; [apply Rle_trans with (1 * / 2000); [lra|apply Rmult_le_compat; lra]|apply Rle_trans with (8589934592 * 1000); [apply Rmult_le_compat; lra|lra]]. }
  assert (E : 2000000 / 3 * d / IZR t = 2000000 / 3 / (IZR t / d)) by (field; lra).
  assert (X : 0 < 2000000 / 3 * d / IZR t <= 4000000000).
  { unfold Rdiv at 1. split; [apply Rmult_lt_0_compat; lra|]. apply Rle_trans with (1400000000 * 1); [apply Rmult_le_compat; lra|lra]. }
  pose proof (frel_div _ _ _ _ _ _ (frel_of_Z t Ht) Hd ltac:(lra) (sane_Z t Ht) ltac:(unfold sane_mag; lra) S1) as Q1.
  pose proof (frel_div _ _ _ _ _ _ frel_ratio Q1 ltac:(lra) ltac:(unfold sane_mag; lra) S1) as Q2.
  unfold rpm_from_time_diff. destruct (frel_u32 (1 + (2 + k + 4) + 4) (fdiv tick_degree_rpm_ratio (fdiv (f_of_Z t) deg)) (2000000 / 3 * d / IZR t)) as (r & E1 & E2 & E3).
  - rewrite E. apply Q2. rewrite <- E. unfold sane_mag. split; [|lra]. unfold Rdiv at 1. apply Rle_trans with (600 * / 10000000000); [lra|apply Rmult_le_compat; lra].
  - exact X.
  - exists r. split; auto. split; auto. cbv zeta. replace (k + 11) with (1 + (2 + k + 4) + 4) by ring. exact E3.
Qed.

(** The ratio of two intervals. *)
Lemma interval_ratio a b : (1 <= a < 2 ^ 32)%Z -> (1 <= b < 2 ^ 32)%Z -> frel 8 (fdiv (f_of_Z a) (f_of_Z b)) (IZR a / IZR b).
Proof.
  intros Ha Hb. replace 8 with (2 + 2 + 4) by ring.
  assert (A : 1 <= IZR a <= 4294967296) by (split; apply IZR_le; lia). assert (B : 1 <= IZR b <= 4294967296) by (split; apply IZR_le; lia).
  assert (I : / 4294967296 <= / IZR b <= 1). { split; [apply Rinv_le; lra|]. rewrite <- Rinv_1. apply Rinv_le; lra. }
  apply frel_div; auto; try lra; try (apply frel_of_Z; lia); try (apply sane_Z; lia).
  unfold sane_mag, Rdiv. split; [apply Rle_trans with (1 * / 4294967296); [lra|apply Rmult_le_compat; lra]|apply Rle_trans with (4294967296 * 1); [apply Rmult_le_compat; lra|lra]].
Qed.
