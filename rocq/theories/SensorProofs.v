(** Proofs about sensors.c. *)
Require Import ZArith Reals Lra Lia List Bool.
From Flocq Require Import Core Plus_error.
From Verif Require Import Res Word F32 F32Flocq FinBack CalcProofs TimeProofs Sensors SensorSpec.
Import ListNotations.
Open Scope Z_scope.
Ltac Zify.zify_post_hook ::= idtac.

Record valid_cfg (c : scfg) : Prop := {
  vc1 : vf (c_range_min c); vc2 : vf (c_range_max c); vc3 : vf (c_raw_min c); vc4 : vf (c_raw_max c) }.

(** ** Linear conversion *)
Lemma rnd_sub_nonzero x y : vf x -> vf y -> fin x -> fin y -> R_ x <> R_ y -> rnd (R_ x - R_ y) <> 0%R.
Proof.
  intros Vx Vy Fx Fy N. unfold Rminus. apply round_plus_neq_0; try typeclasses eauto.
  - now apply generic_R.
  - apply generic_format_opp. now apply generic_R.
  - lra.
Qed.

Lemma partial_mono c r1 r2 : valid_cfg c -> vf r1 -> vf r2 -> flt (c_raw_min c) (c_raw_max c) = true -> fle r1 r2 = true ->
  let p r := fdiv (fsub r (c_raw_min c)) (fsub (c_raw_max c) (c_raw_min c)) in
  fin (p r1) -> fin (p r2) -> (R_ (p r1) <= R_ (p r2))%R.
Proof.
  intros [V1 V2 V3 V4] W1 W2 L Le p F1 F2. unfold p in *.
  destruct (fdiv_fin _ _ (vf_fsub _ _ W1 V3) (vf_fsub _ _ V4 V3) F1) as (N1 & D1).
  destruct (fdiv_fin _ _ (vf_fsub _ _ W2 V3) (vf_fsub _ _ V4 V3) F2) as (N2 & D2).
  destruct (fsub_fin _ _ W1 V3 N1) as (Fr1 & Fm & E1). destruct (fsub_fin _ _ W2 V3 N2) as (Fr2 & _ & E2).
  destruct D1 as [(Fd & Nz & G1)|(Fd & G1)]; destruct D2 as [(Fd2 & _ & G2)|(Fd2 & G2)]; try contradiction.
  - rewrite G1, G2. apply rnd_le. destruct (fsub_fin _ _ V4 V3 Fd) as (FM & _ & Ed).
    assert (0 < R_ (fsub (c_raw_max c) (c_raw_min c)))%R.
    { apply flt_iff in L; auto. assert (0 <= R_ (fsub (c_raw_max c) (c_raw_min c)))%R; [|lra]. rewrite Ed, <- rnd_0. apply rnd_le. lra. }
    unfold Rdiv. apply Rmult_le_compat_r; [left; now apply Rinv_0_lt_compat|]. rewrite E1, E2. apply rnd_le. apply fle_iff in Le; auto. lra.
  - rewrite G1, G2. lra.
Qed.

Lemma linear_parts c r : valid_cfg c -> vf r -> feq (c_raw_max c) (c_raw_min c) = false -> fin (sensor_convert_linear c r) ->
  let p := fdiv (fsub r (c_raw_min c)) (fsub (c_raw_max c) (c_raw_min c)) in let g := fsub (c_range_max c) (c_range_min c) in
  fin p /\ fin g /\ fin (c_range_min c) /\ fin (c_range_max c) /\ R_ g = rnd (R_ (c_range_max c) - R_ (c_range_min c)) /\
  R_ (sensor_convert_linear c r) = rnd (R_ (c_range_min c) + rnd (R_ p * R_ g)).
Proof.
  intros [V1 V2 V3 V4] Vr N F p g. unfold sensor_convert_linear in *. rewrite N in *.
  assert (Vp : vf p) by (unfold p; auto with vf). assert (Vg : vf g) by (unfold g; auto with vf). fold p g in F.
  destruct (fadd_fin _ _ V1 (vf_fmul _ _ Vp Vg) F) as (Fm & Fp & E). destruct (fmul_fin _ _ Vp Vg Fp) as (Fpp & Fg & E2).
  destruct (fsub_fin _ _ V2 V1 Fg) as (Fx & _ & E3). fold p g. fold g in E3. rewrite E, E2. auto 10.
Qed.

Lemma linear_vf c r : valid_cfg c -> vf r -> vf (sensor_convert_linear c r).
Proof. intros [] V. unfold sensor_convert_linear. destruct feq; auto with vf. Qed.

Lemma linear_mono c r1 r2 : valid_cfg c -> vf r1 -> vf r2 -> flt (c_raw_min c) (c_raw_max c) = true -> fle r1 r2 = true ->
  fin (sensor_convert_linear c r1) -> fin (sensor_convert_linear c r2) ->
  (fle (c_range_min c) (c_range_max c) = true -> fle (sensor_convert_linear c r1) (sensor_convert_linear c r2) = true) /\
  (fle (c_range_max c) (c_range_min c) = true -> fle (sensor_convert_linear c r2) (sensor_convert_linear c r1) = true).
Proof.
  intros V W1 W2 L Le F1 F2. pose proof (linear_vf c r1 V W1) as X1. pose proof (linear_vf c r2 V W2) as X2.
  destruct (feq (c_raw_max c) (c_raw_min c)) eqn:N; [unfold sensor_convert_linear; rewrite N; auto|].
  destruct (linear_parts c r1 V W1 N F1) as (P1 & G & Fm & FM & Eg & E1). destruct (linear_parts c r2 V W2 N F2) as (P2 & _ & _ & _ & _ & E2).
  pose proof (partial_mono c r1 r2 V W1 W2 L Le P1 P2) as M. cbv zeta in M. destruct V as [V1 V2 V3 V4].
  split; intros K; apply fle_iff; auto; rewrite E1, E2; apply rnd_le, Rplus_le_compat_l, rnd_le.
  - apply Rmult_le_compat_r; auto. rewrite Eg, <- rnd_0. apply rnd_le. apply fle_iff in K; auto. lra.
  - assert (R_ (fsub (c_range_max c) (c_range_min c)) <= 0)%R by (rewrite Eg, <- rnd_0; apply rnd_le; apply fle_iff in K; auto; lra). nra.
Qed.

Lemma linear_at_min c : valid_cfg c -> fin (c_raw_min c) -> fin (c_raw_max c) -> feq (c_raw_max c) (c_raw_min c) = false ->
  fin (c_range_min c) -> fin (fsub (c_range_max c) (c_range_min c)) ->
  fin (sensor_convert_linear c (c_raw_min c)) /\ feq (sensor_convert_linear c (c_raw_min c)) (c_range_min c) = true.
Proof.
  intros [V1 V2 V3 V4] F3 F4 N F1 Fg. unfold sensor_convert_linear. rewrite N.
  set (p := fdiv (fsub (c_raw_min c) (c_raw_min c)) (fsub (c_raw_max c) (c_raw_min c))). set (g := fsub (c_range_max c) (c_range_min c)).
  assert (Pp : vf p /\ fin p /\ R_ p = 0%R).
  { assert (Z : exists z, fsub (c_raw_min c) (c_raw_min c) = SpecFloat.S754_zero z).
    { destruct (fsub_correct _ _ V3 V3 F3 F3) as [A B].
      { rewrite Rminus_diag_eq, rnd_0, Rabs_R0 by reflexivity. unfold fmaxR. apply bpow_gt_0. }
      rewrite Rminus_diag_eq, rnd_0 in A by reflexivity. destruct (fsub (c_raw_min c) (c_raw_min c)); try discriminate B; eauto. exfalso.
      revert A. unfold R_, Flocq.IEEE754.BinarySingleNaN.SF2R. apply F2R_neq_0. destruct s; discriminate. }
    destruct Z as (z & Ez). split; [unfold p; auto with vf|]. unfold p. rewrite Ez.
    assert (Nz : feq (c_raw_max c) (c_raw_min c) = true \/ R_ (c_raw_max c) <> R_ (c_raw_min c)).
    { destruct (Req_dec (R_ (c_raw_max c)) (R_ (c_raw_min c))); auto. left. apply feq_iff; auto. }
    destruct Nz as [Nz|Nz]; [congruence|].
    destruct (Rlt_or_le (Rabs (rnd (R_ (c_raw_max c) - R_ (c_raw_min c)))) fmaxR) as [Hl|Hl].
    - destruct (fsub_correct _ _ V4 V3 F4 F3 Hl) as [A B]. pose proof (rnd_sub_nonzero _ _ V4 V3 F4 F3 Nz) as Q. rewrite <- A in Q.
      destruct (fsub (c_raw_max c) (c_raw_min c)); try discriminate B; simpl; [exfalso; now apply Q|]. split; reflexivity.
    - destruct (fsub (c_raw_max c) (c_raw_min c)) eqn:Es; simpl; try (split; reflexivity).
      + exfalso. assert (Fd : fin (fsub (c_raw_max c) (c_raw_min c))) by (rewrite Es; reflexivity). destruct (fsub_fin _ _ V4 V3 Fd) as (_ & _ & A).
        pose proof (R_lt_max _ (vf_fsub _ _ V4 V3) Fd) as B. rewrite A in B. lra.
      + exfalso. assert (K : fsub (c_raw_max c) (c_raw_min c) <> SpecFloat.S754_nan); [|congruence].
        clear - F3 F4 V3 V4 Hl. destruct (vf_B _ V4) as [a Ea]. destruct (vf_B _ V3) as [b Eb]. rewrite Ea, Eb in *. rewrite !R_B2SF in Hl.
        rewrite !fin_B2SF in *. rewrite fsub_equiv. generalize (BinarySingleNaN.Bminus_correct fprec femax Hprec24 Hmax24 BinarySingleNaN.mode_NE a b F4 F3).
        cbn [BinarySingleNaN.round_mode]. rewrite Rlt_bool_false by exact Hl. intros (A & _) C. rewrite C in A. discriminate. }
  destruct Pp as (Vp & Fp & Rp).
  assert (Vg : vf g) by (unfold g; auto with vf).
  destruct (fmul_correct p g Vp Vg Fp Fg) as [A B].
  { rewrite Rp, Rmult_0_l, rnd_0, Rabs_R0. unfold fmaxR. apply bpow_gt_0. }
  rewrite Rp, Rmult_0_l, rnd_0 in A.
  destruct (fadd_correct (c_range_min c) (fmul p g) V1 ltac:(auto with vf) F1 B) as [C D].
  { rewrite A, Rplus_0_r, rnd_R by auto. now apply R_lt_max. }
  split; auto. apply feq_iff; auto with vf. rewrite C, A, Rplus_0_r. now apply rnd_R.
Qed.

Lemma linear_at_max c : valid_cfg c -> feq (c_raw_max c) (c_raw_min c) = false -> fin (fsub (c_raw_max c) (c_raw_min c)) ->
  fin (sensor_convert_linear c (c_raw_max c)) ->
  feq (sensor_convert_linear c (c_raw_max c)) (fadd (c_range_min c) (fsub (c_range_max c) (c_range_min c))) = true /\
  (R_ (c_range_min c) = 0%R -> feq (sensor_convert_linear c (c_raw_max c)) (c_range_max c) = true).
Proof.
  intros V N Fd F. destruct (linear_parts c _ V (vc4 c V) N F) as (Fp & Fg & F1 & F2 & Eg & E). pose proof (linear_vf c _ V (vc4 c V)) as Vo. destruct V as [V1 V2 V3 V4].
  destruct (fdiv_fin _ _ (vf_fsub _ _ V4 V3) (vf_fsub _ _ V4 V3) Fp) as (_ & [(_ & Nz & Ep)|(X & _)]); [|contradiction].
  assert (P1 : R_ (fdiv (fsub (c_raw_max c) (c_raw_min c)) (fsub (c_raw_max c) (c_raw_min c))) = 1%R).
  { rewrite Ep. unfold Rdiv. rewrite Rinv_r by auto. apply (round_generic radix2 _ ZnearestE). apply (generic_Z 1). lia. }
  rewrite P1, Rmult_1_l, rnd_R in E by auto with vf.
  split.
  - apply feq_iff; auto with vf.
    + destruct (fadd_correct (c_range_min c) (fsub (c_range_max c) (c_range_min c))) as [_ A]; auto with vf. rewrite <- E. now apply R_lt_max.
    + destruct (fadd_correct (c_range_min c) (fsub (c_range_max c) (c_range_min c))) as [A _]; auto with vf; [rewrite <- E; now apply R_lt_max|]. congruence.
  - intros Z. apply feq_iff; auto. rewrite E, Eg, Z, Rminus_0_r, Rplus_0_l, !rnd_R; auto; apply rnd_R; auto.
Qed.

(** ** Lag filter *)
Definition u24 : R := bpow radix2 (-24).
Definition tiny : R := bpow radix2 (-150).
Lemma u24_val : u24 = (/ 16777216)%R. Proof. reflexivity. Qed.
Lemma tiny_pos : (0 < tiny)%R. Proof. apply bpow_gt_0. Qed.
Lemma tiny_u24 : (tiny <= u24)%R. Proof. apply bpow_le. lia. Qed.
Lemma err x : (Rabs (rnd x - x) <= u24 * Rabs x + tiny)%R. Proof. apply rnd_err. Qed.
Lemma below_max x : (Rabs x <= IZR (2 ^ 110))%R -> (Rabs (rnd x) < fmaxR)%R.
Proof. intros H. apply (rnd_abs_lt_max x 110); [lia|]. exact H. Qed.
Lemma triv_abs x b : (Rabs x <= b -> - b <= x <= b)%R. Proof. intros H. now apply Rabs_le_inv. Qed.

Lemma lag_core M l o n x1 c x2 s y : (0 <= M)%R -> (0 <= l <= 100)%R -> (Rabs o <= M)%R -> (Rabs n <= M)%R ->
  (Rabs (x1 - o * l) <= u24 * Rabs (o * l) + tiny)%R -> (Rabs (c - (100 - l)) <= u24 * Rabs (100 - l) + tiny)%R -> (0 <= c <= 100)%R ->
  (Rabs (x2 - n * c) <= u24 * Rabs (n * c) + tiny)%R -> (Rabs (s - (x1 + x2)) <= u24 * Rabs (x1 + x2) + tiny)%R ->
  (Rabs (y - s / 100) <= u24 * Rabs (s / 100) + tiny)%R ->
  (Rabs x1 <= 101 * M + 1)%R /\ (Rabs x2 <= 101 * M + 1)%R /\ (Rabs s <= 102 * M + 1)%R /\ (Rabs (y - (o * l + n * (100 - l)) / 100) <= 8 * u24 * M + 4 * tiny)%R.
Proof.
  intros HM Hl Ho Hn H1 Hc Hc2 H2 Hs Hy. pose proof tiny_pos as Tp. pose proof tiny_u24 as Tu. rewrite u24_val in *.
  assert (Ol : (Rabs (o * l) <= 100 * M)%R) by (rewrite Rabs_mult, (Rabs_pos_eq l) by lra; pose proof (Rabs_pos o); nra).
  assert (Nc : (Rabs (n * c) <= 100 * M)%R) by (rewrite Rabs_mult, (Rabs_pos_eq c) by lra; pose proof (Rabs_pos n); nra).
  assert (Cl : (Rabs (100 - l) <= 100)%R) by (apply Rabs_le; lra).
  assert (K1 : (Rabs (x1 - o * l) <= / 16777216 * (100 * M) + tiny)%R) by lra.
  assert (K2 : (Rabs (c - (100 - l)) <= / 16777216 * 101)%R) by lra.
  assert (K3 : (Rabs (x2 - n * c) <= / 16777216 * (100 * M) + tiny)%R) by lra.
  assert (K4 : (Rabs (n * (c - (100 - l))) <= / 16777216 * (101 * M))%R).
  { rewrite Rabs_mult. pose proof (Rabs_pos n). pose proof (Rabs_pos (c - (100 - l))). apply Rle_trans with (M * (/ 16777216 * 101))%R; [|lra].
    apply Rmult_le_compat; auto. }
  assert (Sa : (Rabs (o * l + n * (100 - l)) <= 100 * M)%R).
  { eapply Rle_trans; [apply Rabs_triang|]. rewrite !Rabs_mult, (Rabs_pos_eq l), (Rabs_pos_eq (100 - l)) by lra.
    assert (Rabs o * l <= M * l)%R by (apply Rmult_le_compat_r; lra). assert (Rabs n * (100 - l) <= M * (100 - l))%R by (apply Rmult_le_compat_r; lra). lra. }
  set (S := (o * l + n * (100 - l))%R) in *.
  apply triv_abs in K1. apply triv_abs in K3. apply triv_abs in K4. apply triv_abs in Sa. apply triv_abs in Ol. apply triv_abs in Nc.
  assert (ES : S = (o * l + (n * c - n * (c - (100 - l))))%R) by (unfold S; ring). clearbody S.
  set (ol := (o * l)%R) in *. set (nc := (n * c)%R) in *. set (dc := (n * (c - (100 - l)))%R) in *. clearbody ol nc dc. clear Hc K2 Cl H1 H2 Ho Hn Hl Hc2.
  assert (Ta : (Rabs (x1 + x2) <= 100 * M + / 16777216 * (301 * M) + 2 * tiny)%R) by (apply Rabs_le; lra).
  assert (K5 : (Rabs (s - (x1 + x2)) <= / 16777216 * (101 * M) + 2 * tiny)%R) by lra. apply triv_abs in K5. apply triv_abs in Ta.
  assert (Ss : (Rabs (s / 100) <= 101 / 100 * M + tiny)%R) by (apply Rabs_le; lra).
  assert (K6 : (Rabs (y - s / 100) <= / 16777216 * (101 / 100 * M) + 2 * tiny)%R) by lra. apply triv_abs in K6.
  repeat split; apply Rabs_le; lra.
Qed.

Lemma hundred : R_ (f_of_Z 100) = 100%R /\ fin (f_of_Z 100). Proof. apply f_of_Z_exact. lia. Qed.
Lemma lag_err M lag old new : vf lag -> vf old -> vf new -> fin lag -> fin old -> fin new -> (0 <= R_ lag <= 100)%R ->
  (Rabs (R_ old) <= M)%R -> (Rabs (R_ new) <= M)%R -> (M <= IZR (2 ^ 100))%R ->
  let y := process_lag_filter lag old new in
  vf y /\ fin y /\ (Rabs (R_ y - (R_ old * R_ lag + R_ new * (100 - R_ lag)) / 100) <= 8 * u24 * M + 4 * tiny)%R.
Proof.
  intros Vl Vo Vn Fl Fo Fn Hl Ho Hn HM. cbv zeta. unfold process_lag_filter. pose proof (Rabs_pos (R_ old)) as P0.
  destruct (feq lag f_zero) eqn:Z.
  { apply feq_iff in Z; auto with vf. change (R_ f_zero) with 0%R in Z. rewrite Z. replace (R_ new - (R_ old * 0 + R_ new * (100 - 0)) / 100)%R with 0%R by field.
    rewrite Rabs_R0. pose proof tiny_pos. rewrite u24_val. repeat split; auto. lra. }
  destruct hundred as [H100 F100].
  assert (B100 : (IZR (2 ^ 110) = 1024 * IZR (2 ^ 100))%R) by (rewrite <- mult_IZR; apply f_equal; reflexivity).
  assert (Big : (1 <= IZR (2 ^ 100))%R) by (apply IZR_le; lia).
  destruct (fmul_correct old lag Vo Vl Fo Fl) as [E1 F1].
  { apply below_max. rewrite Rabs_mult, (Rabs_pos_eq (R_ lag)) by lra. nra. }
  destruct (fsub_correct (f_of_Z 100) lag (vf_of_Z 100) Vl F100 Fl) as [Ec Fc].
  { apply below_max. rewrite H100. apply Rabs_le. lra. }
  rewrite H100 in Ec.
  assert (Hc : (0 <= R_ (fsub (f_of_Z 100) lag) <= 100)%R).
  { rewrite Ec. split; [rewrite <- rnd_0; apply rnd_le; lra|]. apply Rle_trans with (rnd (R_ (f_of_Z 100))); [apply rnd_le; rewrite H100; lra|rewrite rnd_R by auto with vf; rewrite H100; lra]. }
  pose proof (Rabs_pos (R_ new)) as P1.
  destruct (fmul_correct new (fsub (f_of_Z 100) lag) Vn ltac:(auto with vf) Fn Fc) as [E2 F2].
  { apply below_max. rewrite Rabs_mult, (Rabs_pos_eq (R_ (fsub _ _))) by lra. nra. }
  set (x1 := fmul old lag) in *. set (c := fsub (f_of_Z 100) lag) in *. set (x2 := fmul new c) in *.
  assert (Vx1 : vf x1) by (unfold x1; auto with vf). assert (Vx2 : vf x2) by (unfold x2, c; auto with vf).
  pose proof (err (R_ old * R_ lag)) as G1. rewrite <- E1 in G1. pose proof (err (100 - R_ lag)) as Gc. rewrite <- Ec in Gc. pose proof (err (R_ new * R_ c)) as G2. rewrite <- E2 in G2.
  pose proof (err (R_ x1 + R_ x2)) as G3. pose proof (err (rnd (R_ x1 + R_ x2) / 100)) as G4.
  destruct (lag_core M _ _ _ _ _ _ _ _ ltac:(lra) Hl Ho Hn G1 Gc Hc G2 G3 G4) as (A1 & A2 & A3 & A4).
  destruct (fadd_correct x1 x2 Vx1 Vx2 F1 F2) as [E3 F3].
  { apply below_max. eapply Rle_trans; [apply Rabs_triang|]. lra. }
  destruct (fdiv_correct (fadd x1 x2) (f_of_Z 100) ltac:(auto with vf) ltac:(auto with vf) F3 F100) as [E4 F4].
  { rewrite H100. lra. }
  { apply below_max. rewrite H100, E3. unfold Rdiv. rewrite Rabs_mult, (Rabs_pos_eq (/ 100)) by lra. lra. }
  rewrite H100, E3 in E4. rewrite E4. repeat split; auto with vf.
Qed.

Lemma lag_between M lag old new : vf lag -> vf old -> vf new -> fin lag -> fin old -> fin new -> (0 <= R_ lag <= 100)%R ->
  (Rabs (R_ old) <= M)%R -> (Rabs (R_ new) <= M)%R -> (M <= IZR (2 ^ 100))%R ->
  let y := process_lag_filter lag old new in let d := (8 * u24 * M + 4 * tiny)%R in
  fin y /\ (Rmin (R_ old) (R_ new) - d <= R_ y <= Rmax (R_ old) (R_ new) + d)%R.
Proof.
  intros Vl Vo Vn Fl Fo Fn Hl Ho Hn HM y d. destruct (lag_err M lag old new) as (_ & F & E); auto. fold y in F, E. fold d in E. split; auto. apply triv_abs in E.
  assert (B : (Rmin (R_ old) (R_ new) <= (R_ old * R_ lag + R_ new * (100 - R_ lag)) / 100 <= Rmax (R_ old) (R_ new))%R).
  { pose proof (Rmin_l (R_ old) (R_ new)). pose proof (Rmin_r (R_ old) (R_ new)). pose proof (Rmax_l (R_ old) (R_ new)). pose proof (Rmax_r (R_ old) (R_ new)). split.
    - apply Rmult_le_reg_r with 100%R; [lra|]. unfold Rdiv. rewrite Rmult_assoc, Rinv_l, Rmult_1_r by lra. nra.
    - apply Rmult_le_reg_r with 100%R; [lra|]. unfold Rdiv. rewrite Rmult_assoc, Rinv_l, Rmult_1_r by lra. nra. }
  lra.
Qed.

(** Repeated readings of the same value. *)
Fixpoint settle (lag new : f32) (n : nat) (old : f32) : f32 :=
  match n with O => old | S m => process_lag_filter lag (settle lag new m old) new end.

Lemma settle_err M lag old new : vf lag -> vf old -> vf new -> fin lag -> fin old -> fin new -> (0 <= R_ lag <= 99)%R ->
  (Rabs (R_ old) <= M)%R -> (Rabs (R_ new) <= M)%R -> (4 * M <= IZR (2 ^ 100))%R -> (bpow radix2 (-100) <= M)%R -> forall n,
  let v := settle lag new n old in
  vf v /\ fin v /\ (Rabs (R_ v) <= 4 * M)%R /\ (Rabs (R_ v - R_ new) <= (R_ lag / 100) ^ n * Rabs (R_ old - R_ new) + 4096 * u24 * M)%R.
Proof.
  intros Vl Vo Vn Fl Fo Fn Hl Ho Hn HM Hm n. induction n as [|n IH].
  - simpl. rewrite u24_val. pose proof (Rabs_pos (R_ old)). repeat split; auto; lra.
  - cbv zeta in *. cbn [settle]. destruct IH as (Vv & Fv & Bv & Ev). set (v := settle lag new n old) in *.
    pose proof (Rabs_pos (R_ old)) as Po.
    destruct (lag_err (4 * M) lag v new) as (V & F & E); auto; try lra.
    assert (T : (tiny <= u24 * M)%R).
    { replace tiny with (bpow radix2 (-50) * bpow radix2 (-100))%R by (rewrite <- bpow_plus; reflexivity).
      apply Rmult_le_compat; auto; try apply bpow_ge_0. apply bpow_le. lia. }
    assert (D : (Rabs (R_ (process_lag_filter lag v new) - R_ new) <= (R_ lag / 100) ^ S n * Rabs (R_ old - R_ new) + 4096 * u24 * M)%R).
    { set (y := R_ (process_lag_filter lag v new)) in *.
      replace (y - R_ new)%R with ((y - (R_ v * R_ lag + R_ new * (100 - R_ lag)) / 100) + (R_ lag / 100) * (R_ v - R_ new))%R by field.
      eapply Rle_trans; [apply Rabs_triang|]. rewrite Rabs_mult, (Rabs_pos_eq (R_ lag / 100)) by lra. simpl pow.
      set (q := (R_ lag / 100)%R) in *. assert (Hq : (0 <= q <= 99 / 100)%R) by (unfold q; lra).
      set (p := (q ^ n * Rabs (R_ old - R_ new))%R) in *.
      assert (Pp : (0 <= p)%R) by (unfold p; apply Rmult_le_pos; [apply pow_le; lra|apply Rabs_pos]).
      assert (Q : (q * Rabs (R_ v - R_ new) <= q * p + 99 / 100 * (4096 * u24 * M))%R).
      { apply Rle_trans with (q * (p + 4096 * u24 * M))%R; [apply Rmult_le_compat_l; lra|]. rewrite Rmult_plus_distr_l. apply Rplus_le_compat_l.
        apply Rmult_le_compat_r; [|lra]. rewrite u24_val. lra. }
      replace (q * q ^ n * Rabs (R_ old - R_ new))%R with (q * p)%R by (unfold p; ring).
      assert (U : (0 <= u24 * M)%R) by (rewrite u24_val; lra). lra. }
    repeat split; auto.
    assert (A : (Rabs (R_ (process_lag_filter lag v new) - R_ new) <= 2 * M + 4096 * u24 * M)%R).
    { eapply Rle_trans; [exact D|]. apply Rplus_le_compat_r.
      apply Rle_trans with (1 * (2 * M))%R; [|lra]. apply Rmult_le_compat; try apply Rabs_pos.
      - apply pow_le. lra.
      - rewrite <- (pow1 (S n)). apply pow_incr. lra.
      - replace (R_ old - R_ new)%R with (R_ old + - R_ new)%R by ring. eapply Rle_trans; [apply Rabs_triang|]. rewrite Rabs_Ropp. lra. }
    rewrite u24_val in A. apply triv_abs in A. apply triv_abs in Hn. apply Rabs_le. lra.
Qed.

(** ** Windows *)
Lemma f720 : R_ (f_of_Z 720) = 720%R /\ fin (f_of_Z 720). Proof. apply f_of_Z_exact. lia. Qed.
Lemma window_loop_spec c cur n : 1 <= c_total c < W -> 0 <= c_capture c <= 16000000 -> vf cur -> fin cur -> forall k i, i = k * c_total c -> 0 <= k -> 720 <= i + Z.of_nat n ->
  exists b, window_loop n c cur i = Ok b /\
    (b = true <-> exists j, k <= j /\ j * c_total c < 720 /\ (IZR (j * c_total c) <= R_ cur < IZR (j * c_total c + c_capture c))%R).
Proof.
  intros Ht Hc V F. induction n as [|n IH]; intros k i Ei Hk Hn; cbn [window_loop].
  - destruct (Z.ltb_spec i 720); [lia|]. exists false. split; auto. split; [discriminate|]. intros (j & Hj & Hj2 & _). nia.
  - destruct (Z.ltb_spec i 720) as [L|L].
    2:{ exists false. split; auto. split; [discriminate|]. intros (j & Hj & Hj2 & _). nia. }
    assert (Wi : w32 (i + c_capture c) = i + c_capture c) by (unfold w32, W; apply Z.mod_small; nia).
    destruct (f_of_Z_exact i ltac:(nia)) as [E1 F1]. destruct (f_of_Z_exact (i + c_capture c) ltac:(nia)) as [E2 F2].
    rewrite Wi. destruct (fge cur (f_of_Z i) && flt cur (f_of_Z (i + c_capture c))) eqn:B.
    + exists true. split; auto. split; auto. intros _. apply andb_true_iff in B. destruct B as [B1 B2]. unfold fge in B1.
      change (fle (f_of_Z i) cur = true) in B1. apply fle_iff in B1; auto with vf. apply flt_iff in B2; auto with vf.
      exists k. rewrite <- Ei. rewrite E1 in B1. rewrite E2 in B2. repeat split; auto; lia.
    + assert (Wt : w32 (i + c_total c) = (k + 1) * c_total c).
      { rewrite Ei. unfold w32. rewrite Z.mod_small; [ring|]. unfold W in *. destruct (Z.eq_dec k 0); nia. }
      rewrite Wt. destruct (IH (k + 1) _ eq_refl ltac:(lia) ltac:(nia)) as (b & Eb & Hb). exists b. split; auto. rewrite Hb. split.
      * intros (j & Hj & J). exists j. split; [lia|auto].
      * intros (j & Hj & J1 & J2). destruct (Z.eq_dec j k) as [->|]; [|exists j; split; [lia|auto]]. exfalso. rewrite <- Ei in J2.
        apply andb_false_iff in B. destruct B as [B|B].
        -- change (fle (f_of_Z i) cur = false) in B. apply fle_false_iff in B; auto with vf. lra.
        -- apply flt_false_iff in B; auto with vf. lra.
Qed.

Record windowed (c : scfg) : Prop := {
  wd_method : c_method c = LINEAR_WINDOWED; wd_total : 1 <= c_total c < W; wd_capture : 0 <= c_capture c <= 16000000; wd_offset : 0 <= c_offset c < W }.

Lemma offset_fin a z : crank a -> 0 <= z < W -> vf (fsub a (f_of_Z z)) /\ fin (fsub a (f_of_Z z)).
Proof.
  intros (V & F & B) Hz. split; [auto with vf|]. destruct (f_of_Z_u32 z) as [E Fz]; [unfold W in *; lia|].
  apply (fsub_correct a (f_of_Z z)); auto with vf. apply below_max. rewrite E.
  assert (Z1 : (0 <= IZR z <= IZR (2 ^ 32))%R) by (split; apply IZR_le; unfold W in *; lia).
  assert (Z2 : (0 <= rnd (IZR z) <= IZR (2 ^ 32))%R).
  { split; [rewrite <- rnd_0; apply rnd_le; lra|]. apply Rle_trans with (Rabs (rnd (IZR z))); [apply Rle_abs|].
    apply (rnd_abs_le_bpow (IZR z) 32); [lia|]. rewrite Rabs_pos_eq by lra. apply Z1. }
  assert (Big : (IZR (2 ^ 32) + 720 <= IZR (2 ^ 110))%R) by (rewrite <- plus_IZR; apply IZR_le; lia).
  apply Rabs_le. lra.
Qed.

Lemma clamp_720 a r : vf a -> fin a -> clamp_angle a (f_of_Z 720) = Ok r -> vf r /\ fin r /\ (0 <= R_ r < 720)%R.
Proof.
  intros V F H. destruct f720 as [E7 F7]. destruct (clamp_angle_range a (f_of_Z 720) r) as (Vr & Fr & A & B); auto with vf.
  change (fle f_zero r = true) in A. apply fle_iff in A; auto with vf. apply flt_iff in B; auto with vf. rewrite E7 in B. rewrite R_f_zero in A. auto.
Qed.

Lemma in_window_spec c a : windowed c -> crank a -> forall b, current_angle_in_window c a = Ok b -> (b = true <-> inside c a).
Proof.
  intros Wd C b H. unfold current_angle_in_window in H. apply bind_ok in H. destruct H as (cur & E & H).
  destruct (offset_fin a (c_offset c) C (wd_offset c Wd)) as [V F]. destruct (clamp_720 _ _ V F E) as (Vc & Fc & Rc).
  destruct (window_loop_spec c cur 720 (wd_total c Wd) (wd_capture c Wd) Vc Fc 0 0 eq_refl ltac:(lia) ltac:(lia)) as (b' & Eb & Hb).
  rewrite Eb in H. injection H as <-. rewrite Hb. unfold inside, in_capture. split.
  - intros J. exists cur. split; auto.
  - intros (cur' & E' & J). rewrite E in E'. injection E' as <-. exact J.
Qed.

Lemma in_window_total c a : windowed c -> crank a -> (Rabs (R_ a - IZR (c_offset c)) <= 1000000)%R -> c_offset c <= 16000000 -> exists b, current_angle_in_window c a = Ok b.
Proof.
  intros Wd C Ho Ho2. unfold current_angle_in_window. destruct (offset_fin a (c_offset c) C (wd_offset c Wd)) as [V F]. destruct f720 as [E7 F7]. pose proof (wd_offset c Wd).
  destruct (clamp_angle_terminates (fsub a (f_of_Z (c_offset c))) (f_of_Z 720)) as (r & E); auto with vf.
  - destruct C as (Va & Fa & _). destruct (fsub_fin _ _ Va (vf_of_Z _) F) as (_ & _ & E). rewrite E. destruct (f_of_Z_exact (c_offset c)) as [E2 _]; [lia|]. rewrite E2.
    apply (rnd_abs_le_bpow _ 23); [lia|]. eapply Rle_trans; [exact Ho|]. simpl. lra.
  - rewrite E7. simpl bpow. lra.
  - destruct (clamp_720 _ _ V F E) as (Vc & Fc & _).
    destruct (window_loop_spec c r 720 (wd_total c Wd) (wd_capture c Wd) Vc Fc 0 0 eq_refl ltac:(lia) ltac:(lia)) as (b & Eb & _). exists b. rewrite E. exact Eb.
Qed.

Definition acc_of (c : scfg) (g : list sample) : f32 := fold_left fadd (map (fun x => sensor_convert_linear c (s_raw x)) g) f_zero.
(** The sensor's window state records exactly the readings in [g]. *)
Definition holds (c : scfg) (s : sdat) (g : list sample) : Prop :=
  Forall (fun x => crank (s_angle x)) g /\
  match g with
  | [] => a_collecting s = false
  | x :: _ => a_collecting s = true /\ a_start s = s_angle x /\ a_acc s = acc_of c g /\ a_samples s = Z.of_nat (length g)
  end.

Lemma fsub_crank a b : crank a -> crank b -> vf (fsub a b) /\ fin (fsub a b).
Proof.
  intros (Va & Fa & Ra) (Vb & Fb & Rb). split; [auto with vf|]. apply fsub_correct; auto. apply below_max. apply Rabs_le.
  assert (720 <= IZR (2 ^ 110))%R by (apply IZR_le; lia). lra.
Qed.

Definition readable (c : scfg) (x : sample) : Prop :=
  feq (c_fault_max c) f_zero = true \/ (fgt (c_fault_min c) (s_raw x) = false /\ flt (c_fault_max c) (s_raw x) = false).

Lemma windowed_step c rpm s g x r s' : windowed c -> rpm <> 0 -> crank (s_angle x) -> holds c s g -> Z.of_nat (length g) + 1 < W -> a_raw s = s_raw x ->
  sensor_convert_linear_windowed c rpm s (s_angle x) = Ok (r, s') ->
  a_value s' = a_value s /\ a_fault s' = a_fault s /\
  ((~ inside c (s_angle x) /\ holds c s' [] /\ r = if length g =? 0 then a_value s else mean c g)%nat \/
   (inside c (s_angle x) /\ (g = [] \/ past c g (s_angle x)) /\ holds c s' [x] /\ r = if (length g =? 0)%nat then a_value s else mean c g) \/
   (inside c (s_angle x) /\ g <> [] /\ ~ past c g (s_angle x) /\ holds c s' (g ++ [x]) /\ r = a_value s)).
Proof.
  intros Wd Hr C [Cg Hg] Lg Er H. unfold sensor_convert_linear_windowed in H. rewrite (proj2 (Z.eqb_neq rpm 0) Hr) in H.
  apply bind_ok in H. destruct H as (inw & E1 & H). apply bind_ok in H. destruct H as (over & E2 & H). apply bind_ok in H. destruct H as (inw' & E1' & H).
  rewrite E1 in E1'. injection E1' as <-. pose proof (in_window_spec c _ Wd C _ E1) as I.
  destruct inw; cbn [negb] in E2.
  - assert (Ins : inside c (s_angle x)) by (now apply I). apply bind_ok in E2. destruct E2 as (since & Es & E2). injection E2 as <-.
    destruct g as [|x0 g0].
    + rewrite Hg in H. cbn [andb] in H. rewrite andb_false_r in H. rewrite Hg in H. cbn [set_window a_collecting a_acc a_samples a_start] in H.
      injection H as <- <-. cbn [set_window a_value a_fault]. split; auto. split; auto. right. left. split; auto. split; auto. split; auto.
      split; [constructor; auto|]. cbn [a_collecting a_start a_acc a_samples]. split; auto. split; auto. split; [|reflexivity].
      unfold acc_of. cbn [map fold_left]. rewrite <- Er. reflexivity.
    + destruct Hg as (H1 & H2 & H3 & H4). rewrite H1 in H. rewrite H4 in H.
      assert (Nz : negb (Z.of_nat (length (x0 :: g0)) =? 0) = true) by (cbn [length]; destruct (Z.eqb_spec (Z.of_nat (S (length g0))) 0); auto; lia).
      rewrite Nz in H. cbn [andb] in H. rewrite andb_true_r in H.
      assert (Past : fge since (f_of_Z (c_capture c)) = true <-> past c (x0 :: g0) (s_angle x)).
      { rewrite H2 in Es. destruct (fsub_crank _ _ C (Forall_inv Cg)) as [V F]. destruct (clamp_720 _ _ V F Es) as (Vs & Fs & Rs).
        destruct (f_of_Z_exact (c_capture c)) as [Ec Fc]; [destruct Wd; lia|]. change (fge since (f_of_Z (c_capture c))) with (fle (f_of_Z (c_capture c)) since).
        rewrite fle_iff, Ec by auto with vf. unfold past. split.
        - intros K. exists x0, g0, since. auto.
        - intros (y & r' & since' & Ey & Ec' & K). injection Ey as <- <-. rewrite Es in Ec'. injection Ec' as <-. exact K. }
      destruct (fge since (f_of_Z (c_capture c))) eqn:Ef.
      * cbn [set_window a_collecting a_acc a_samples a_start] in H. injection H as <- <-. cbn [set_window a_value a_fault a_raw]. split; auto. split; auto.
        right. left. split; auto. split; [right; now apply Past|]. split.
        -- split; [constructor; auto|]. cbn [a_collecting a_start a_acc a_samples]. split; auto. split; auto. split; [|reflexivity].
           unfold acc_of. cbn [map fold_left]. rewrite <- Er. reflexivity.
        -- cbn [length Nat.eqb]. unfold mean. fold (acc_of c (x0 :: g0)). rewrite H3. reflexivity.
      * rewrite H1 in H. injection H as <- <-. cbn [set_window a_value a_fault]. split; auto. split; auto. right. right. split; auto. split; [discriminate|].
        split; [intros K; apply Past in K; discriminate|]. split; [|reflexivity].
        split; [apply Forall_app; split; auto|]. cbn [app]. cbn [set_window a_collecting a_start a_acc a_samples]. split; auto. split; auto. split.
        -- unfold acc_of. rewrite app_comm_cons, map_app, fold_left_app. cbn [map fold_left]. fold (acc_of c (x0 :: g0)). rewrite H3, Er. reflexivity.
        -- rewrite H4. cbn [length] in *. rewrite app_length. cbn [length]. unfold w32. rewrite Z.mod_small; unfold W in *; lia.
  - assert (Out : ~ inside c (s_angle x)) by (intros K; apply I in K; discriminate). injection E2 as <-. cbn [andb] in H.
    destruct g as [|x0 g0].
    + rewrite Hg in H. cbn [andb] in H. injection H as <- <-. split; auto. split; auto. left. split; auto. split; auto. split; [constructor|auto].
    + destruct Hg as (H1 & H2 & H3 & H4). rewrite H1 in H. rewrite H4 in H.
      assert (Nz : negb (Z.of_nat (length (x0 :: g0)) =? 0) = true) by (cbn [length]; destruct (Z.eqb_spec (Z.of_nat (S (length g0))) 0); auto; lia).
      rewrite Nz in H. cbn [andb] in H. injection H as <- <-. cbn [set_window a_value a_fault]. split; auto. split; auto. left. split; auto.
      split; [split; [constructor|reflexivity]|]. cbn [length Nat.eqb]. unfold mean. fold (acc_of c (x0 :: g0)). rewrite H3. reflexivity.
Qed.

Lemma convert_step logf rate rpm c s g x s' : windowed c -> rpm <> 0 -> crank (s_angle x) -> readable c x -> holds c s g -> a_fault s = FAULT_NONE -> Z.of_nat (length g) + 1 < W ->
  sensor_convert (SEnv logf rate rpm (Ok (s_angle x))) c s (s_raw x) (s_time x) = Ok s' ->
  a_fault s' = FAULT_NONE /\ exists r, a_value s' = process_lag_filter (c_lag c) (a_value s) r /\
  ((~ inside c (s_angle x) /\ holds c s' [] /\ r = if length g =? 0 then a_value s else mean c g)%nat \/
   (inside c (s_angle x) /\ (g = [] \/ past c g (s_angle x)) /\ holds c s' [x] /\ r = if (length g =? 0)%nat then a_value s else mean c g) \/
   (inside c (s_angle x) /\ g <> [] /\ ~ past c g (s_angle x) /\ holds c s' (g ++ [x]) /\ r = a_value s)).
Proof.
  intros Wd Hr C Rd Hg Hf Lg H. unfold sensor_convert in H.
  assert (D : detect_faults c (set_input s (s_raw x) (s_time x)) = FAULT_NONE).
  { unfold detect_faults. cbn [set_input a_fault a_raw]. rewrite Hf. cbn [no_fault negb]. destruct Rd as [R|[R1 R2]]; [rewrite R; reflexivity|].
    rewrite R1, R2. destruct feq; reflexivity. }
  rewrite D in H. cbn [no_fault negb] in H. rewrite (wd_method c Wd) in H. apply bind_ok in H. destruct H as ([r s1] & E & H). cbn [v_angle v_rpm bind] in E.
  apply bind_ok in H. destruct H as (d & _ & H). injection H as <-.
  assert (Hg' : holds c (set_input s (s_raw x) (s_time x)) g) by (destruct Hg as [A B]; split; auto).
  destruct (windowed_step c rpm (set_input s (s_raw x) (s_time x)) g x r s1 Wd Hr C Hg' Lg eq_refl E) as (V & F & K).
  cbn [set_input a_value a_fault] in V, F. cbn [set_output a_fault a_value]. split; [congruence|]. exists r. split; [congruence|].
  assert (T : forall g', holds c s1 g' -> holds c (set_output s1 (process_lag_filter (c_lag c) (a_value s1) r) d) g') by (intros g' [A B]; split; auto).
  cbn [set_input a_value] in K. destruct K as [(K1 & K2 & K3)|[(K1 & K2 & K3 & K4)|(K1 & K2 & K3 & K4 & K5)]].
  - left. auto.
  - right. left. auto.
  - right. right. auto 6.
Qed.

Lemma readings_app logf rate rpm c h1 : forall s h2, readings logf rate rpm c s (h1 ++ h2) = (s1 <- readings logf rate rpm c s h1 ;; readings logf rate rpm c s1 h2).
Proof. induction h1 as [|x h1 IH]; intros s h2; [reflexivity|]. cbn [app readings]. destruct sensor_convert; cbn [bind]; auto. Qed.

Lemma readings_spec logf rate rpm c s0 h : windowed c -> rpm <> 0 -> a_collecting s0 = false -> a_fault s0 = FAULT_NONE ->
  Forall (fun x => crank (s_angle x) /\ readable c x) h -> Z.of_nat (length h) + 1 < W -> forall s, readings logf rate rpm c s0 h = Ok s ->
  a_fault s = FAULT_NONE /\ exists g, collected c h g /\ holds c s g /\ (length g <= length h)%nat /\ exists pre, h = pre ++ g /\ Forall (fun x => inside c (s_angle x)) g.
Proof.
  intros Wd Hr Hc Hf. induction h as [|x h IH] using rev_ind; intros Fa Le s H.
  - injection H as <-. split; auto. exists []. split; [constructor|]. split; [split; [constructor|auto]|]. split; auto. exists []. auto.
  - rewrite readings_app in H. apply bind_ok in H. destruct H as (s1 & E & H). cbn [readings] in H. apply bind_ok in H. destruct H as (s2 & E2 & H). injection H as <-.
    apply Forall_app in Fa. destruct Fa as [Fa Fx]. inversion Fx as [|? ? [Cx Rx] _]; subst. rewrite app_length in Le. cbn [length] in Le.
    destruct (IH Fa ltac:(lia) s1 E) as (Hf1 & g & Cg & Hg & Lg & pre & Ep & Ig).
    destruct (convert_step logf rate rpm c s1 g x s2 Wd Hr Cx Rx Hg Hf1 ltac:(lia) E2) as (Hf2 & r & _ & K). split; auto.
    destruct K as [(K1 & K2 & _)|[(K1 & K2 & K3 & _)|(K1 & K2 & K3 & K4 & _)]].
    + exists []. split; [eapply col_out; eauto|]. split; auto. split; [simpl; lia|]. exists (h ++ [x]). rewrite app_nil_r. auto.
    + exists [x]. split; [eapply col_new; eauto|]. split; auto. split; [rewrite app_length; simpl; lia|]. exists h. auto.
    + exists (g ++ [x]). split; [eapply col_more; eauto|]. split; auto. split; [rewrite !app_length; simpl; lia|]. exists pre. rewrite Ep, app_assoc. split; auto.
      apply Forall_app. auto.
Qed.
