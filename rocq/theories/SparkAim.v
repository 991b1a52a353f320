(** What the decoder shows after each tooth of a steadily turning crank makes the code aim at the sparks of
    the engine's cycles (for C84 and C85). *)
Require Import ZArith Reals List Bool Lia Lra SpecFloat.
From Flocq Require Import Core.
From Verif Require Import Res Word F32 F32Flocq TimeProofs AngleProofs PulseProofs Arr Decoder Outputs Buffers OutputSpec OutputRun OutputProofs WaveProofs CrankSpec P_Crank Spark SparkAbs SparkProofs SparkSpec.
Import ListNotations.
Open Scope Z_scope.
Ltac Zify.zify_post_hook ::= idtac.

Section Aim.
Variables (c : dcfg) (tau q : Rdefinitions.R) (zero : Z) (tt idx : Z -> Z) (view : Z -> dview) (m0 : Z) (ang adv : f32) (late dwell mf : Z).
Notation dpt := (R_ (dc_dpt c)).
Hypothesis Rg : regime dpt q late dwell mf.
Hypothesis Tk : forall m, m0 <= m -> exists d, tracks c tau q zero (idx m) (tt m) d /\ view m = seen c d.
Hypothesis Hidx : forall m, m0 <= m -> idx m + 1 <= idx (m + 1) <= idx m + 2 \/ (idx (m + 1) = idx m /\ tt (m + 1) = tt m /\ dv_last_angle (view (m + 1)) = dv_last_angle (view m)).
Hypothesis Aa : angle_ok ang.
Hypothesis Av : angle_ok adv.
Hypothesis Ao : angle_ok (dc_offset c).

Let target : Rdefinitions.R := (R_ ang - R_ adv + R_ (dc_offset c))%R.
Let C := cycle_ticks dpt q.
Let w := (dpt / q)%R.
Let b := (4 / q + 3 / speed_of dpt q + / 100000)%R.
Let e0 := (q / (400 * dpt))%R.
Definition spark_tick (j : Z) : Rdefinitions.R := (tau + q * (IZR zero + (R_ ang - R_ adv + R_ (dc_offset c) + 720 * IZR j) / dpt))%R.
Notation T := spark_tick.
Definition sX (j : Z) : Z := Zfloor (T j).
Definition sP : Z := Zfloor C.
Definition get (r : res Z) : Z := match r with Ok t => t | Err _ => 0 end.
Definition soff (m : Z) : Z := tt m + get (g <- clamp_angle (fadd (fsub (fsub ang adv) (dv_last_angle (view m))) (dv_offset (view m))) (f_of_Z 720) ;; time_from_rpm_diff (dv_tooth_rpm (view m)) g).
Definition sk (m : Z) : Z := Zfloor ((IZR (soff m) - T 0) / C + / 2).
Definition sh (deg m : Z) : Z := get (time_from_rpm_diff (dv_rpm (view m)) (f_of_Z deg)).
Definition sE : Z := Zceil (5 + e0 + b * (11 / 10 * C)).
Definition sEn : Z := Zceil (5 + e0 + b * lookahead dpt q late dwell).
Definition sa : Z := Zceil e0 + 2.
Definition sG : Z := Zceil (2 * q + 2).
Definition sN : Z := late + sG + 4 * dwell + sE + sa.

Lemma floor_le x : (IZR (Zfloor x) <= x < IZR (Zfloor x) + 1)%R.
Proof. split; [apply Zfloor_lb|apply Zfloor_ub]. Qed.
Lemma ceil_le x : (x <= IZR (Zceil x) < x + 1)%R.
Proof. split; [apply Zceil_ub|]. unfold Zceil. rewrite opp_IZR. pose proof (floor_le (- x)). lra. Qed.

Let W1 : (/ 100 <= dpt)%R. Proof. apply Rg. Qed.
Let Q16 : (16 <= q)%R. Proof. apply Rg. Qed.
Let Sp : (20 <= speed_of dpt q <= 1000000)%R. Proof. apply Rg. Qed.
Let Hw : (0 < w)%R. Proof. unfold w. apply Rdiv_lt_0_compat; lra. Qed.
Let Sw : speed_of dpt q = (2000000 / 3 * w)%R. Proof. unfold speed_of, w. field. lra. Qed.
Let He0 : (0 < e0 <= q / 4)%R.
Proof.
  unfold e0. split; [apply Rdiv_lt_0_compat; lra|]. unfold Rdiv. apply Rmult_le_compat_l; [lra|]. apply Rinv_le; lra.
Qed.
Let Hb : (0 < b)%R.
Proof. unfold b. assert (0 < / q)%R by (apply Rinv_0_lt_compat; lra). assert (0 < / speed_of dpt q)%R by (apply Rinv_0_lt_compat; lra). unfold Rdiv. lra. Qed.
Let wC : (w * C = 720)%R. Proof. unfold w, C, cycle_ticks. field. lra. Qed.
Let HC : (0 < C)%R. Proof. unfold C, cycle_ticks. apply Rdiv_lt_0_compat; lra. Qed.
Let Plan : (7 + e0 + b * (11 / 10 * C) <= C / 32)%R. Proof. exact (rg_plan _ _ _ _ _ Rg). Qed.
Let Dwl : (2 * (7 + e0 + b * lookahead dpt q late dwell) < 4 * IZR dwell)%R. Proof. exact (rg_dwell _ _ _ _ _ Rg). Qed.
Let Rst : 0 < mf -> (2 * (7 + e0 + b * (11 / 10 * C)) < 4 * IZR dwell)%R. Proof. exact (rg_rest _ _ _ _ _ Rg). Qed.
Let Lk : lookahead dpt q late dwell = (IZR late + 2 * q + 3 + 4 * IZR dwell + 3 * (7 + e0 + b * (11 / 10 * C)))%R. Proof. reflexivity. Qed.
Let Fit : (lookahead dpt q late dwell + 4 * IZR mf + 513 <= C)%R. Proof. exact (rg_fit _ _ _ _ _ Rg). Qed.
Let bC : (0 < b * C)%R. Proof. apply Rmult_lt_0_compat; lra. Qed.
Let b_small : (b <= / 35)%R.
Proof. apply Rmult_le_reg_r with C; [lra|]. lra. Qed.
Let C224 : (224 <= C)%R. Proof. lra. Qed.

(** One prediction. *)
Lemma tooth_aim m : m0 <= m -> exists g t j, clamp_angle (fadd (fsub (fsub ang adv) (dv_last_angle (view m))) (dv_offset (view m))) (f_of_Z 720) = Ok g /\
  time_from_rpm_diff (dv_tooth_rpm (view m)) g = Ok t /\ 0 <= t /\
  (- (1 + e0) <= T j - IZR (tt m) <= C + 1 + e0)%R /\ (Rabs (IZR (tt m + t) - T j) <= 3 + e0 + b * IZR t)%R /\ (IZR t <= 11 / 10 * C)%R /\
  (Rabs (T j - (tau + q * IZR (idx m)) - R_ g / w) <= e0)%R.
Proof.
  intros Hm. destruct (Tk m Hm) as (d & TK & ->). pose proof (tracks_aim c tau q zero (idx m) (tt m) d ltac:(lra) Q16 Sp TK) as (Tr & _).
  destruct TK as (V & Rp & Rs & Al & Ti & CS & (z & An) & y & Y1 & Y2). cbv zeta in *. cbn [seen dv_last_angle dv_offset dv_tooth_rpm].
  destruct (ignition_angle ang adv (dd_last_angle d) (dc_offset c) Aa Av Al Ao) as (ga & kk & Eg & Vg & Fg & Bg & Ag).
  destruct (time_from_rpm_accuracy (dd_tooth_rpm d) ga Tr Vg Fg ltac:(lra)) as (t & Et & Bt & At). cbv zeta in At.
  pose proof (aim w q (speed_of dpt q) (IZR (dd_tooth_rpm d)) y (IZR t) (R_ ga) Hw Q16 Sw ltac:(lra) Y1 Y2 ltac:(lra) At) as A. fold b in A.
  exists ga, t, (kk + z). split; [exact Eg|]. split; [exact Et|]. split; [lia|].
  (* in ticks *)
  set (eta := (IZR (tt m) - (tau + q * IZR (idx m)))%R) in *. set (del := (R_ ga - (R_ ang - R_ adv - R_ (dd_last_angle d) + R_ (dc_offset c) + 720 * IZR kk))%R) in *.
  assert (ET : (T (kk + z) - IZR (tt m) = R_ ga / w - del / w - eta)%R).
  { unfold spark_tick, eta, del, w. rewrite An, plus_IZR, minus_IZR. field. lra. }
  assert (Gw : (0 <= R_ ga / w <= C)%R).
  { replace C with (720 / w)%R by (rewrite <- wC; field; lra). split; [apply Rle_mult_inv_pos; lra|]. unfold Rdiv. apply Rmult_le_compat_r; [left; apply Rinv_0_lt_compat; lra|lra]. }
  assert (Dw : (- e0 <= del / w <= e0)%R).
  { assert (E1 : e0 = (/ 400 / w)%R) by (unfold e0, w; field; lra). rewrite E1. apply Rabs_le_inv in Ag. replace (- (/ 400 / w))%R with (- / 400 / w)%R by (field; lra). split; unfold Rdiv; apply Rmult_le_compat_r; try lra; left; apply Rinv_0_lt_compat; lra. }
  apply Rabs_le_inv in CS. split; [rewrite ET; lra|].
  assert (Aw : (- (2 + b * IZR t) <= IZR t - R_ ga / w <= 2 + b * IZR t)%R).
  { apply Rabs_le_inv in A. assert (Eq : (IZR t - R_ ga / w = (w * IZR t - R_ ga) / w)%R) by (field; lra). rewrite Eq.
    replace (2 + b * IZR t)%R with ((2 * w + w * IZR t * b) / w)%R by (field; lra). replace (- ((2 * w + w * IZR t * b) / w))%R with (- (2 * w + w * IZR t * b) / w)%R by (field; lra).
    split; unfold Rdiv; apply Rmult_le_compat_r; try lra; left; apply Rinv_0_lt_compat; lra. }
  split; [apply Rabs_le; rewrite plus_IZR; lra|].
  assert (T0 : (0 <= IZR t)%R) by (apply IZR_le; lia). assert (b * IZR t <= / 35 * IZR t)%R by (apply Rmult_le_compat_r; lra). split; [lra|]. unfold eta in ET. apply Rabs_le. split; lra.
Qed.
Lemma tooth_speed90 deg m : m0 <= m -> deg = 90 \/ deg = 180 -> time_from_rpm_diff (dv_rpm (view m)) (f_of_Z deg) = Ok (sh deg m) /\
  (IZR deg / 720 * C * (2 / 3) - 2 - C / 1000 <= IZR (sh deg m) <= IZR deg / 720 * C * 2 + 2 + C / 1000)%R.
Proof.
  intros Hm Hd. destruct (Tk m Hm) as (d & TK & Ev). unfold sh. rewrite Ev. destruct TK as (V & Rp & Rs & Al & Ti & CS & _). cbv zeta in *. cbn [seen dv_rpm].
  destruct (f_of_Z_exact deg) as [E1 F1]; [cbn; lia|].
  assert (Bd : (90 <= IZR deg <= 180)%R) by (destruct Hd; subst; lra).
  destruct (time_from_rpm_accuracy (dd_rpm d) (f_of_Z deg)) as (h & H3 & H4 & H5); auto using vf_of_Z; [rewrite E1; lra|]. rewrite H3. cbn [get]. split; [reflexivity|].
  cbv zeta in H5. rewrite E1 in H5. set (S := speed_of dpt q) in *. set (r := IZR (dd_rpm d)) in *.
  assert (EC : (2000000 / 3 * IZR deg / r = IZR deg / 720 * C * (S / r))%R).
  { unfold C, cycle_ticks, S, speed_of. field. split; lra. }
  rewrite EC in H5. assert (Sr : (2 / 3 <= S / r <= 2)%R).
  { split; apply Rmult_le_reg_r with r; try lra; replace (S / r * r)%R with S by (field; lra); lra. }
  set (k := (IZR deg / 720 * C)%R) in *. assert (K0 : (0 <= k <= C / 4)%R) by (unfold k; split; [apply Rmult_le_pos; lra|]; apply Rle_trans with (180 / 720 * C)%R; [apply Rmult_le_compat_r; lra|lra]).
  assert (k * (2 / 3) <= k * (S / r) <= k * 2)%R by (split; apply Rmult_le_compat_l; lra). apply Rabs_le_inv in H5. assert (0 <= C <= 268435456)%R by (pose proof (rg_slow _ _ _ _ _ Rg) as Z1; fold C in Z1; lra). set (u := (k * (S / r))%R) in *. split; lra.
Qed.

Lemma T_step j i : (T (j + i) = T j + C * IZR i)%R.
Proof. unfold spark_tick, C, cycle_ticks. rewrite plus_IZR. field. lra. Qed.

Lemma coarse : (IZR sE < 6 + e0 + b * (11 / 10 * C))%R /\ (5 + e0 + b * (11 / 10 * C) <= IZR sE)%R.
Proof. unfold sE. pose proof (ceil_le (5 + e0 + b * (11 / 10 * C))). lra. Qed.
Lemma look0 : (0 <= lookahead dpt q late dwell)%R.
Proof. rewrite Lk. pose proof (rg_us _ _ _ _ _ Rg) as (U1 & U2 & U3). apply IZR_le in U3. destruct U1 as [U1 _]. apply IZR_le in U1. lra. Qed.
Lemma fine : (IZR sEn < 6 + e0 + b * lookahead dpt q late dwell)%R /\ (5 + e0 + b * lookahead dpt q late dwell <= IZR sEn)%R.
Proof. unfold sEn. pose proof (ceil_le (5 + e0 + b * lookahead dpt q late dwell)). lra. Qed.
Lemma aim_k m : m0 <= m -> exists g t, clamp_angle (fadd (fsub (fsub ang adv) (dv_last_angle (view m))) (dv_offset (view m))) (f_of_Z 720) = Ok g /\
  time_from_rpm_diff (dv_tooth_rpm (view m)) g = Ok t /\ soff m = tt m + t /\ 0 <= t /\
  (- (1 + e0) <= T (sk m) - IZR (tt m) <= C + 1 + e0)%R /\ (Rabs (IZR (soff m) - T (sk m)) <= 3 + e0 + b * IZR t)%R /\ (IZR t <= 11 / 10 * C)%R /\
  (Rabs (T (sk m) - (tau + q * IZR (idx m)) - R_ g / w) <= e0)%R.
Proof.
  intros Hm. destruct (tooth_aim m Hm) as (g & t & j & E1 & E2 & T0 & H1 & H2 & H3 & H4). exists g, t. split; [exact E1|]. split; [exact E2|].
  assert (Es : soff m = tt m + t) by (unfold soff; rewrite E1; cbn [bind]; rewrite E2; reflexivity). split; [exact Es|]. split; [exact T0|].
  assert (Ek : sk m = j).
  { unfold sk. apply Zfloor_imp. rewrite plus_IZR. rewrite Es. pose proof (T_step 0 j) as ST. rewrite Z.add_0_l in ST. apply Rabs_le_inv in H2. rewrite ST in H2.
    assert (b * IZR t <= b * (11 / 10 * C))%R by (apply Rmult_le_compat_l; lra).
    assert (- (C / 32) <= IZR (tt m + t) - (T 0 + C * IZR j) <= C / 32)%R by lra.
    assert (Eq : ((IZR (tt m + t) - T 0) / C = IZR j + (IZR (tt m + t) - (T 0 + C * IZR j)) / C)%R) by (field; lra). rewrite Eq. set (x := (IZR (tt m + t) - (T 0 + C * IZR j))%R) in *.
    assert (- / 32 <= x / C <= / 32)%R by (split; apply Rmult_le_reg_r with C; try lra; replace (x / C * C)%R with x by (field; lra); lra). lra. }
  rewrite Ek. split; [exact H1|]. split; [rewrite Es; exact H2|]. split; [exact H3|exact H4].
Qed.

Lemma teeth m : m0 <= m -> (IZR (tt m) + q - 2 <= IZR (tt (m + 1)) <= IZR (tt m) + 2 * q + 2)%R \/ (idx (m + 1) = idx m /\ tt (m + 1) = tt m /\ dv_last_angle (view (m + 1)) = dv_last_angle (view m)).
Proof.
  intros Hm. destruct (Tk m Hm) as (d & TK & _). destruct TK as (_ & _ & _ & _ & _ & C1 & _). destruct (Tk (m + 1) ltac:(lia)) as (d' & TK' & _). destruct TK' as (_ & _ & _ & _ & _ & C2 & _).
  destruct (Hidx m Hm) as [[I1 I2]|Sm]; [left|right; exact Sm]. apply IZR_le in I1. apply IZR_le in I2. rewrite plus_IZR in I1, I2. apply Rabs_le_inv in C1. apply Rabs_le_inv in C2.
  assert (q * (IZR (idx m) + 1) <= q * IZR (idx (m + 1)) <= q * (IZR (idx m) + 2))%R by (split; apply Rmult_le_compat_l; lra). lra.
Qed.

Lemma E_pos : 0 <= sE.
Proof. apply le_IZR. pose proof coarse. assert (0 <= b * (11 / 10 * C))%R by (apply Rmult_le_pos; lra). lra. Qed.
Lemma sa_le : (IZR sa < e0 + 3)%R /\ (e0 + 2 <= IZR sa)%R.
Proof. unfold sa. rewrite plus_IZR. pose proof (ceil_le e0). lra. Qed.
Lemma sP_le : (IZR sP <= C < IZR sP + 1)%R.
Proof. apply floor_le. Qed.
Lemma sG_le : (2 * q + 2 <= IZR sG < 2 * q + 3)%R.
Proof. unfold sG. pose proof (ceil_le (2 * q + 2)). lra. Qed.
Lemma sX_le j : (IZR (sX j) <= T j < IZR (sX j) + 1)%R.
Proof. apply floor_le. Qed.

Lemma HX j : sP <= sX (j + 1) - sX j <= Zceil C.
Proof.
  pose proof (sX_le j) as A1. pose proof (sX_le (j + 1)) as H1. rewrite T_step in H1. replace (C * 1)%R with C in H1 by ring. pose proof sP_le as A2.
  pose proof (ceil_le C) as A3. assert (H2 : (IZR (sX (j + 1)) - IZR (sX j) - IZR sP > -1)%R) by lra. assert (H3 : (IZR (sX (j + 1)) - IZR (sX j) - IZR (Zceil C) < 1)%R) by lra. rewrite <- !minus_IZR in H2, H3.
  apply lt_IZR in H3. assert (-1 < sX (j + 1) - sX j - sP) by (apply lt_IZR; lra). lia.
Qed.
Lemma Ht m : m0 <= m -> tt m <= tt (m + 1) <= tt m + sG.
Proof.
  intros Hm. pose proof sG_le as A3. destruct (teeth m Hm) as [A1|(_ & -> & _)].
  - split; apply le_IZR; rewrite ?plus_IZR; lra.
  - split; [lia|]. apply le_IZR. rewrite plus_IZR. lra.
Qed.
Lemma Hk0 m : m0 <= m -> tt m - sa <= sX (sk m) /\ sX (sk m - 1) <= tt m + sa.
Proof.
  intros Hm. destruct (aim_k m Hm) as (_ & _ & _ & _ & _ & _ & A & _). pose proof (sX_le (sk m)). pose proof sa_le. pose proof (sX_le (sk m - 1)). pose proof (T_step (sk m - 1) 1) as ST. replace (sk m - 1 + 1) with (sk m) in ST by ring.
  split; apply le_IZR; rewrite ?plus_IZR, ?minus_IZR; lra.
Qed.
Lemma Hmon m : m0 <= m -> sk m <= sk (m + 1).
Proof.
  intros Hm. destruct (aim_k m Hm) as (g & _ & Eg & _ & _ & _ & A & _ & _ & B). destruct (aim_k (m + 1) ltac:(lia)) as (g' & _ & Eg' & _ & _ & _ & A' & _ & _ & B').
  destruct (Z.le_gt_cases (sk m) (sk (m + 1))) as [|L]; [auto|exfalso].
  assert (Ej : (T (sk m) = T (sk (m + 1)) + C * IZR (sk m - sk (m + 1)))%R) by (rewrite <- T_step; f_equal; lia).
  assert (L1 : (1 <= IZR (sk m - sk (m + 1)))%R) by (apply IZR_le; lia). assert (C * 1 <= C * IZR (sk m - sk (m + 1)))%R by (apply Rmult_le_compat_l; lra).
  destruct (teeth m Hm) as [A1|(Ei & _ & Ea)]; [lra|]. assert (g' = g).
  { rewrite Ea in Eg'. destruct (Tk m Hm) as (d & _ & Ev). destruct (Tk (m + 1) ltac:(lia)) as (d' & _ & Ev'). rewrite Ev in Eg. rewrite Ev' in Eg'. rewrite Ev in Eg'. cbn [seen dv_offset] in *. congruence. }
  subst g'. rewrite Ei in B'. apply Rabs_le_inv in B. apply Rabs_le_inv in B'. lra.
Qed.
Lemma Hoff m : m0 <= m -> tt m <= soff m /\ - sE <= soff m - sX (sk m) <= sE.
Proof.
  intros Hm. destruct (aim_k m Hm) as (_ & t & _ & _ & Es & T0 & _ & A & B & _). split; [lia|]. pose proof (sX_le (sk m)). pose proof coarse. apply Rabs_le_inv in A.
  assert (b * IZR t <= b * (11 / 10 * C))%R by (apply Rmult_le_compat_l; lra). split; apply le_IZR; rewrite ?opp_IZR, minus_IZR; lra.
Qed.
Lemma Hnear m : m0 <= m -> sX (sk m) - tt m <= sN -> - sEn <= soff m - sX (sk m) <= sEn.
Proof.
  intros Hm Hn. destruct (Hoff m Hm) as [_ Ho]. destruct (aim_k m Hm) as (_ & t & _ & _ & Es & T0 & _ & A & B & _). pose proof (sX_le (sk m)). pose proof fine. apply Rabs_le_inv in A.
  assert (Bt : t <= late + sG + 4 * dwell + 3 * sE).
  { unfold sN in Hn. assert (sa <= sE). { apply le_IZR. pose proof sa_le. pose proof coarse. assert (0 <= b * (11 / 10 * C))%R by (apply Rmult_le_pos; lra). lra. } lia. }
  assert (Bl : (IZR t <= lookahead dpt q late dwell)%R).
  { apply IZR_le in Bt. rewrite !plus_IZR, !mult_IZR in Bt. rewrite Lk. pose proof coarse. pose proof sG_le. lra. }
  assert (b * IZR t <= b * lookahead dpt q late dwell)%R by (apply Rmult_le_compat_l; lra). split; apply le_IZR; rewrite ?opp_IZR, minus_IZR; lra.
Qed.
Lemma Hq m : m0 <= m -> 2 * sE < sh 90 m <= sX (sk m) - sX (sk m - 1) - 2 * sE.
Proof.
  intros Hm. pose proof (HX (sk m - 1)) as [S _]. replace (sk m - 1 + 1) with (sk m) in S by ring. apply IZR_le in S. rewrite minus_IZR in S. destruct (tooth_speed90 90 m Hm ltac:(auto)) as [_ B]. pose proof coarse. pose proof sP_le.
  split; [apply lt_IZR|apply le_IZR]; rewrite ?minus_IZR, ?mult_IZR; lra.
Qed.
Lemma Hh m : m0 <= m -> 2 * sE < sh 180 m < sX (sk m) - sX (sk m - 1) - 2 * sE.
Proof.
  intros Hm. pose proof (HX (sk m - 1)) as [S _]. replace (sk m - 1 + 1) with (sk m) in S by ring. apply IZR_le in S. rewrite minus_IZR in S. destruct (tooth_speed90 180 m Hm ltac:(auto)) as [_ B]. pose proof coarse. pose proof sP_le.
  split; apply lt_IZR; rewrite ?minus_IZR, ?mult_IZR; lra.
Qed.
Lemma HE : 0 <= sEn <= sE.
Proof.
  pose proof look0. split; [apply le_IZR; pose proof fine; assert (0 <= b * lookahead dpt q late dwell)%R by (apply Rmult_le_pos; lra); lra|].
  unfold sEn, sE. apply Zceil_le. apply Rplus_le_compat_l. apply Rmult_le_compat_l; [lra|]. pose proof (proj1 (proj2 (rg_us _ _ _ _ _ Rg))) as [U _]. apply IZR_le in U. lra.
Qed.
Lemma Ha0 : 0 <= sa <= sE.
Proof.
  pose proof sa_le. pose proof coarse. assert (0 <= b * (11 / 10 * C))%R by (apply Rmult_le_pos; lra). split; apply le_IZR; lra.
Qed.
Lemma HP : 4 * dwell + 2 * sE + 512 + sG + late + 4 * mf + sa <= sP.
Proof.
  apply Z.lt_succ_r. apply lt_IZR. unfold Z.succ. rewrite !plus_IZR, !mult_IZR. pose proof sP_le. pose proof sG_le. pose proof coarse. pose proof (proj2 Ha0) as A. apply IZR_le in A. rewrite Lk in Fit. lra.
Qed.
Lemma HPW : sP <= Zceil C <= 2 ^ 28.
Proof.
  pose proof (rg_slow _ _ _ _ _ Rg) as Z1. fold C in Z1. split; [apply le_IZR; pose proof sP_le; pose proof (ceil_le C); lra|]. apply (Zceil_glb (2 ^ 28)). change (IZR (2 ^ 28)) with 268435456%R. lra.
Qed.
Lemma HD : 2 * sEn < 4 * dwell /\ (0 < 4 * mf -> 2 * sE < 4 * dwell).
Proof. pose proof coarse. pose proof fine. split; [|intros Hm; specialize (Rst ltac:(lia))]; apply lt_IZR; rewrite !mult_IZR; lra. Qed.
Lemma Hview m : m0 <= m -> dv_rpm (view m) <> 0 /\ dv_valid (view m) <> 0 /\ dv_last_time (view m) = w32 (tt m) /\
  (exists g, clamp_angle (fadd (fsub (fsub ang adv) (dv_last_angle (view m))) (dv_offset (view m))) (f_of_Z 720) = Ok g /\ time_from_rpm_diff (dv_tooth_rpm (view m)) g = Ok (soff m - tt m)) /\
  time_from_rpm_diff (dv_rpm (view m)) (f_of_Z 90) = Ok (sh 90 m) /\ time_from_rpm_diff (dv_rpm (view m)) (f_of_Z 180) = Ok (sh 180 m).
Proof.
  intros Hm. destruct (aim_k m Hm) as (g & t & E1 & E2 & Es & _). pose proof (proj1 (tooth_speed90 90 m Hm ltac:(auto))). pose proof (proj1 (tooth_speed90 180 m Hm ltac:(auto))).
  assert (G : exists g, clamp_angle (fadd (fsub (fsub ang adv) (dv_last_angle (view m))) (dv_offset (view m))) (f_of_Z 720) = Ok g /\ time_from_rpm_diff (dv_tooth_rpm (view m)) g = Ok (soff m - tt m)).
  { exists g. split; [exact E1|]. rewrite E2. f_equal. lia. }
  destruct (Tk m Hm) as (d & TK & Ev). destruct TK as (V & Rp & _ & _ & Ti & _). split; [rewrite Ev; cbn [seen dv_rpm]; lia|]. split; [rewrite Ev; cbn [seen dv_valid]; lia|]. split; [rewrite Ev; exact Ti|]. auto.
Qed.

Lemma decide_aim nd m o p : m0 <= m -> match_out o p -> o_angle o = ang ->
  exists o1, let '(p1, r) := adecide (4 * dwell) (4 * mf) (sh 90 m) (sh 180 m) (soff m) p in
    decide nd mf (view m) o adv dwell = Ok (o1, wrap r) /\ match_out o1 p1 /\ (o1 = o \/ (event_has_fired o = true /\ reset_fired_event nd o = Ok o1)).
Proof.
  intros Hm M An. pose proof (rg_us _ _ _ _ _ Rg) as (U1 & U2 & U3). destruct (Hview m Hm) as (V1 & V2 & V3 & (g & V4 & V5) & V6 & V7). rewrite <- An in V4.
  pose proof (decide_match nd mf (view m) o adv dwell g (soff m - tt m) (tt m) (4 * dwell) (4 * mf) (sh 90 m) (sh 180 m) p M V1 V2 V4 V5 V3) as Q.
  replace (tt m + (soff m - tt m)) with (soff m) in Q by ring. apply Q; auto; apply time_from_us_exact; lia.
Qed.

(** ** The run *)
Variables (fu : bool) (nd : bool) (dec : Z -> dview -> output -> res (output * option (Z * Z))) (width : Z -> Prop) (i : nat) (pin n : Z) (os : list output) (o : output).
Hypothesis Hdec : forall m o p, m0 <= m -> match_out o p -> o_angle o = ang ->
  exists o1, let '(p1, r) := adecide (4 * dwell) (4 * mf) (sh 90 m) (sh 180 m) (soff m) p in
    dec m (view m) o = Ok (o1, wrap r) /\ match_out o1 p1 /\ (o1 = o \/ (event_has_fired o = true /\ reset_fired_event nd o = Ok o1)).
Hypothesis Hwidth : forall x, (Rabs (IZR x - 4 * IZR dwell) <= 2 * miss dpt q (lookahead dpt q late dwell))%R -> (fu = true -> x = 4 * dwell) -> width x.
Hypothesis Hpin : 0 <= pin < 16.
Hypothesis Hopen : open_from n <= tt m0 + late.
Hypothesis Ho : nth_error os i = Some o.
Hypothesis Hfr : Forall fresh os.
Hypothesis Hps : Forall (fun o => 0 <= o_pin o mod 256 < 32) os.
Hypothesis Hal : alone pin i os.
Hypothesis Hty : is_fuel (o_type o) = fu.
Hypothesis Han : o_angle o = ang.

Lemma level_pulses iv l : map (level iv) (whole l) = pulses iv l.
Proof. induction l as [|[x y] l IH]; [reflexivity|]. cbn [whole pulses flat_map app map fst snd level]. cbn [whole pulses] in IH. unfold whole, pulses in IH. rewrite IH. destruct iv; reflexivity. Qed.

Lemma crank_tick t j e before : (Rabs (IZR t + before - T j) <= e)%R -> at_cycle dpt tau q zero target j before e t.
Proof.
  intros H. unfold at_cycle. fold w. assert (E : (crank_at dpt tau q zero t + w * before - (target + 720 * IZR j) = w * (IZR t + before - T j))%R).
  { unfold crank_at, spark_tick, w, target. field. lra. }
  rewrite E, Rabs_mult, (Rabs_pos_eq w) by lra. apply Rmult_le_compat_l; lra.
Qed.

Lemma run_pulses l s : exec nd dec view tt i pin late (St (start_sys n os) None m0 Waiting []) l s ->
  (forall e, may tt i late s e -> (forall a, e <> Other a) -> exists s', go nd dec view i pin s e = Ok s') /\
  exists j0, (crank_at dpt tau q zero (tt m0) - w * miss dpt q 0 <= target + 720 * IZR j0 <= crank_at dpt tau q zero (tt m0) + 2160 + w * miss dpt q 0)%R /\
    pulse_per_cycle dpt tau q zero target late dwell width (o_inv o) j0 (128 * y_n (st_sys s)) (st_log s).
Proof.
  intros Ex. pose proof (rg_us _ _ _ _ _ Rg) as (U1 & U2 & U3). pose proof E_pos.
  assert (Hoff0 : forall m, m0 <= m -> tt m <= soff m /\ - (sE - 0) <= soff m - sX (sk m) <= sE - 0) by (intros m Hm; destruct (Hoff m Hm); lia).
  assert (Hnear0 : forall m, m0 <= m -> sX (sk m) - tt m <= sN -> - (sEn - 0) <= soff m - sX (sk m) <= sEn - 0) by (intros m Hm Hn; pose proof (Hnear m Hm Hn); lia).
  assert (HV0 : 0 <= 0 /\ (fu = true -> forall m m', m0 <= m -> m0 <= m' -> sk m = sk m' -> (fun _ => 4 * dwell) m - (fun _ => 4 * dwell) m' <= 0)) by (split; intros; lia).
  assert (HD0 : forall m, m0 <= m -> 4 * dwell <= (fun _ : Z => 4 * dwell) m <= 4 * dwell) by (intros; lia).
  set (RR := SparkProofs.R fu tt i pin late ang (o_inv o) sX soff sk (fun _ => 4 * dwell) m0 (4 * dwell) (4 * dwell) (4 * mf) sE sEn sN).
  assert (R0 : RR (St (start_sys n os) None m0 Waiting [])).
  { eapply start_R; eauto. }
  assert (RS : RR s).
  { eapply exec_R; [..|exact Ex|exact R0]; eauto using HX, Ht, Hmon, Hk0, Hoff0, Hnear0, Hq, Hh, HE, Ha0, HV0, HD0, HD, HP, HPW, Hdec; try lia; unfold sN; lia. }
  split.
  { intros e Me No. eapply live_R; [..|exact RS|exact Me|exact No]; eauto using HX, Ht, Hmon, Hk0, Hoff0, Hnear0, Hq, Hh, HE, Ha0, HV0, HD0, HD, HP, HPW, Hdec; try lia; unfold sN; lia. }
  destruct (outcome_R fu tt i pin late ang (o_inv o) sX soff sk (fun _ => 4 * dwell) m0 (4 * dwell) (4 * dwell) 0 (4 * mf) sE sEn sN sG sP (Zceil C) sa) with (s := s) as (j0 & ps & tl & J & Gd & Lg & Tl & Al);
    eauto using HX, Ht, Hmon, Hk0, Hoff0, Hnear0, Hq, Hh, HE, Ha0, HV0, HD0, HD, HP, HPW, Hdec; try lia; try (unfold sN; lia).
  exists j0. split.
  - destruct (aim_k m0 ltac:(lia)) as (_ & _ & _ & _ & _ & _ & A & _). destruct J as [J1 J2].
    assert (Ej : (T j0 = T (sk m0) + C * IZR (j0 - sk m0))%R) by (rewrite <- T_step; f_equal; lia).
    assert (0 <= IZR (j0 - sk m0) <= 2)%R by (split; apply IZR_le; lia). assert (0 <= C * IZR (j0 - sk m0) <= C * 2)%R by (split; [apply Rmult_le_pos; lra|apply Rmult_le_compat_l; lra]).
    assert (Ec : (target + 720 * IZR j0 = crank_at dpt tau q zero (tt m0) + w * (T j0 - IZR (tt m0)))%R) by (unfold crank_at, spark_tick, w, target; field; lra).
    rewrite Ec. assert (M0 : (miss dpt q 0 = 7 + e0)%R) by (unfold miss; fold e0; ring). rewrite M0.
    assert (w * (- (1 + e0)) <= w * (T j0 - IZR (tt m0)) <= w * (3 * C + 1 + e0))%R by (split; apply Rmult_le_compat_l; lra).
    assert (w * (3 * C + 1 + e0) = 2160 + w * (1 + e0))%R by (rewrite <- (Rmult_1_r (2160)); replace 2160%R with (3 * (w * C))%R by (rewrite wC; lra); ring).
    assert (0 <= w * e0)%R by (apply Rmult_le_pos; lra). lra.
  - pose proof fine as [Fn _]. unfold pulse_per_cycle. fold b. cbv zeta.
    assert (Ms : miss dpt q (lookahead dpt q late dwell) = (7 + e0 + b * lookahead dpt q late dwell)%R) by reflexivity. rewrite Ms.
    exists ps, (map (level (o_inv o)) tl). split; [rewrite Lg, map_app, level_pulses; reflexivity|]. split; [|split].
    + intros k on off Hi. destruct (Gd k on off Hi) as [Ga Gb]. destruct (aimed_const fu sX tt soff sk m0 (4 * dwell) sEn sN _ _ Hnear0 Ga) as [[G1 G2] Gc]. destruct (Gc _ Gb) as [[G3 G4] G5]. pose proof (sX_le (j0 + Z.of_nat k)).
      apply IZR_le in G1, G2, G3, G4. rewrite ?opp_IZR, ?minus_IZR, ?mult_IZR in *. split; [apply crank_tick; apply Rabs_le; lra|]. apply Hwidth; [|intros Q; specialize (G5 Q); lia]. rewrite Ms, minus_IZR. apply Rabs_le; lra.
    + destruct Tl as [->|(a & -> & Qa)]; [left; reflexivity|]. destruct (aimed_const fu sX tt soff sk m0 (4 * dwell) sEn sN _ _ Hnear0 Qa) as [[Q1 Q2] _]. right. exists a. split; [reflexivity|]. pose proof (sX_le (j0 + Z.of_nat (length ps))).
      apply IZR_le in Q1, Q2. rewrite ?opp_IZR, ?minus_IZR, ?mult_IZR in *. apply crank_tick. apply Rabs_le; lra.
    + intros j Hj Hc. apply Al; [exact Hj|]. apply lt_IZR. rewrite plus_IZR. pose proof (sX_le j). pose proof coarse as [Ce _].
      assert (Mc : miss dpt q (11 / 10 * cycle_ticks dpt q) = (7 + e0 + b * (11 / 10 * C))%R) by reflexivity. rewrite Mc in Hc. fold w in Hc.
      assert (Ec : (crank_at dpt tau q zero (128 * y_n (st_sys s)) = target + 720 * IZR j + w * (IZR (128 * y_n (st_sys s)) - T j))%R) by (unfold crank_at, spark_tick, w, target; field; lra).
      rewrite Ec in Hc. assert (Hc' : (w * (7 + e0 + b * (11 / 10 * C)) < w * (IZR (128 * y_n (st_sys s)) - T j))%R) by lra. apply Rmult_lt_reg_l in Hc'; [|exact Hw]. lra.
Qed.
End Aim.

(** ** The two kinds of outputs *)
Lemma sub_zero x : fsub x f_zero = x.
Proof. destruct x as [[]|[]| |[]]; reflexivity. Qed.
Lemma fuel_is_spark nd d o pw : 0 <= pw <= 16777216 -> decide_fuel nd d o pw = decide nd 0 d o f_zero pw.
Proof.
  intros Hp. unfold decide_fuel, decide. rewrite sub_zero. destruct (_ || _); [reflexivity|]. destruct (clamp_angle _ _); [|reflexivity]. cbn [bind]. destruct (time_from_rpm_diff _ _) as [z|]; [|reflexivity]. cbn [bind].
  rewrite time_from_us_exact by lia. cbn [bind]. assert (E : w32 (4 * pw) = 4 * pw) by (apply Z.mod_small; unfold W; lia). rewrite E.
  destruct (recycle _ _ _ _) as [[o1|]|]; [|reflexivity|reflexivity]. cbn [bind]. destruct (moves_too_far _ _ _) as [[]|]; try reflexivity. cbn [bind]. rewrite time_from_us_exact by lia. cbn [bind].
  destruct (Z.ltb_spec (time_diff (w32 (w32 (dv_last_time d + z)  - 4 * pw)) (e_time (o_stop o1))) (4 * 0)) as [L|]; [|reflexivity]. exfalso. unfold time_diff, w32 in L.
  match type of L with ?a mod W < _ => pose proof (Z.mod_pos_bound a W ltac:(unfold W; lia)) end. lia.
Qed.
