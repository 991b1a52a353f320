(** A missing-tooth wheel at steady speed: the decoder syncs at the first gap and keeps counting. *)
Require Import ZArith Reals List Bool Lia Lra.
From Flocq Require Import Core.
From Verif Require Import Res Word F32 F32Flocq TimeProofs TableProofs AngleProofs PulseProofs RelErr Arr Decoder DecoderProofs DecoderSafe DecoderRun DecoderMissing DecoderAngle DecoderLoss Wheel.
Import ListNotations.
Open Scope Z_scope.

(** ** Slots *)
Section slots.
Variable num : Z.
Hypothesis num3 : 3 <= num.

Lemma slot_back m k : 0 <= k <= num - 1 -> slot num m - slot num (m - k) = k + (if m mod (num - 1) <? k then 1 else 0).
Proof using num3.
  intros Hk. unfold slot. pose proof (Z.div_mod m (num - 1) ltac:(lia)) as E. pose proof (Z.mod_pos_bound m (num - 1) ltac:(lia)) as B.
  set (q := m / (num - 1)) in *. set (u := m mod (num - 1)) in *.
  destruct (Z.ltb_spec u k) as [L|L].
  - destruct (Z.div_mod_unique (num - 1) ((m - k) / (num - 1)) (q - 1) ((m - k) mod (num - 1)) (u - k + (num - 1))) as [E1 E2];
      [left; apply Z.mod_pos_bound; lia|left; lia|rewrite <- Z.div_mod; lia|]. rewrite E1, E2. lia.
  - destruct (Z.div_mod_unique (num - 1) ((m - k) / (num - 1)) q ((m - k) mod (num - 1)) (u - k)) as [E1 E2];
      [left; apply Z.mod_pos_bound; lia|left; lia|rewrite <- Z.div_mod; lia|]. rewrite E1, E2. lia.
Qed.
Lemma slot_succ m : slot num (m + 1) = slot num m + (if (m + 1) mod (num - 1) =? 0 then 2 else 1).
Proof using num3.
  pose proof (slot_back (m + 1) 1 ltac:(lia)) as E. replace (m + 1 - 1) with m in E by ring.
  pose proof (Z.mod_pos_bound (m + 1) (num - 1) ltac:(lia)). destruct (Z.ltb_spec ((m + 1) mod (num - 1)) 1), (Z.eqb_spec ((m + 1) mod (num - 1)) 0); lia.
Qed.
Lemma mod_succ m : (m + 1) mod (num - 1) = if m mod (num - 1) + 1 =? num - 1 then 0 else m mod (num - 1) + 1.
Proof using num3.
  pose proof (Z.mod_pos_bound m (num - 1) ltac:(lia)). rewrite <- Zplus_mod_idemp_l. destruct (Z.eqb_spec (m mod (num - 1) + 1) (num - 1)) as [->|N].
  - apply Z.mod_same. lia.
  - apply Z.mod_small. lia.
Qed.
Lemma slot_mono m k : 0 <= k -> slot num m <= slot num (m + k).
Proof using num3.
  intros Hk. pattern k. apply natlike_ind; auto; [rewrite Z.add_0_r; lia|]. intros x Hx IH. replace (m + Z.succ x) with (m + x + 1) by ring. rewrite slot_succ.
  destruct (_ =? _); lia.
Qed.
End slots.

Lemma first_gap_spec num r s : 3 <= num -> let g := first_gap num r s in g mod (num - 1) = 0 /\ s + r <= g /\ forall m, s + r <= m -> m mod (num - 1) = 0 -> g <= m.
Proof.
  intros H g. unfold g, first_gap. set (q := (s + r + num - 2) / (num - 1)).
  assert (Q : (num - 1) * q <= s + r + num - 2 < (num - 1) * q + (num - 1)).
  { unfold q. pose proof (Z.mod_pos_bound (s + r + num - 2) (num - 1) ltac:(lia)). pose proof (Z.div_mod (s + r + num - 2) (num - 1) ltac:(lia)). lia. }
  split; [rewrite Z.mul_comm; apply Z_mod_mult|]. split; [lia|]. intros m Hm Z. apply Z.mod_divide in Z; [|lia]. destruct Z as [x ->].
  assert (q < x + 1) by (apply (Z.mul_lt_mono_pos_l (num - 1)); lia). rewrite (Z.mul_comm x). apply Z.mul_le_mono_nonneg_l; lia.
Qed.

(** ** Spans of slots *)
Lemma span f a b k0 n : 0 <= n -> (forall i, k0 <= i < k0 + n -> a <= f (i + 1) - f i <= b) -> n * a <= f (k0 + n) - f k0 <= n * b.
Proof.
  intros Hn. pattern n. apply natlike_ind; auto; [intros _; rewrite Z.add_0_r; lia|]. intros x Hx IH H.
  specialize (IH ltac:(intros i Hi; apply H; lia)). specialize (H (k0 + x) ltac:(lia)). replace (k0 + Z.succ x) with (k0 + x + 1) by ring. nia.
Qed.
Lemma span_between f a b lo hi : lo <= hi -> (forall i, lo <= i < hi -> a <= f (i + 1) - f i <= b) -> (hi - lo) * a <= f hi - f lo <= (hi - lo) * b.
Proof. intros H K. pose proof (span f a b lo (hi - lo) ltac:(lia) ltac:(intros i Hi; apply K; lia)) as E. now replace (lo + (hi - lo)) with hi in E by ring. Qed.

Lemma w32_diff x y : 0 <= x - y < W -> w32 (w32 x - w32 y) = x - y.
Proof. intros H. unfold w32. rewrite Zminus_mod_idemp_l, Zminus_mod_idemp_r. now apply Z.mod_small. Qed.

(** ** Ratios *)
Lemma ratio_near dpt tol a b n last avg : band dpt (R_ tol) a b -> vf tol -> fin tol -> (0 < R_ tol <= 3 / 5)%R -> n = 1 \/ n = 2 ->
  n * a <= last <= n * b -> a <= avg <= b -> near n (fdiv (f_of_Z last) (f_of_Z avg)) tol = true.
Proof.
  intros [B1 B2 B3 B4] V F T Hn L A. apply (near_exact n last avg); auto; try (unfold W; lia); [unfold margin; lra|].
  assert (Ra : (16 <= IZR a)%R) by (apply IZR_le; lia). assert (Rv : (IZR a <= IZR avg <= IZR b)%R) by (split; apply IZR_le; lia).
  assert (Rl : (IZR n * IZR a <= IZR last <= IZR n * IZR b)%R) by (rewrite <- !mult_IZR; split; apply IZR_le; lia).
  assert (N : (1 <= IZR n <= 2)%R) by (destruct Hn; subst n; lra).
  assert (P : (0 < IZR avg)%R) by lra. set (e := (R_ tol / 2 - / 131072)%R). assert (E : (- 1 < e < 1)%R) by (unfold e; lra).
  assert (B4' : (IZR b <= IZR a * (1 + e))%R) by (unfold e; lra).
  assert (E0 : (0 <= e)%R). { assert (IZR a <= IZR b)%R by lra. assert (IZR a * 0 <= IZR a * e)%R by lra. apply Rmult_le_reg_l with (IZR a); lra. }
  assert (U : (IZR last / IZR avg <= IZR n * (1 + e))%R).
  { apply Rmult_le_reg_r with (IZR avg); auto. unfold Rdiv. rewrite Rmult_assoc, Rinv_l by lra. rewrite Rmult_1_r.
    apply Rle_trans with (IZR n * IZR b)%R; [lra|]. rewrite Rmult_assoc. apply Rmult_le_compat_l; [lra|]. apply Rle_trans with (IZR a * (1 + e))%R; auto.
    rewrite Rmult_comm. apply Rmult_le_compat_l; lra. }
  assert (D : (IZR n * (1 - e) <= IZR last / IZR avg)%R).
  { apply Rmult_le_reg_r with (IZR avg); auto. unfold Rdiv. rewrite (Rmult_assoc (IZR last)), Rinv_l by lra. rewrite Rmult_1_r.
    apply Rle_trans with (IZR n * IZR a)%R; [|lra]. rewrite Rmult_assoc. apply Rmult_le_compat_l; [lra|].
    apply Rle_trans with ((1 - e) * (IZR a * (1 + e)))%R; [apply Rmult_le_compat_l; lra|].
    replace ((1 - e) * (IZR a * (1 + e)))%R with (IZR a * (1 - e * e))%R by ring. rewrite <- (Rmult_1_r (IZR a)) at 2. apply Rmult_le_compat_l; [lra|].
    assert (0 <= e * e)%R by (apply Rmult_le_pos; lra). lra. }
  assert (IZR n * e <= 2 * e)%R by (apply Rmult_le_compat_r; lra). unfold margin. apply Rabs_le. unfold e in *. lra.
Qed.

(** An interval of one slot compared with an average of at least one slot is no gap. *)
Lemma ratio_not_gap tol last avg x : vf tol -> fin tol -> (0 < R_ tol <= 3 / 5)%R -> 1 <= avg < W -> 0 <= last < W -> (x <= 13 / 10)%R -> (IZR last <= IZR avg * x)%R ->
  near 2 (fdiv (f_of_Z last) (f_of_Z avg)) tol = false.
Proof.
  intros V F T A L X H. apply (near_exact 2 last avg); auto; [unfold margin; lra|].
  assert (P : (0 < IZR avg)%R) by (apply IZR_lt; lia).
  assert (U : (IZR last / IZR avg <= 13 / 10)%R).
  { apply Rmult_le_reg_r with (IZR avg); auto. unfold Rdiv at 1. rewrite Rmult_assoc, Rinv_l, Rmult_1_r by lra. eapply Rle_trans; [exact H|]. rewrite Rmult_comm. apply Rmult_le_compat_r; lra. }
  rewrite Rabs_left1 by lra. unfold margin. lra.
Qed.

(** ** Speeds *)
Definition rpm_in (dpt : R) (rpm a b : Z) : Prop :=
  (2000000 / 3 * dpt / IZR b * (1 - 20 * ur) - 1 <= IZR rpm <= 2000000 / 3 * dpt / IZR a * (1 + 20 * ur))%R.

Lemma rpm_span dpt tol k delta deg a b : band dpt tol a b -> (/ 100 <= dpt)%R -> 1 <= k <= 36 -> k * a <= delta <= k * b -> frel 3 deg (IZR k * dpt) -> (IZR k * dpt <= 2000)%R ->
  exists r, rpm_from_time_diff delta deg = Ok r /\ 0 <= r < W /\ rpm_in dpt r a b.
Proof.
  intros [B1 B2 B3 B4] Hd Hk Hl Hf Hu. assert (K1 : (1 <= IZR k)%R) by (apply IZR_le; lia).
  assert (L1 : (IZR k * dpt >= / 100)%R). { assert (1 * dpt <= IZR k * dpt)%R by (apply Rmult_le_compat_r; lra). lra. }
  destruct (rpm_accuracy delta deg (IZR k * dpt) 3) as (r & E & R1 & R2); auto; try lra; [nia|]. cbv zeta in R2.
  exists r. split; auto. split; auto. unfold rpm_in.
  assert (A : (16 <= IZR a <= IZR b)%R) by (split; apply IZR_le; lia).
  assert (D : (IZR k * IZR a <= IZR delta <= IZR k * IZR b)%R) by (rewrite <- !mult_IZR; split; apply IZR_le; lia).
  assert (KA : (0 < IZR k * IZR a)%R) by (apply Rmult_lt_0_compat; lra).
  assert (KD : (0 <= 2000000 / 3 * (IZR k * dpt))%R) by lra.
  assert (U : (2000000 / 3 * (IZR k * dpt) / IZR delta <= 2000000 / 3 * dpt / IZR a)%R).
  { replace (2000000 / 3 * dpt / IZR a)%R with (2000000 / 3 * (IZR k * dpt) / (IZR k * IZR a))%R by (field; lra). unfold Rdiv at 1 3. apply Rmult_le_compat_l; auto. apply Rinv_le; lra. }
  assert (L : (2000000 / 3 * dpt / IZR b <= 2000000 / 3 * (IZR k * dpt) / IZR delta)%R).
  { replace (2000000 / 3 * dpt / IZR b)%R with (2000000 / 3 * (IZR k * dpt) / (IZR k * IZR b))%R by (field; lra). unfold Rdiv at 1 3. apply Rmult_le_compat_l; auto. apply Rinv_le; lra. }
  set (x := (2000000 / 3 * (IZR k * dpt) / IZR delta)%R) in *. set (xa := (2000000 / 3 * dpt / IZR a)%R) in *. set (xb := (2000000 / 3 * dpt / IZR b)%R) in *.
  unfold ur in *. lra.
Qed.

Lemma rpm_in_range dpt tol r a b : band dpt tol a b -> (/ 100 <= dpt <= 359)%R -> rpm_in dpt r a b -> 1 <= r <= 2 ^ 24.
Proof.
  intros [B1 B2 B3 B4] Hd [L U]. assert (A : (16 <= IZR a <= IZR b)%R) by (split; apply IZR_le; lia). unfold ur in *. split.
  - apply le_IZR. lra.
  - apply le_IZR. change (IZR (2 ^ 24)) with 16777216%R. eapply Rle_trans; [exact U|].
    assert (2000000 / 3 * dpt / IZR a <= 2000000 / 3 * 359 * / 16)%R. { unfold Rdiv at 1. apply Rmult_le_compat; try lra; [apply Rlt_le, Rinv_0_lt_compat; lra|apply Rinv_le; lra]. }
    lra.
Qed.

(** The expiry: the time for [k] slots at the given speed, lengthened by the tolerance. *)
Lemma expiry_time c rpm k : wheel c -> vf (dc_max_change c) -> fin (dc_max_change c) -> (0 <= R_ (dc_max_change c) <= 1)%R -> 1 <= rpm <= 2 ^ 24 -> k = 1 \/ k = 2 ->
  exists et x, time_from_rpm_diff rpm (fmul (dc_dpt c) (f_of_Z k)) = Ok et /\ f_to_u32 (fmul (f_of_Z et) (fadd (f_of_Z 1) (dc_max_change c))) = Ok x /\ 0 <= x < W /\
    let ideal := (2000000 / 3 * (IZR k * R_ (dc_dpt c)) / IZR rpm * (1 + R_ (dc_max_change c)))%R in (Rabs (IZR x - ideal) <= 4 + ideal / 1000000)%R.
Proof.
  intros Wh Vm Fm Hm Hr Hk. destruct (dpt_times c k Wh Hk) as (Vd & Fd & Rd).
  destruct Wh as [_ _ B _].
  assert (Kb : (R_ (dc_dpt c) * 1 <= R_ (dc_dpt c) * IZR k <= 718)%R) by (destruct Hk; subst k; lra).
  destruct (time_from_rpm_accuracy rpm (fmul (dc_dpt c) (f_of_Z k))) as (et & A1 & A2 & A3); auto; [rewrite Rd; lra|].
  cbv zeta in A3. rewrite Rd in A3.
  set (y := (2000000 / 3 * (R_ (dc_dpt c) * IZR k) / IZR rpm)%R) in A3.
  assert (Hr' : (1 <= IZR rpm <= 16777216)%R) by (split; apply IZR_le; lia).
  assert (Ir : (0 < / IZR rpm <= 1)%R) by (split; [apply Rinv_0_lt_compat; lra|rewrite <- Rinv_1; apply Rinv_le; lra]).
  assert (Y : (0 <= y <= 480000000)%R).
  { unfold y, Rdiv at 1. split; [apply Rmult_le_pos; lra|]. apply Rle_trans with (480000000 * 1)%R; [apply Rmult_le_compat; lra|lra]. }
  assert (ET : (0 <= IZR et <= 480000200)%R) by (split; apply IZR_le; lia).
  destruct (f_of_Z_exact 1) as [E1 F1]; [cbn; lia|].
  destruct (fadd_ok (f_of_Z 1) (dc_max_change c) 2) as [E2 F2]; auto using vf_of_Z; [lia|rewrite E1; simpl; rewrite Rabs_pos_eq; lra|]. rewrite E1 in E2.
  assert (RE : (Rabs (rnd (1 + R_ (dc_max_change c)) - (1 + R_ (dc_max_change c))) <= ur * (1 + R_ (dc_max_change c)))%R).
  { replace (ur * (1 + R_ (dc_max_change c)))%R with (ur * Rabs (1 + R_ (dc_max_change c)))%R by (rewrite (Rabs_pos_eq (1 + _)); lra). apply rnd_rel. rewrite Rabs_pos_eq; lra. }
  rewrite <- E2 in RE. set (f := fadd (f_of_Z 1) (dc_max_change c)) in *. apply Rabs_le_inv in RE.
  destruct (f_of_Z_u32 et) as [E3 F3]; [lia|].
  assert (RZ : (IZR et * (1 - ur) <= R_ (f_of_Z et) <= IZR et * (1 + ur))%R).
  { destruct (Z.eq_dec et 0) as [->|Ne]; [change (f_of_Z 0) with f_zero; rewrite R_f_zero; lra|]. rewrite E3. apply rnd_pos_bounds.
    assert (1 <= IZR et)%R by (apply IZR_le; lia). lra. }
  set (g := f_of_Z et) in *. set (m1 := (1 + R_ (dc_max_change c))%R) in *. assert (M1 : (1 <= m1 <= 2)%R) by (unfold m1; lra).
  assert (EP : (0 <= IZR et * m1)%R) by (apply Rmult_le_pos; lra).
  assert (P : (IZR et * m1 * (1 - 3 * ur) <= R_ g * R_ f <= IZR et * m1 * (1 + 3 * ur))%R).
  { unfold ur in *. split.
    - apply Rle_trans with ((IZR et * (1 - / 16777216)) * (m1 * (1 - / 16777216)))%R; [|apply Rmult_le_compat; try lra; apply Rmult_le_pos; lra]. lra.
    - apply Rle_trans with ((IZR et * (1 + / 16777216)) * (m1 * (1 + / 16777216)))%R; [apply Rmult_le_compat; lra|]. lra. }
  assert (EM : (0 <= IZR et * m1 <= 960000400)%R) by (split; [apply Rmult_le_pos; lra|apply Rle_trans with (480000200 * 2)%R; [apply Rmult_le_compat; lra|lra]]).
  assert (PP : (0 <= R_ g * R_ f)%R) by (unfold ur in P; lra).
  destruct (fmul_ok g f 40) as [E4 F4]; auto using vf_of_Z with vf; [lia|apply vf_of_Z|unfold f; auto using vf_of_Z with vf|rewrite Rabs_pos_eq by lra; simpl; unfold ur in P; lra|].
  assert (B4 : (0 <= R_ (fmul g f))%R) by (rewrite E4; apply round_ge_generic; try typeclasses eauto; [apply generic_format_0; typeclasses eauto|lra]).
  pose proof (Ztrunc_pos_bounds _ B4) as [T1 T2].
  pose proof (rnd_err (R_ g * R_ f)) as RR. rewrite <- E4, ur_b2, (Rabs_pos_eq (R_ g * R_ f)) in RR by lra. apply Rabs_le_inv in RR.
  assert (Hb : (b2 (-150) < / 100000000)%R) by (unfold b2; simpl; lra).
  exists et, (Ztrunc (R_ (fmul g f))). split; [auto|]. split; [|split].
  - unfold f_to_u32. fold g. rewrite f_to_range_fin by (auto; unfold g, f; auto using vf_of_Z with vf).
    assert (-1 < Ztrunc (R_ (fmul g f))) by (apply lt_IZR; lra).
    assert (Ztrunc (R_ (fmul g f)) < W) by (apply lt_IZR; unfold W, ur in *; lra).
    destruct (Z.leb_spec 0 (Ztrunc (R_ (fmul g f)))); [|lia]. destruct (Z.leb_spec (Ztrunc (R_ (fmul g f))) (W - 1)); [|lia]. reflexivity.
  - split; [|apply lt_IZR; unfold W, ur in *; lra]. assert (-1 < Ztrunc (R_ (fmul g f))) by (apply lt_IZR; lra). lia.
  - cbv zeta. assert (Ei : (2000000 / 3 * (IZR k * R_ (dc_dpt c)) / IZR rpm * m1)%R = (y * m1)%R) by (unfold y; field; lra).
    rewrite Ei. apply Rabs_le_inv in A3.
    assert (YM : (0 <= y * m1)%R) by (apply Rmult_le_pos; lra).
    assert (D1 : (- (2 + y * m1 / 4194304) <= IZR et * m1 - y * m1 <= 2 + y * m1 / 4194304)%R).
    { replace (IZR et * m1 - y * m1)%R with ((IZR et - y) * m1)%R by ring. split.
      - apply Rle_trans with ((- (1 + y / 4194304)) * m1)%R; [lra|apply Rmult_le_compat_r; lra].
      - apply Rle_trans with ((1 + y / 4194304) * m1)%R; [apply Rmult_le_compat_r; lra|lra]. }
    apply Rabs_le. unfold ur in *. lra.
Qed.

(** At steady speed it is after the next tooth. *)
Lemma expiry_late c rpm k a b et x : wheel c -> vf (dc_max_change c) -> fin (dc_max_change c) -> (0 < R_ (dc_max_change c) <= 3 / 5)%R ->
  band (R_ (dc_dpt c)) (R_ (dc_max_change c)) a b -> rpm_in (R_ (dc_dpt c)) rpm a b -> k = 1 \/ k = 2 ->
  time_from_rpm_diff rpm (fmul (dc_dpt c) (f_of_Z k)) = Ok et -> f_to_u32 (fmul (f_of_Z et) (fadd (f_of_Z 1) (dc_max_change c))) = Ok x -> k * b < x < W.
Proof.
  intros Wh Vm Fm Hm Bd Ri Hk E1 E2. pose proof Wh as [_ _ B _]. pose proof (rpm_in_range _ _ _ _ _ Bd B Ri) as Hr.
  destruct (expiry_time c rpm k Wh Vm Fm ltac:(lra) Hr Hk) as (et' & x' & Q1 & Q2 & Q3 & Q4). rewrite E1 in Q1. injection Q1 as <-. rewrite E2 in Q2. injection Q2 as <-.
  split; [|lia]. cbv zeta in Q4. destruct Bd as [B1 B2 B3 B4]. destruct Ri as [_ U].
  assert (Hr' : (1 <= IZR rpm <= 16777216)%R) by (split; apply IZR_le; lia).
  assert (A : (16 <= IZR a <= IZR b)%R) by (split; apply IZR_le; lia). assert (K : (1 <= IZR k <= 2)%R) by (destruct Hk; subst k; lra).
  set (dpt := R_ (dc_dpt c)) in *. set (tol := R_ (dc_max_change c)) in *. set (y := (2000000 / 3 * (IZR k * dpt) / IZR rpm)%R) in *.
  assert (Y : (IZR k * IZR a * (1 - 21 * ur) <= y)%R).
  { unfold y. apply Rmult_le_reg_r with (IZR rpm); [lra|]. unfold Rdiv. rewrite (Rmult_assoc (_ * _) (/ _)), Rinv_l, Rmult_1_r by lra.
    assert (KP : (0 <= IZR k * IZR a * (1 - 21 * ur))%R) by (apply Rmult_le_pos; [apply Rmult_le_pos; lra|unfold ur; lra]).
    eapply Rle_trans; [apply Rmult_le_compat_l; [exact KP|exact U]|].
    replace (IZR k * IZR a * (1 - 21 * ur) * (2000000 / 3 * dpt / IZR a * (1 + 20 * ur)))%R with (IZR k * (2000000 / 3 * dpt) * ((1 - 21 * ur) * (1 + 20 * ur)))%R by (field; lra).
    assert (0 <= IZR k * dpt)%R by (apply Rmult_le_pos; lra). unfold ur. lra. }
  apply Rabs_le_inv in Q4. apply lt_IZR. rewrite mult_IZR.
  assert (T : (IZR k * IZR b <= IZR k * IZR a * (1 + tol / 2 - / 131072))%R) by (rewrite Rmult_assoc; apply Rmult_le_compat_l; lra).
  assert (KA : (16 <= IZR k * IZR a)%R). { apply Rle_trans with (1 * IZR a)%R; [lra|apply Rmult_le_compat_r; lra]. }
  assert (KT : (8 <= IZR k * IZR a * tol)%R). { rewrite Rmult_assoc. apply Rle_trans with (1 * (IZR a * tol))%R; [lra|apply Rmult_le_compat_r; lra]. }
  assert (YT : (IZR k * IZR a * (1 - 21 * ur) * (1 + tol) <= y * (1 + tol))%R) by (apply Rmult_le_compat_r; lra).
  set (ka := (IZR k * IZR a)%R) in *. unfold ur in YT.
  assert (YT' : (ka * (1 + tol) * (1 - / 700000) <= y * (1 + tol))%R).
  { eapply Rle_trans; [|exact YT]. replace (ka * (1 - 21 * / 16777216) * (1 + tol))%R with (ka * (1 + tol) * (1 - 21 * / 16777216))%R by ring.
    apply Rmult_le_compat_l; [apply Rmult_le_pos; lra|lra]. }
  assert (Z1 : (ka * (1 + tol) <= ka * (8 / 5))%R) by (apply Rmult_le_compat_l; lra).
  assert (Z2 : (ka * (1 + tol / 2 - / 131072) = ka + ka * tol / 2 - ka / 131072)%R) by field. assert (Z3 : (ka * (1 + tol) = ka + ka * tol)%R) by ring. lra.
Qed.
