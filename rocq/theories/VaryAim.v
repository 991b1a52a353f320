(** What the decoder shows after each tooth of a crank whose speed changes makes the code aim at the sparks of the
    engine's cycles (for C87 and C88; after SparkAim.v). *)
Require Import ZArith Reals List Bool Lia Lra SpecFloat.
From Flocq Require Import Core.
From Verif Require Import Res Word F32 F32Flocq TimeProofs AngleProofs PulseProofs Arr Decoder Outputs Buffers OutputSpec OutputRun OutputProofs WaveProofs CrankSpec P_Crank Spark SparkAbs SparkProofs SparkSpec SparkAim VarySpec SteerSpec VaryCrank.
Import ListNotations.
Open Scope Z_scope.
Ltac Zify.zify_post_hook ::= idtac.

(** Around position [x] the slots are about [q] ticks apart. *)
Definition slow_at (p : Rdefinitions.R -> Rdefinitions.R) (dpt q delta x : Rdefinitions.R) : Prop := forall y z, (x - (720 / dpt + 1) <= y)%R -> (y <= z)%R -> (z <= x + (720 / dpt + 1))%R ->
  (q * (1 - delta) * (z - y) <= p z - p y <= q * (1 + delta) * (z - y))%R.

Section Aim.
Variables (c : dcfg) (p : Rdefinitions.R -> Rdefinitions.R) (q1 q2 delta : Rdefinitions.R) (zero : Z) (tt idx : Z -> Z) (view : Z -> dview) (m0 : Z) (ang : f32) (adv : Z -> f32) (about : Z -> Rdefinitions.R) (dwell : Z -> Z) (alpha : Rdefinitions.R) (late len1 len2 dv mf : Z).
Notation dpt := (R_ (dc_dpt c)).
Hypothesis Rg : sregime dpt q1 q2 delta alpha late len1 len2 dv mf.
Hypothesis Slow : forall x, exists q, (q1 <= q <= q2)%R /\ slow_at p dpt q delta x.
Hypothesis Tk : forall m, m0 <= m -> exists q d, (q1 <= q <= q2)%R /\ slow_at p dpt q delta (IZR (idx m)) /\ vtracks c q delta zero (idx m) (tt m) d /\ view m = seen c d.
Hypothesis Seen : forall m, m0 <= m -> (Rabs (IZR (tt m) - p (IZR (idx m))) <= 1)%R.
Hypothesis Hidx : forall m, m0 <= m -> idx m + 1 <= idx (m + 1) <= idx m + 2 \/ (idx (m + 1) = idx m /\ tt (m + 1) = tt m /\ dv_last_angle (view (m + 1)) = dv_last_angle (view m)).
Hypothesis Wide : (dpt <= 720)%R.
Hypothesis Aa : angle_ok ang.
Hypothesis Av : forall m, m0 <= m -> angle_ok (adv m).
Hypothesis Ao : angle_ok (dc_offset c).

Definition vtarget (m : Z) : Rdefinitions.R := (R_ ang - R_ (adv m) + R_ (dc_offset c))%R.
Notation target := vtarget.
Hypothesis Hab : forall m j, m0 <= m -> next_due dpt zero (idx m) (target m) j -> (Rabs (target m - about j) <= alpha)%R.
Hypothesis Hdr : forall j, (Rabs (about (j + 1) - about j) <= alpha)%R.
Hypothesis Htu : forall m, m0 <= m -> adv (m + 1) = adv m \/ (R_ (adv m) - R_ (adv (m + 1)) + / 100 <= dpt * IZR (idx (m + 1) - idx m))%R.
Hypothesis Hle : forall m, m0 <= m -> len1 <= dwell m <= len2.
Let C1 := cycle_least dpt q1 delta.
Let C2 := cycle_most dpt q2 delta.
Let b := (4 / q1 + 3 / speed_of dpt q2 + 4 * delta + / 100000)%R.
Let e2 := (q2 / (200 * dpt))%R.
Let ea := wander dpt q2 delta alpha.
(* the place of a cycle, and the place call [m] aims at *)
Definition vx (j : Z) : Rdefinitions.R := (IZR zero + (about j + 720 * IZR j) / dpt)%R.
Definition vT (j : Z) : Rdefinitions.R := p (vx j).
Notation T := vT.
Definition vX (j : Z) : Z := Zfloor (T j).
Definition vg (m : Z) : res f32 := clamp_angle (fadd (fsub (fsub ang (adv m)) (dv_last_angle (view m))) (dv_offset (view m))) (f_of_Z 720).
Definition voff (m : Z) : Z := tt m + get (g <- vg m ;; time_from_rpm_diff (dv_tooth_rpm (view m)) g).
Definition vk (m : Z) : Z := match vg m with Ok g => Zfloor ((dpt * IZR (idx m - zero) + R_ g - target m) / 720 + / 2) | Err _ => 0 end.
Definition xe (m : Z) : Rdefinitions.R := (IZR zero + (target m + 720 * IZR (vk m)) / dpt)%R.
Definition vh (deg m : Z) : Z := get (time_from_rpm_diff (dv_rpm (view m)) (f_of_Z deg)).
Let look := slook dpt q1 q2 delta alpha late len2 dv.
Definition vE : Z := Zceil (5 + e2 + 2 * ea + 4 * IZR dv + b * (11 / 10 * C2)).
Definition vEn : Z := Zceil (5 + e2 + 2 * ea + 4 * IZR dv + b * look).
Definition va : Z := Zceil (e2 + 2 * ea) + 2.
Definition vG : Z := Zceil (2 * ((1 + delta) * q2) + 2).
Definition vN : Z := late + vG + 4 * len2 + vE + va.
Definition vP : Z := Zfloor (C1 - ea).
Definition vPU : Z := Zceil (C2 + ea).

Let W1 : (/ 100 <= dpt)%R. Proof. apply Rg. Qed.
Let Q16 : (16 <= q1 <= q2)%R. Proof. apply Rg. Qed.
Let D0 : (0 <= delta)%R. Proof. apply Rg. Qed.
Let S2 : (20 <= speed_of dpt q2)%R. Proof. apply Rg. Qed.
Let S1 : (speed_of dpt q1 <= 1000000)%R. Proof. apply Rg. Qed.
Let Al0 : (0 <= alpha <= 90)%R. Proof. apply Rg. Qed.
Let He2 : (0 < e2)%R. Proof. unfold e2. apply Rdiv_lt_0_compat; lra. Qed.
Let Hb : (0 < b)%R.
Proof. unfold b. assert (0 < / q1)%R by (apply Rinv_0_lt_compat; lra). assert (0 < / speed_of dpt q2)%R by (apply Rinv_0_lt_compat; lra). unfold Rdiv. lra. Qed.
Let HC2 : (0 < C2)%R. Proof. unfold C2, cycle_most, cycle_ticks. apply Rmult_lt_0_compat; [lra|]. apply Rdiv_lt_0_compat; lra. Qed.
Let C1_def : C1 = ((1 - delta) * (720 * q1 / dpt))%R. Proof. reflexivity. Qed.
Let C2_def : C2 = ((1 + delta) * (720 * q2 / dpt))%R. Proof. reflexivity. Qed.
Let qd q : (q1 <= q <= q2)%R -> (0 < 720 * q1 / dpt <= 720 * q / dpt)%R /\ (720 * q / dpt <= 720 * q2 / dpt)%R.
Proof.
  intros H. assert (0 < / dpt)%R by (apply Rinv_0_lt_compat; lra). unfold Rdiv. split; [split|]; [apply Rmult_lt_0_compat; lra|apply Rmult_le_compat_r; lra|apply Rmult_le_compat_r; lra].
Qed.
Let C12 : (C1 <= C2)%R.
Proof.
  rewrite C1_def, C2_def. destruct (qd q2 ltac:(lra)) as [[A1 A2] _]. set (u := (720 * q1 / dpt)%R) in *. set (v := (720 * q2 / dpt)%R) in *.
  assert (0 <= delta * u)%R by (apply Rmult_le_pos; lra). assert (0 <= delta * v)%R by (apply Rmult_le_pos; lra). lra.
Qed.
Let Hea : (0 <= ea)%R.
Proof. unfold ea, wander. apply Rle_mult_inv_pos; [|lra]. apply Rmult_le_pos; [apply Rmult_le_pos; lra|lra]. Qed.
Let Hdv : (0 <= 4 * IZR dv)%R. Proof. destruct (sr_us _ _ _ _ _ _ _ _ _ _ Rg) as (_ & _ & _ & _ & U). apply IZR_le in U. lra. Qed.
Let Plan : (7 + e2 + b * (11 / 10 * C2) + 2 * ea + 4 * IZR dv <= C1 / 32)%R. Proof. exact (sr_plan _ _ _ _ _ _ _ _ _ _ Rg). Qed.
Let Dwl : (2 * (7 + e2 + b * look + 2 * ea + 4 * IZR dv) < 4 * IZR len1)%R. Proof. exact (sr_len _ _ _ _ _ _ _ _ _ _ Rg). Qed.
Let Rst : 0 < mf -> (2 * (7 + e2 + b * (11 / 10 * C2) + 2 * ea + 4 * IZR dv) < 4 * IZR len1)%R. Proof. exact (sr_rest _ _ _ _ _ _ _ _ _ _ Rg). Qed.
Let Lk : look = (IZR late + 2 * ((1 + delta) * q2) + 3 + 4 * IZR len2 + 3 * (7 + e2 + b * (11 / 10 * C2) + 2 * ea + 4 * IZR dv))%R. Proof. reflexivity. Qed.
Let Fit : (look + 4 * IZR mf + 513 <= C1 - ea)%R. Proof. exact (sr_fit _ _ _ _ _ _ _ _ _ _ Rg). Qed.
Let bC : (0 < b * C2)%R. Proof. apply Rmult_lt_0_compat; lra. Qed.
Let b_small : (b <= / 35)%R.
Proof. apply Rmult_le_reg_r with C2; [lra|]. lra. Qed.
Let delta_small : (delta <= / 140)%R.
Proof. assert (0 < / q1)%R by (apply Rinv_0_lt_compat; lra). assert (0 < / speed_of dpt q2)%R by (apply Rinv_0_lt_compat; lra). unfold b, Rdiv in b_small. lra. Qed.
Let q140 : (140 <= q1)%R.
Proof.
  assert (A : (0 < / q1)%R) by (apply Rinv_0_lt_compat; lra). assert (0 < / speed_of dpt q2)%R by (apply Rinv_0_lt_compat; lra). assert (B : (/ q1 <= / 140)%R) by (unfold b, Rdiv in b_small; lra).
  apply Rmult_le_reg_r with (/ q1)%R; [lra|]. rewrite Rinv_r by lra. lra.
Qed.
Let C224 : (224 <= C1)%R. Proof. lra. Qed.

Lemma vary_bounds : (140 <= q1 /\ 0 <= delta <= / 140)%R.
Proof. split; [exact q140|]. split; [exact D0|exact delta_small]. Qed.

(** A tooth's own [q]. *)
Section One.
Variable q : Rdefinitions.R.
Hypothesis Hq : (q1 <= q <= q2)%R.
Let S := speed_of dpt q.
Let w := (dpt / q)%R.
Let e0 := (q / (400 * dpt))%R.
Lemma one_w : (0 < w)%R. Proof. unfold w. apply Rdiv_lt_0_compat; lra. Qed.
Lemma one_S : S = (2000000 / 3 * w)%R. Proof. unfold S, speed_of, w. field. lra. Qed.
Lemma one_range : (speed_of dpt q2 <= S <= speed_of dpt q1)%R.
Proof.
  assert (I : forall a r, (0 < a)%R -> (a <= r)%R -> (speed_of dpt r <= speed_of dpt a)%R).
  { intros a r Ha Hr. unfold speed_of. assert (/ r <= / a)%R by (apply Rinv_le; lra). unfold Rdiv. apply Rmult_le_compat_r; [lra|]. apply Rmult_le_compat_r; [lra|]. apply Rmult_le_compat_l; lra. }
  split; apply I; lra.
Qed.
Lemma one_e0 : (0 < e0 /\ 2 * e0 <= e2)%R.
Proof.
  unfold e0, e2. split; [apply Rdiv_lt_0_compat; lra|]. replace (2 * (q / (400 * dpt)))%R with (q / (200 * dpt))%R by (field; lra). unfold Rdiv. apply Rmult_le_compat_r; [|lra]. left. apply Rinv_0_lt_compat. lra.
Qed.
Lemma one_cycle : ((1 - delta) * (720 / w) >= C1 /\ 720 / w <= C2 /\ 0 < 720 / w)%R.
Proof.
  assert (E : (720 / w = 720 * q / dpt)%R) by (unfold w; field; lra). rewrite E, C1_def, C2_def. destruct (qd q Hq) as [[A1 A2] A3]. set (u := (720 * q / dpt)%R) in *. set (u1 := (720 * q1 / dpt)%R) in *. set (u2 := (720 * q2 / dpt)%R) in *.
  split; [apply Rle_ge; apply Rmult_le_compat_l; lra|]. split; [|lra]. assert (0 <= delta * u2)%R by (apply Rmult_le_pos; lra). lra.
Qed.
(* how far the aim is off, in ticks *)
Lemma one_aim y r t gam : (S * (1 - 2 * (/ q + delta / 2)) <= y <= S * / (1 - 2 * (/ q + delta / 2)))%R -> (y * (1 - 14 * ur) - 1 <= r <= y * (1 + 14 * ur))%R -> (0 <= gam)%R -> (0 <= t)%R ->
  (Rabs (t - 2000000 / 3 * gam / r) <= 1 + 2000000 / 3 * gam / r / 4194304)%R -> (Rabs (t - gam / w) <= 2 + (b - 2 * delta) * t)%R.
Proof.
  intros Hy Hr Hg Ht0 Ht. set (e := (/ q + delta / 2)%R) in *. assert (IQ : (0 < / q <= / q1)%R) by (split; [apply Rinv_0_lt_compat; lra|apply Rinv_le; lra]). assert (I1 : (/ q1 <= / 140)%R) by (apply Rinv_le; lra).
  assert (E0 : (0 < e <= / 16)%R) by (unfold e; lra). pose proof one_w as Hw. pose proof one_range as Sr.
  assert (E16 : (16 <= / e)%R) by (apply Rmult_le_reg_r with e; [lra|]; rewrite Rinv_l by lra; lra).
  pose proof (aim w (/ e) S r y t gam Hw E16 one_S ltac:(lra)) as A. rewrite Rinv_inv in A. specialize (A Hy Hr Hg Ht).
  replace (4 / / e)%R with (4 * e)%R in A by (field; lra).
  assert (B : (4 * e + 3 / S + / 100000 <= b - 2 * delta)%R). { unfold b, e, Rdiv. assert (/ S <= / speed_of dpt q2)%R by (apply Rinv_le; lra). lra. }
  assert (Eq : (t - gam / w = (w * t - gam) / w)%R) by (field; lra). rewrite Eq. unfold Rdiv at 1. rewrite Rabs_mult, (Rabs_pos_eq (/ w)) by (left; apply Rinv_0_lt_compat; lra).
  apply Rle_trans with ((2 * w + w * t * (4 * e + 3 / S + / 100000)) * / w)%R; [apply Rmult_le_compat_r; [left; apply Rinv_0_lt_compat; lra|exact A]|].
  replace ((2 * w + w * t * (4 * e + 3 / S + / 100000)) * / w)%R with (2 + (4 * e + 3 / S + / 100000) * t)%R by (field; lra). apply Rplus_le_compat_l. apply Rmult_le_compat_r; lra.
Qed.
(* where the crank is at, and when *)
Lemma one_when x y : slow_at p dpt q delta x -> (x - (720 / dpt + 1) <= y <= x + (720 / dpt + 1))%R -> (Rabs (p y - p x - q * (y - x)) <= delta * q * Rabs (y - x))%R.
Proof.
  intros Sl Hy. assert (0 < 720 / dpt)%R by (apply Rdiv_lt_0_compat; lra). destruct (Rle_dec x y) as [L|L].
  - destruct (Sl x y) as [A B]; try lra. rewrite (Rabs_pos_eq (y - x)) by lra. apply Rabs_le. split; lra.
  - destruct (Sl y x) as [A B]; try lra. rewrite (Rabs_left (y - x)) by lra. apply Rabs_le. split; lra.
Qed.
End One.

(** One prediction. *)
Lemma vk_unfold m : vk m = match vg m with Ok g => Zfloor ((dpt * IZR (idx m - zero) + R_ g - target m) / 720 + / 2) | Err _ => 0 end.
Proof. reflexivity. Qed.
Lemma tooth_aim m : m0 <= m -> exists q g t, (q1 <= q <= q2)%R /\ slow_at p dpt q delta (IZR (idx m)) /\ vg m = Ok g /\ time_from_rpm_diff (dv_tooth_rpm (view m)) g = Ok t /\ 0 <= t /\
  (0 <= R_ g <= 720)%R /\ (Rabs (R_ g - (target m + 720 * IZR (vk m) - dpt * IZR (idx m - zero))) <= / 400)%R /\
  (Rabs (IZR (tt m + t) - p (xe m)) <= 4 + e2 + b * IZR t)%R /\ (IZR t <= 11 / 10 * C2)%R.
Proof.
  intros Hm. destruct (Tk m Hm) as (q & d & Hq & Sl & TK & Ev). pose proof (Seen m Hm) as CS. exists q.
  destruct TK as (V & Rp & Rs & Al & Ti & (z & An) & y & Y1 & Y2). cbv zeta in *. unfold xe. rewrite (vk_unfold m). unfold vg. rewrite Ev. cbn [seen dv_last_angle dv_offset dv_tooth_rpm].
  pose proof (one_range q Hq) as Sr. pose proof (one_w q Hq) as Hw. set (w := (dpt / q)%R) in *. set (S := speed_of dpt q) in *.
  assert (IQ : (0 < / q <= / 140)%R) by (split; [apply Rinv_0_lt_compat; lra|apply Rinv_le; lra]).
  assert (Tr : 1 <= dd_tooth_rpm d <= 2 ^ 24).
  { set (e := (/ q + delta / 2)%R) in *. assert (E0 : (0 < e <= / 16)%R) by (unfold e; lra). unfold ur in Y2.
    assert (L1 : (S * (7 / 8) <= y)%R) by (apply Rle_trans with (S * (1 - 2 * e))%R; [apply Rmult_le_compat_l; lra|lra]).
    assert (L2 : (y <= S * (8 / 7))%R) by (apply Rle_trans with (S * / (1 - 2 * e))%R; [lra|apply Rmult_le_compat_l; [lra|]]; replace (8 / 7)%R with (/ (7 / 8))%R by lra; apply Rinv_le; lra).
    split; apply le_IZR; [lra|]. change (IZR (2 ^ 24)) with 16777216%R. lra. }
  destruct (ignition_angle ang (adv m) (dd_last_angle d) (dc_offset c) Aa (Av m Hm) Al Ao) as (ga & kk & Eg & Vg & Fg & Bg & Ag).
  destruct (time_from_rpm_accuracy (dd_tooth_rpm d) ga Tr Vg Fg ltac:(lra)) as (t & Et & Bt & At). cbv zeta in At. rewrite Eg.
  assert (T0 : (0 <= IZR t)%R) by (apply IZR_le; lia).
  pose proof (one_aim q Hq y (IZR (dd_tooth_rpm d)) (IZR t) (R_ ga) Y1 Y2 ltac:(lra) T0 At) as A. fold w in A.
  set (del := (R_ ga - (R_ ang - R_ (adv m) - R_ (dd_last_angle d) + R_ (dc_offset c) + 720 * IZR kk))%R) in *.
  assert (Ej : (dpt * IZR (idx m - zero) + R_ ga - target m = 720 * IZR (kk + z) + del)%R) by (unfold del, vtarget; rewrite An, plus_IZR; ring).
  assert (Ek : Zfloor ((dpt * IZR (idx m - zero) + R_ ga - target m) / 720 + / 2) = kk + z).
  { apply Zfloor_imp. rewrite (plus_IZR _ 1), Ej. apply Rabs_le_inv in Ag. lra. }
  rewrite Ek. exists ga, t. do 5 (split; [first [assumption|reflexivity|lia]|]). split; [lra|].
  assert (Ed : (R_ ga - (target m + 720 * IZR (kk + z) - dpt * IZR (idx m - zero)) = del)%R) by lra. split; [rewrite Ed; exact Ag|].
  set (xx := (IZR zero + (target m + 720 * IZR (kk + z)) / dpt)%R). set (u := (xx - IZR (idx m))%R).
  assert (Eu : (u = (R_ ga - del) / dpt)%R). { unfold u, xx. assert (E : (target m + 720 * IZR (kk + z) = dpt * IZR (idx m - zero) + R_ ga - del)%R) by lra. rewrite E, minus_IZR. field. lra. }
  assert (Idp : (0 < / dpt <= 100)%R) by (split; [apply Rinv_0_lt_compat; lra|replace 100%R with (/ / 100)%R by lra; apply Rinv_le; lra]).
  apply Rabs_le_inv in Ag.
  assert (Bu : (- / 4 <= u <= 720 / dpt + / 4)%R).
  { rewrite Eu. unfold Rdiv. assert (- / 400 * / dpt <= (R_ ga - del) * / dpt <= (720 + / 400) * / dpt)%R by (split; apply Rmult_le_compat_r; lra). lra. }
  assert (D720 : (0 < 720 / dpt)%R) by (apply Rdiv_lt_0_compat; lra).
  pose proof (one_when q (IZR (idx m)) xx Sl ltac:(unfold u in Bu; lra)) as Wn. fold u in Wn.
  destruct (one_e0 q Hq) as [P0 P1]. set (e0 := (q / (400 * dpt))%R) in *.
  assert (Gw : (0 <= R_ ga / w <= 720 / w)%R) by (split; [apply Rle_mult_inv_pos; lra|unfold Rdiv; apply Rmult_le_compat_r; [left; apply Rinv_0_lt_compat; lra|lra]]).
  assert (Qu : (q * u = R_ ga / w - del * (400 * e0))%R) by (rewrite Eu; unfold w, e0; field; lra).
  assert (De : (- e0 <= del * (400 * e0) <= e0)%R).
  { assert (- / 400 * (400 * e0) <= del * (400 * e0) <= / 400 * (400 * e0))%R by (split; apply Rmult_le_compat_r; lra). lra. }
  assert (Ab : (q * Rabs u <= R_ ga / w + e0)%R).
  { replace (q * Rabs u)%R with (Rabs (q * u)) by (rewrite Rabs_mult, (Rabs_pos_eq q) by lra; reflexivity). rewrite Qu. apply Rabs_le. lra. }
  assert (Bm : (b - 2 * delta <= / 35)%R) by lra. assert (Bp : (0 <= b - 2 * delta)%R). { unfold b. assert (0 < / q1)%R by (apply Rinv_0_lt_compat; lra). assert (0 < / speed_of dpt q2)%R by (apply Rinv_0_lt_compat; lra). unfold Rdiv. lra. }
  assert (Bt2 : ((b - 2 * delta) * IZR t <= / 35 * IZR t)%R) by (apply Rmult_le_compat_r; lra).
  apply Rabs_le_inv in A. destruct (one_cycle q Hq) as (Cy1 & Cy2 & Cy3). fold w in Cy1, Cy2, Cy3.
  split.
  - assert (Gt : (R_ ga / w + e0 <= 2 + 2 * IZR t + e0)%R) by lra.
    assert (X1 : (delta * q * Rabs u <= delta * (2 + 2 * IZR t + e0))%R) by (rewrite Rmult_assoc; apply Rmult_le_compat_l; lra).
    assert (X2 : (delta * (2 + e0) <= / 140 * (2 + e0))%R) by (apply Rmult_le_compat_r; lra).
    apply Rabs_le_inv in Wn. apply Rabs_le_inv in CS. rewrite Qu in Wn. rewrite plus_IZR. apply Rabs_le. set (x1 := (delta * q * Rabs u)%R) in *. split; lra.
  - lra.
Qed.


Lemma aim_k m : m0 <= m -> exists q g t, (q1 <= q <= q2)%R /\ slow_at p dpt q delta (IZR (idx m)) /\ vg m = Ok g /\ time_from_rpm_diff (dv_tooth_rpm (view m)) g = Ok t /\ voff m = tt m + t /\ 0 <= t /\
  (0 <= R_ g <= 720)%R /\ (Rabs (R_ g - (target m + 720 * IZR (vk m) - dpt * IZR (idx m - zero))) <= / 400)%R /\
  (Rabs (IZR (voff m) - p (xe m)) <= 4 + e2 + b * IZR t)%R /\ (IZR t <= 11 / 10 * C2)%R.
Proof.
  intros Hm. destruct (tooth_aim m Hm) as (q & g & t & A1 & A2 & A3 & A4 & A5 & A6 & A7 & A8 & A9). exists q, g, t.
  assert (Es : voff m = tt m + t) by (unfold voff; rewrite A3; cbn [bind]; rewrite A4; reflexivity). rewrite Es. repeat (split; [first [assumption|reflexivity|lia|lra]|]). exact A9.
Qed.
Lemma k_next m : m0 <= m -> next_due dpt zero (idx m) (target m) (vk m).
Proof. intros Hm. destruct (aim_k m Hm) as (_ & g & _ & _ & _ & _ & _ & _ & _ & B & A & _). apply Rabs_le_inv in A. unfold next_due. lra. Qed.
(* how far apart in time are places that are not far apart *)
Lemma shift r x y : (0 <= r <= 2)%R -> (dpt * Rabs (x - y) <= r * alpha)%R -> (Rabs (p x - p y) <= r * ea)%R.
Proof.
  intros Hr Hxy. destruct (Slow x) as (q & Hq & Sl). assert (D7 : (0 < 720 / dpt)%R) by (apply Rdiv_lt_0_compat; lra).
  assert (R2 : (r * alpha <= 2 * 90)%R) by (apply Rmult_le_compat; lra). assert (Id : (0 < / dpt)%R) by (apply Rinv_0_lt_compat; lra).
  assert (Bx : (Rabs (x - y) <= r * alpha / dpt)%R). { apply Rmult_le_reg_l with dpt; [lra|]. replace (dpt * (r * alpha / dpt))%R with (r * alpha)%R by (field; lra). exact Hxy. }
  assert (Bw : (r * alpha / dpt <= 720 / dpt)%R) by (unfold Rdiv; apply Rmult_le_compat_r; lra).
  assert (Fin : (q * (1 + delta) * Rabs (x - y) <= r * ea)%R).
  { apply Rle_trans with (q2 * (1 + delta) * (r * alpha / dpt))%R; [apply Rmult_le_compat; try lra; [apply Rmult_le_pos; lra|apply Rabs_pos|apply Rmult_le_compat_r; lra]|].
    right. unfold ea, wander. field. lra. }
  assert (Ng : forall u v, (v <= u)%R -> (q * (1 - delta) * (u - v) >= 0)%R) by (intros u v Huv; apply Rle_ge; apply Rmult_le_pos; [apply Rmult_le_pos; lra|lra]).
  destruct (Rle_dec x y) as [L|L].
  - rewrite Rabs_left1 in Bx, Fin by lra. destruct (Sl x y) as [A B]; try lra. pose proof (Ng y x L). apply Rabs_le. lra.
  - rewrite Rabs_pos_eq in Bx, Fin by lra. destruct (Sl y x) as [A B]; try lra. pose proof (Ng x y ltac:(lra)). apply Rabs_le. lra.
Qed.
Lemma wander_k m : m0 <= m -> (Rabs (T (vk m) - p (xe m)) <= ea)%R /\ (Rabs (T (vk m - 1) - p (xe m - 720 / dpt)) <= 2 * ea)%R.
Proof.
  intros Hm. pose proof (Hab m _ Hm (k_next m Hm)) as A. pose proof (Hdr (vk m - 1)) as B. replace (vk m - 1 + 1) with (vk m) in B by ring. unfold vT. split.
  - replace ea with (1 * ea)%R by ring. apply shift; [lra|]. replace (vx (vk m) - xe m)%R with ((about (vk m) - target m) / dpt)%R by (unfold vx, xe; field; lra).
    unfold Rdiv. rewrite Rabs_mult, (Rabs_pos_eq (/ dpt)) by (left; apply Rinv_0_lt_compat; lra). replace (dpt * (Rabs (about (vk m) - target m) * / dpt))%R with (Rabs (about (vk m) - target m)) by (field; lra). rewrite Rabs_minus_sym. lra.
  - apply shift; [lra|]. replace (vx (vk m - 1) - (xe m - 720 / dpt))%R with ((about (vk m - 1) - target m) / dpt)%R by (unfold vx, xe; rewrite minus_IZR; field; lra).
    unfold Rdiv. rewrite Rabs_mult, (Rabs_pos_eq (/ dpt)) by (left; apply Rinv_0_lt_compat; lra). replace (dpt * (Rabs (about (vk m - 1) - target m) * / dpt))%R with (Rabs (about (vk m - 1) - target m)) by (field; lra).
    apply Rabs_le_inv in A. apply Rabs_le_inv in B. apply Rabs_le. lra.
Qed.
Lemma slow_ends q x : (q1 <= q <= q2)%R -> slow_at p dpt q delta x -> (p x - e2 <= p (x - / (400 * dpt)) /\ p (x + / (400 * dpt)) <= p x + e2)%R.
Proof.
  intros Hq Sl. set (v := (/ (400 * dpt))%R). assert (V : (0 < v)%R) by (apply Rinv_0_lt_compat; lra). assert (V1 : (v <= / 4)%R) by (apply Rinv_le; lra).
  assert (0 < 720 / dpt)%R by (apply Rdiv_lt_0_compat; lra). destruct (one_e0 q Hq) as [P0 P1]. assert (E : (q / (400 * dpt) = q * v)%R) by reflexivity. rewrite E in *.
  destruct (Sl (x - v)%R x) as [_ A]; try lra. destruct (Sl x (x + v)%R) as [_ B]; try lra.
  replace (x - (x - v))%R with v in A by ring. replace (x + v - x)%R with v in B by ring. assert (delta * (q * v) <= / 140 * (q * v))%R by (apply Rmult_le_compat_r; lra). replace (q * (1 + delta) * v)%R with (q * v + delta * (q * v))%R in * by ring. lra.
Qed.
Lemma slow_mono q x y z : (q1 <= q <= q2)%R -> slow_at p dpt q delta x -> (x - (720 / dpt + 1) <= y)%R -> (y <= z)%R -> (z <= x + (720 / dpt + 1))%R -> (p y <= p z)%R.
Proof.
  intros Hq Sl A B D. destruct (Sl y z A B D) as [E _]. assert (0 <= q * (1 - delta) * (z - y))%R by (apply Rmult_le_pos; [apply Rmult_le_pos; lra|lra]). lra.
Qed.
Lemma place m : m0 <= m -> exists q g t, (q1 <= q <= q2)%R /\ slow_at p dpt q delta (IZR (idx m)) /\ vg m = Ok g /\ time_from_rpm_diff (dv_tooth_rpm (view m)) g = Ok t /\ voff m = tt m + t /\ 0 <= t /\
  (Rabs (IZR (voff m) - p (xe m)) <= 4 + e2 + b * IZR t)%R /\ (IZR t <= 11 / 10 * C2)%R /\
  (IZR (idx m) - / (400 * dpt) <= xe m <= IZR (idx m) + 720 / dpt + / (400 * dpt))%R /\ (p (IZR (idx m)) - e2 <= p (xe m))%R /\ (p (xe m - 720 / dpt) <= p (IZR (idx m)) + e2)%R.
Proof.
  intros Hm. destruct (aim_k m Hm) as (q & g & t & A1 & A2 & A3 & A4 & A5 & A6 & A7 & A8 & A9 & A10). exists q, g, t. do 8 (split; [assumption|]).
  apply Rabs_le_inv in A8. set (v := (/ (400 * dpt))%R). assert (V : (0 < v)%R) by (apply Rinv_0_lt_compat; lra). assert (V1 : (v <= / 4)%R) by (apply Rinv_le; lra). assert (0 < 720 / dpt)%R by (apply Rdiv_lt_0_compat; lra).
  assert (X : (IZR (idx m) - v <= xe m <= IZR (idx m) + 720 / dpt + v)%R).
  { set (u := (xe m - IZR (idx m))%R). assert (Eu : (dpt * u = target m + 720 * IZR (vk m) - dpt * IZR (idx m - zero))%R) by (unfold u, xe; rewrite minus_IZR; field; lra).
    assert (Ev : (dpt * v = / 400)%R) by (unfold v; field; lra). assert (E7 : (dpt * (720 / dpt) = 720)%R) by (field; lra).
    assert (dpt * (- v) <= dpt * u <= dpt * (720 / dpt + v))%R as [Y1 Y2] by (rewrite Rmult_plus_distr_l, E7; replace (dpt * - v)%R with (- / 400)%R by (rewrite <- Ev; ring); lra).
    apply Rmult_le_reg_l in Y1; [|lra]. apply Rmult_le_reg_l in Y2; [|lra]. unfold u in *. lra. }
  split; [exact X|]. destruct (slow_ends q _ A1 A2) as [L1 L2]. fold v in L1, L2.
  split; [apply Rle_trans with (p (IZR (idx m) - v))%R; [exact L1|apply slow_mono with q (IZR (idx m)); auto; lra]|].
  apply Rle_trans with (p (IZR (idx m) + v))%R; [apply slow_mono with q (IZR (idx m)); auto; lra|exact L2].
Qed.
Lemma tooth_speed90 deg m : m0 <= m -> deg = 90 \/ deg = 180 -> exists q, (q1 <= q <= q2)%R /\ slow_at p dpt q delta (IZR (idx m)) /\ time_from_rpm_diff (dv_rpm (view m)) (f_of_Z deg) = Ok (vh deg m) /\
  (IZR deg / 720 * cycle_ticks dpt q * (5 / 8) - 2 - cycle_ticks dpt q / 1000 <= IZR (vh deg m) <= IZR deg / 720 * cycle_ticks dpt q * 2 + 2 + cycle_ticks dpt q / 1000)%R.
Proof.
  intros Hm Hd. destruct (Tk m Hm) as (q & d & Hq & Sl & TK & Ev). exists q. split; [exact Hq|]. split; [exact Sl|]. unfold vh. rewrite Ev. destruct TK as (V & Rp & Rs & Al & Ti & _). cbv zeta in *. cbn [seen dv_rpm].
  destruct (f_of_Z_exact deg) as [E1 F1]; [cbn; lia|].
  assert (Bd : (90 <= IZR deg <= 180)%R) by (destruct Hd; subst; lra). set (C := cycle_ticks dpt q).
  destruct (time_from_rpm_accuracy (dd_rpm d) (f_of_Z deg)) as (h & H3 & H4 & H5); auto using vf_of_Z; [rewrite E1; lra|]. rewrite H3. cbn [get]. split; [reflexivity|].
  pose proof (one_range q Hq) as Sr0. cbv zeta in H5. rewrite E1 in H5. set (S := speed_of dpt q) in *. set (r := IZR (dd_rpm d)) in *.
  assert (EC : (2000000 / 3 * IZR deg / r = IZR deg / 720 * C * (S / r))%R).
  { unfold C, cycle_ticks, S, speed_of. field. split; lra. }
  rewrite EC in H5. assert (Sr : (5 / 8 <= S / r <= 2)%R).
  { split; apply Rmult_le_reg_r with r; try lra; replace (S / r * r)%R with S by (field; lra); lra. }
  assert (HC : (0 < C <= 268435456)%R).
  { pose proof (sr_long _ _ _ _ _ _ _ _ _ _ Rg) as Z1. fold C2 ea in Z1. destruct (one_cycle q Hq) as (_ & Y & Y0). replace (720 / (dpt / q))%R with C in * by (unfold C, cycle_ticks; field; lra). lra. }
  set (k := (IZR deg / 720 * C)%R) in *. assert (K0 : (0 <= k <= C / 4)%R) by (unfold k; split; [apply Rmult_le_pos; lra|]; apply Rle_trans with (180 / 720 * C)%R; [apply Rmult_le_compat_r; lra|lra]).
  assert (k * (5 / 8) <= k * (S / r) <= k * 2)%R by (split; apply Rmult_le_compat_l; lra). apply Rabs_le_inv in H5. set (u := (k * (S / r))%R) in *. split; lra.
Qed.

Lemma coarse : (IZR vE < 6 + e2 + 2 * ea + 4 * IZR dv + b * (11 / 10 * C2))%R /\ (5 + e2 + 2 * ea + 4 * IZR dv + b * (11 / 10 * C2) <= IZR vE)%R.
Proof. unfold vE. pose proof (ceil_le (5 + e2 + 2 * ea + 4 * IZR dv + b * (11 / 10 * C2))). lra. Qed.
Lemma look0 : (0 <= look)%R.
Proof. rewrite Lk. pose proof (sr_us _ _ _ _ _ _ _ _ _ _ Rg) as (U1 & U2 & U3 & U4 & U5). apply IZR_le in U4. assert (U : 0 <= len2) by lia. apply IZR_le in U. assert (0 <= (1 + delta) * q2)%R by (apply Rmult_le_pos; lra). lra. Qed.
Lemma fine : (IZR vEn < 6 + e2 + 2 * ea + 4 * IZR dv + b * look)%R /\ (5 + e2 + 2 * ea + 4 * IZR dv + b * look <= IZR vEn)%R.
Proof. unfold vEn. pose proof (ceil_le (5 + e2 + 2 * ea + 4 * IZR dv + b * look)). lra. Qed.
Lemma E_pos : 0 <= vE.
Proof. apply le_IZR. pose proof coarse. lra. Qed.
Lemma va_le : (IZR va < e2 + 2 * ea + 3)%R /\ (e2 + 2 * ea + 2 <= IZR va)%R.
Proof. unfold va. rewrite plus_IZR. pose proof (ceil_le (e2 + 2 * ea)). lra. Qed.
Lemma vP_le : (IZR vP <= C1 - ea < IZR vP + 1)%R.
Proof. apply floor_le. Qed.
Lemma vG_le : (2 * ((1 + delta) * q2) + 2 <= IZR vG < 2 * ((1 + delta) * q2) + 3)%R.
Proof. unfold vG. pose proof (ceil_le (2 * ((1 + delta) * q2) + 2)). lra. Qed.
Lemma vX_le j : (IZR (vX j) <= T j < IZR (vX j) + 1)%R.
Proof. apply floor_le. Qed.

Lemma T_step j : (C1 - ea <= T (j + 1) - T j <= C2 + ea)%R.
Proof.
  set (h := ((about (j + 1) - about j) / dpt)%R). assert (D7 : (0 < 720 / dpt)%R) by (apply Rdiv_lt_0_compat; lra). assert (Id : (0 < / dpt)%R) by (apply Rinv_0_lt_compat; lra).
  assert (E : vx (j + 1) = (vx j + (720 / dpt + h))%R) by (unfold vx, h; rewrite plus_IZR; field; lra).
  pose proof (Hdr j) as B. apply Rabs_le_inv in B. assert (Bh : (- (alpha * / dpt) <= h <= alpha * / dpt)%R) by (unfold h, Rdiv; split; [replace (- (alpha * / dpt))%R with (- alpha * / dpt)%R by ring|]; apply Rmult_le_compat_r; lra).
  assert (Ba : (alpha * / dpt <= / 8 * (720 / dpt))%R) by (replace (/ 8 * (720 / dpt))%R with (90 * / dpt)%R by (field; lra); apply Rmult_le_compat_r; lra).
  destruct (Slow ((vx j + vx (j + 1)) / 2)%R) as (q & Hq & Sl). unfold vT. destruct (Sl (vx j) (vx (j + 1))) as [A1 A2]; try lra. replace (vx (j + 1) - vx j)%R with (720 / dpt + h)%R in * by lra.
  rewrite C1_def, C2_def. destruct (qd q Hq) as [[Q1 Q2] Q3].
  assert (Ea : (ea = q2 * (1 + delta) * (alpha * / dpt))%R) by (unfold ea, wander; field; lra).
  assert (Lo : (q * (1 - delta) * h >= - ea)%R).
  { apply Rle_ge. apply Rle_trans with (q * (1 - delta) * (- (alpha * / dpt)))%R; [|apply Rmult_le_compat_l; [apply Rmult_le_pos; lra|lra]].
    assert (q * (1 - delta) * (alpha * / dpt) <= ea)%R; [|lra]. rewrite Ea. apply Rmult_le_compat_r; [apply Rmult_le_pos; lra|]. apply Rmult_le_compat; lra. }
  assert (Hi : (q * (1 + delta) * h <= ea)%R).
  { apply Rle_trans with (q * (1 + delta) * (alpha * / dpt))%R; [apply Rmult_le_compat_l; [apply Rmult_le_pos; lra|lra]|]. rewrite Ea. apply Rmult_le_compat_r; [apply Rmult_le_pos; lra|]. apply Rmult_le_compat_r; lra. }
  rewrite Rmult_plus_distr_l in A1, A2.
  replace (q * (1 - delta) * (720 / dpt))%R with ((1 - delta) * (720 * q / dpt))%R in A1 by (field; lra). replace (q * (1 + delta) * (720 / dpt))%R with ((1 + delta) * (720 * q / dpt))%R in A2 by (field; lra).
  assert ((1 - delta) * (720 * q1 / dpt) <= (1 - delta) * (720 * q / dpt))%R by (apply Rmult_le_compat_l; lra). assert ((1 + delta) * (720 * q / dpt) <= (1 + delta) * (720 * q2 / dpt))%R by (apply Rmult_le_compat_l; lra). lra.
Qed.
Lemma HX j : vP <= vX (j + 1) - vX j <= vPU.
Proof.
  pose proof (vX_le j) as A1. pose proof (vX_le (j + 1)) as H1. pose proof (T_step j) as ST. pose proof vP_le as A2.
  pose proof (ceil_le (C2 + ea)) as A3. fold vPU in A3. assert (H2 : (IZR (vX (j + 1)) - IZR (vX j) - IZR vP > -1)%R) by lra. assert (H3 : (IZR (vX (j + 1)) - IZR (vX j) - IZR vPU < 1)%R) by lra. rewrite <- !minus_IZR in H2, H3.
  apply lt_IZR in H3. assert (-1 < vX (j + 1) - vX j - vP) by (apply lt_IZR; lra). lia.
Qed.
Lemma Ht m : m0 <= m -> tt m <= tt (m + 1) <= tt m + vG.
Proof.
  intros Hm. pose proof vG_le as A3. assert (G0 : (0 <= (1 + delta) * q2)%R) by (apply Rmult_le_pos; lra). destruct (Hidx m Hm) as [[I1 I2]|(_ & -> & _)].
  - pose proof (Seen m Hm) as S0. pose proof (Seen (m + 1) ltac:(lia)) as S1'. destruct (Tk m Hm) as (q & _ & Hq & Sl & _). apply IZR_le in I1. apply IZR_le in I2. rewrite plus_IZR in I1, I2.
    assert (0 < / dpt)%R by (apply Rinv_0_lt_compat; lra). assert (1 <= 720 / dpt)%R by (apply Rmult_le_reg_r with dpt; [lra|]; replace (720 / dpt * dpt)%R with 720%R by (field; lra); lra).
    destruct (Sl (IZR (idx m)) (IZR (idx (m + 1)))) as [A B]; try lra. apply Rabs_le_inv in S0. apply Rabs_le_inv in S1'. set (x := (IZR (idx (m + 1)) - IZR (idx m))%R) in *. assert (Hx : (1 <= x <= 2)%R) by (unfold x; lra).
    assert (B1 : (q * (1 - delta) * 1 <= q * (1 - delta) * x)%R) by (apply Rmult_le_compat_l; [apply Rmult_le_pos; lra|lra]). assert (B2 : (q * (1 + delta) * x <= q * (1 + delta) * 2)%R) by (apply Rmult_le_compat_l; [apply Rmult_le_pos; lra|lra]).
    assert (B3 : (q * (1 + delta) <= (1 + delta) * q2)%R) by (rewrite (Rmult_comm q); apply Rmult_le_compat_l; lra). assert (B4 : (q * delta <= q * / 140)%R) by (apply Rmult_le_compat_l; lra).
    split; apply le_IZR; rewrite ?plus_IZR; lra.
  - split; [lia|]. apply le_IZR. rewrite plus_IZR. lra.
Qed.
Lemma Hk0 m : m0 <= m -> tt m - va <= vX (vk m) /\ vX (vk m - 1) <= tt m + va.
Proof.
  intros Hm. destruct (place m Hm) as (_ & _ & _ & _ & _ & _ & _ & _ & _ & _ & _ & _ & A & B). destruct (wander_k m Hm) as [W2 W3]. apply Rabs_le_inv in W2. apply Rabs_le_inv in W3. pose proof (Seen m Hm) as S0. apply Rabs_le_inv in S0. pose proof (vX_le (vk m)). pose proof va_le. pose proof (vX_le (vk m - 1)).
  split; apply le_IZR; rewrite ?plus_IZR, ?minus_IZR; lra.
Qed.
Lemma Hmon m : m0 <= m -> vk m <= vk (m + 1).
Proof.
  intros Hm.
  assert (Apart : (R_ (adv m) - R_ (adv (m + 1)) + / 100 <= dpt * IZR (idx (m + 1) - idx m))%R -> vk m <= vk (m + 1)).
  { intros I. destruct (aim_k m Hm) as (_ & g & _ & _ & _ & _ & _ & _ & _ & B & A & _). destruct (aim_k (m + 1) ltac:(lia)) as (_ & g' & _ & _ & _ & _ & _ & _ & _ & B' & A' & _).
    apply Rabs_le_inv in A. apply Rabs_le_inv in A'. unfold vtarget in A, A'. rewrite minus_IZR in I. rewrite Rmult_minus_distr_l in I. rewrite minus_IZR, Rmult_minus_distr_l in A, A'.
    assert (L : (IZR (vk m) - IZR (vk (m + 1)) < 1)%R) by lra. rewrite <- minus_IZR in L. apply lt_IZR in L. lia. }
  destruct (Htu m Hm) as [Es|L]; [|exact (Apart L)]. destruct (Hidx m Hm) as [[I1 _]|(Ei & _ & Ea)].
  - apply Apart. rewrite Es. assert (L : 1 <= idx (m + 1) - idx m) by lia. apply IZR_le in L. assert (dpt * 1 <= dpt * IZR (idx (m + 1) - idx m))%R by (apply Rmult_le_compat_l; lra). lra.
  - assert (E : vg (m + 1) = vg m).
    { unfold vg. rewrite Ea, Es. destruct (Tk m Hm) as (_ & d & _ & _ & _ & Ev). destruct (Tk (m + 1) ltac:(lia)) as (_ & d' & _ & _ & _ & Ev'). rewrite Ev, Ev'. reflexivity. }
    rewrite !vk_unfold. rewrite E, Ei. unfold vtarget. rewrite Es. lia.
Qed.
Lemma Hoff m : m0 <= m -> tt m <= voff m /\ - (vE - 4 * dv) <= voff m - vX (vk m) <= vE - 4 * dv.
Proof.
  intros Hm. destruct (place m Hm) as (_ & _ & t & _ & _ & _ & _ & Es & T0 & A & B & _). destruct (wander_k m Hm) as [W2 _]. apply Rabs_le_inv in W2. split; [lia|]. pose proof (vX_le (vk m)). pose proof coarse. apply Rabs_le_inv in A.
  assert (b * IZR t <= b * (11 / 10 * C2))%R by (apply Rmult_le_compat_l; lra). split; apply le_IZR; rewrite ?opp_IZR, ?minus_IZR, mult_IZR; lra.
Qed.
Lemma near_t m : m0 <= m -> vX (vk m) - tt m <= vN -> (IZR (voff m - tt m) <= look)%R /\ (Rabs (IZR (voff m) - p (xe m)) <= 4 + e2 + b * look)%R.
Proof.
  intros Hm Hn. destruct (Hoff m Hm) as [_ Ho]. destruct (place m Hm) as (_ & _ & t & _ & _ & _ & _ & Es & T0 & A & B & _). pose proof (vX_le (vk m)). apply Rabs_le_inv in A.
  pose proof (sr_us _ _ _ _ _ _ _ _ _ _ Rg) as (_ & _ & _ & _ & U5).
  assert (Bt : t <= late + vG + 4 * len2 + 3 * vE).
  { unfold vN in Hn. assert (va <= vE). { apply le_IZR. pose proof va_le. pose proof coarse. lra. } lia. }
  assert (Bl : (IZR t <= look)%R).
  { apply IZR_le in Bt. rewrite !plus_IZR, !mult_IZR in Bt. rewrite Lk. pose proof coarse. pose proof vG_le. lra. }
  assert (b * IZR t <= b * look)%R by (apply Rmult_le_compat_l; lra). split; [replace (voff m - tt m) with t by lia; exact Bl|]. apply Rabs_le. lra.
Qed.
Lemma Hnear m : m0 <= m -> vX (vk m) - tt m <= vN -> - (vEn - 4 * dv) <= voff m - vX (vk m) <= vEn - 4 * dv.
Proof.
  intros Hm Hn. destruct (near_t m Hm Hn) as [_ A]. destruct (wander_k m Hm) as [W2 _]. apply Rabs_le_inv in W2. pose proof (vX_le (vk m)). pose proof fine. apply Rabs_le_inv in A. split; apply le_IZR; rewrite ?opp_IZR, ?minus_IZR, mult_IZR; lra.
Qed.
Lemma gap m q : m0 <= m -> (q1 <= q <= q2)%R -> slow_at p dpt q delta (IZR (idx m)) -> ((1 - delta) * cycle_ticks dpt q - 3 * ea - 1 < IZR (vX (vk m) - vX (vk m - 1)) /\ C1 <= (1 - delta) * cycle_ticks dpt q)%R.
Proof.
  intros Hm Hq Sl. destruct (place m Hm) as (_ & _ & _ & _ & _ & _ & _ & _ & _ & _ & _ & X & _). destruct (wander_k m Hm) as [W2 W3]. apply Rabs_le_inv in W2. apply Rabs_le_inv in W3.
  set (v := (/ (400 * dpt))%R) in *. assert (V : (0 < v)%R) by (apply Rinv_0_lt_compat; lra). assert (V1 : (v <= / 4)%R) by (apply Rinv_le; lra). assert (0 < 720 / dpt)%R by (apply Rdiv_lt_0_compat; lra).
  destruct (Sl (xe m - 720 / dpt)%R (xe m)) as [M _]; try lra. replace (xe m - (xe m - 720 / dpt))%R with (720 / dpt)%R in M by ring.
  replace (q * (1 - delta) * (720 / dpt))%R with ((1 - delta) * cycle_ticks dpt q)%R in M by (unfold cycle_ticks; field; lra).
  pose proof (vX_le (vk m)). pose proof (vX_le (vk m - 1)). rewrite minus_IZR. split; [lra|]. rewrite C1_def. apply Rmult_le_compat_l; [lra|]. apply (qd q Hq).
Qed.
Lemma Hq m : m0 <= m -> 2 * vE < vh 90 m <= vX (vk m) - vX (vk m - 1) - 2 * vE.
Proof.
  intros Hm. destruct (tooth_speed90 90 m Hm ltac:(auto)) as (q & Hq & Sl & _ & B). destruct (gap m q Hm Hq Sl) as [G1 G2]. pose proof coarse. set (C := cycle_ticks dpt q) in *.
  assert (C0 : (0 < C)%R) by (unfold C, cycle_ticks; apply Rdiv_lt_0_compat; lra). assert (delta * C <= / 140 * C)%R by (apply Rmult_le_compat_r; lra). assert (0 <= delta * C)%R by (apply Rmult_le_pos; lra).
  split; [apply lt_IZR|apply le_IZR]; rewrite ?(minus_IZR _ (2 * vE)), ?mult_IZR; lra.
Qed.
Lemma Hh m : m0 <= m -> 2 * vE < vh 180 m < vX (vk m) - vX (vk m - 1) - 2 * vE.
Proof.
  intros Hm. destruct (tooth_speed90 180 m Hm ltac:(auto)) as (q & Hq & Sl & _ & B). destruct (gap m q Hm Hq Sl) as [G1 G2]. pose proof coarse. set (C := cycle_ticks dpt q) in *.
  assert (C0 : (0 < C)%R) by (unfold C, cycle_ticks; apply Rdiv_lt_0_compat; lra). assert (delta * C <= / 140 * C)%R by (apply Rmult_le_compat_r; lra). assert (0 <= delta * C)%R by (apply Rmult_le_pos; lra).
  split; apply lt_IZR; rewrite ?(minus_IZR _ (2 * vE)), ?mult_IZR; lra.
Qed.
Lemma HE : 0 <= vEn <= vE.
Proof.
  pose proof look0. split; [apply le_IZR; pose proof fine; assert (0 <= b * look)%R by (apply Rmult_le_pos; lra); lra|].
  unfold vEn, vE. apply Zceil_le. apply Rplus_le_compat_l. apply Rmult_le_compat_l; [lra|]. pose proof (proj1 (proj2 (proj2 (sr_us _ _ _ _ _ _ _ _ _ _ Rg)))) as [U _]. apply IZR_le in U. lra.
Qed.
Lemma Ha0 : 0 <= va <= vE.
Proof. pose proof va_le. pose proof coarse. split; apply le_IZR; lra. Qed.
Lemma HP : 4 * len2 + 2 * vE + 512 + vG + late + 4 * mf + va <= vP.
Proof.
  apply Z.lt_succ_r. apply lt_IZR. unfold Z.succ. rewrite !plus_IZR, !mult_IZR. pose proof vP_le. pose proof vG_le. pose proof coarse. pose proof (proj2 Ha0) as A. apply IZR_le in A. rewrite Lk in Fit. lra.
Qed.
Lemma HPW : vP <= vPU <= 2 ^ 28.
Proof.
  pose proof (sr_long _ _ _ _ _ _ _ _ _ _ Rg) as Z1. fold C2 ea in Z1. split; [apply le_IZR; pose proof vP_le; pose proof (ceil_le (C2 + ea)); fold vPU in *; lra|]. apply (Zceil_glb (2 ^ 28)). change (IZR (2 ^ 28)) with 268435456%R. lra.
Qed.
Lemma HD : 2 * vEn < 4 * len1 /\ (0 < 4 * mf -> 2 * vE < 4 * len1).
Proof. pose proof coarse. pose proof fine. split; [|intros Hm; specialize (Rst ltac:(lia))]; apply lt_IZR; rewrite !mult_IZR; lra. Qed.
Lemma Hview m : m0 <= m -> dv_rpm (view m) <> 0 /\ dv_valid (view m) <> 0 /\ dv_last_time (view m) = w32 (tt m) /\
  (exists g, clamp_angle (fadd (fsub (fsub ang (adv m)) (dv_last_angle (view m))) (dv_offset (view m))) (f_of_Z 720) = Ok g /\ time_from_rpm_diff (dv_tooth_rpm (view m)) g = Ok (voff m - tt m)) /\
  time_from_rpm_diff (dv_rpm (view m)) (f_of_Z 90) = Ok (vh 90 m) /\ time_from_rpm_diff (dv_rpm (view m)) (f_of_Z 180) = Ok (vh 180 m).
Proof.
  intros Hm. destruct (place m Hm) as (_ & g & t & _ & _ & E1 & E2 & Es & _). destruct (tooth_speed90 90 m Hm ltac:(auto)) as (_ & _ & _ & H90 & _). destruct (tooth_speed90 180 m Hm ltac:(auto)) as (_ & _ & _ & H180 & _).
  assert (G : exists g, clamp_angle (fadd (fsub (fsub ang (adv m)) (dv_last_angle (view m))) (dv_offset (view m))) (f_of_Z 720) = Ok g /\ time_from_rpm_diff (dv_tooth_rpm (view m)) g = Ok (voff m - tt m)).
  { exists g. split; [exact E1|]. rewrite E2. f_equal. lia. }
  destruct (Tk m Hm) as (q & d & _ & _ & TK & Ev). destruct TK as (V & Rp & _ & _ & Ti & _). split; [rewrite Ev; cbn [seen dv_rpm]; lia|]. split; [rewrite Ev; cbn [seen dv_valid]; lia|]. split; [rewrite Ev; exact Ti|]. auto.
Qed.

Lemma decide_vary nd m o a : m0 <= m -> match_out o a -> o_angle o = ang ->
  exists o1, let '(p1, r) := adecide (4 * dwell m) (4 * mf) (vh 90 m) (vh 180 m) (voff m) a in
    decide nd mf (view m) o (adv m) (dwell m) = Ok (o1, wrap r) /\ match_out o1 p1 /\ (o1 = o \/ (event_has_fired o = true /\ reset_fired_event nd o = Ok o1)).
Proof.
  intros Hm M An. pose proof (sr_us _ _ _ _ _ _ _ _ _ _ Rg) as (U1 & U2 & U3 & _). pose proof (Hle m Hm). destruct (Hview m Hm) as (V1 & V2 & V3 & (g & V4 & V5) & V6 & V7). rewrite <- An in V4.
  pose proof (decide_match nd mf (view m) o (adv m) (dwell m) g (voff m - tt m) (tt m) (4 * dwell m) (4 * mf) (vh 90 m) (vh 180 m) a M V1 V2 V4 V5 V3) as Q.
  replace (tt m + (voff m - tt m)) with (voff m) in Q by ring. apply Q; auto; apply time_from_us_exact; lia.
Qed.

(** ** The run *)
Variables (fu : bool) (nd : bool) (dec : Z -> dview -> output -> res (output * option (Z * Z))) (i : nat) (pin n : Z) (os : list output) (o : output).
Hypothesis Hdec : forall m o a, m0 <= m -> match_out o a -> o_angle o = ang ->
  exists o1, let '(p1, r) := adecide (4 * dwell m) (4 * mf) (vh 90 m) (vh 180 m) (voff m) a in
    dec m (view m) o = Ok (o1, wrap r) /\ match_out o1 p1 /\ (o1 = o \/ (event_has_fired o = true /\ reset_fired_event nd o = Ok o1)).
Hypothesis Hst : fu = true -> forall m m' j, m0 <= m -> m0 <= m' -> next_due dpt zero (idx m) (target m) j -> next_due dpt zero (idx m') (target m') j -> dwell m - dwell m' <= dv.
Hypothesis H0 : m0 = 0.
Hypothesis Hpin : 0 <= pin < 16.
Hypothesis Hopen : open_from n <= tt m0 + late.
Hypothesis Ho : nth_error os i = Some o.
Hypothesis Hfr : Forall fresh os.
Hypothesis Hps : Forall (fun o => 0 <= o_pin o mod 256 < 32) os.
Hypothesis Hal : alone pin i os.
Hypothesis Hty : is_fuel (o_type o) = fu.
Hypothesis Han : o_angle o = ang.

Lemma call_aimed m j x : m0 <= m -> vk m = j -> tt m <= x -> vX j - tt m <= vN ->
  call_for p dpt zero idx tt target (look + vmiss dpt q1 q2 delta look) m j x /\ (Rabs (IZR (voff m) - due p dpt zero (target m) j) <= vmiss dpt q1 q2 delta look)%R.
Proof.
  intros Hm Kj Tx Nr. subst j. destruct (near_t m Hm Nr) as [A B]. assert (Ms : vmiss dpt q1 q2 delta look = (7 + e2 + b * look)%R) by reflexivity. rewrite Ms.
  change (due p dpt zero (target m) (vk m)) with (p (xe m)). split; [|lra]. split; [lia|]. split; [exact (k_next m Hm)|]. split; [exact Tx|].
  change (due p dpt zero (target m) (vk m)) with (p (xe m)). rewrite minus_IZR in A. apply Rabs_le_inv in B. lra.
Qed.

Lemma run_pulses l s : exec nd dec view tt i pin late (St (start_sys n os) None m0 Waiting []) l s ->
  (forall e, may tt i late s e -> (forall a, e <> Other a) -> exists s', go nd dec view i pin s e = Ok s') /\
  exists j0, soon_after dpt zero (idx m0) (target m0) j0 /\
    pulse_as_told p dpt zero idx tt target dwell about (look + vmiss dpt q1 q2 delta look) (vmiss dpt q1 q2 delta look) (splan dpt q1 q2 delta alpha dv) fu (o_inv o) j0 (128 * y_n (st_sys s)) (st_log s).
Proof.
  intros Ex. pose proof (sr_us _ _ _ _ _ _ _ _ _ _ Rg) as (U1 & U2 & U3 & U4 & U5). pose proof E_pos.
  set (D m := 4 * dwell m).
  assert (HV : 0 <= 4 * dv /\ (fu = true -> forall m m', m0 <= m -> m0 <= m' -> vk m = vk m' -> D m - D m' <= 4 * dv)).
  { split; [lia|]. intros Fu m m' M1 M2 K. pose proof (k_next m M1) as N1. pose proof (k_next m' M2) as N2. rewrite <- K in N2. pose proof (Hst Fu m m' (vk m) M1 M2 N1 N2). unfold D. lia. }
  assert (HDm : forall m, m0 <= m -> 4 * len1 <= D m <= 4 * len2) by (intros m Hm; pose proof (Hle m Hm); unfold D; lia).
  set (RR := SparkProofs.R fu tt i pin late ang (o_inv o) vX voff vk D m0 (4 * len1) (4 * len2) (4 * mf) vE vEn vN).
  assert (R0 : RR (St (start_sys n os) None m0 Waiting [])).
  { eapply start_R; eauto. }
  assert (RS : RR s).
  { eapply exec_R; [..|exact Ex|exact R0]; eauto using HX, Ht, Hmon, Hk0, Hoff, Hnear, Hq, Hh, HE, Ha0, HV, HDm, HD, HP, HPW, Hdec; try lia; unfold vN; lia. }
  split.
  { intros e Me No. eapply live_R; [..|exact RS|exact Me|exact No]; eauto using HX, Ht, Hmon, Hk0, Hoff, Hnear, Hq, Hh, HE, Ha0, HV, HDm, HD, HP, HPW, Hdec; try lia; unfold vN; lia. }
  destruct (outcome_R fu tt i pin late ang (o_inv o) vX voff vk D m0 (4 * len1) (4 * len2) (4 * dv) (4 * mf) vE vEn vN vG vP vPU va) with (s := s) as (j0 & ps & tl & J & Gd & Lg & Tl & Al);
    eauto using HX, Ht, Hmon, Hk0, Hoff, Hnear, Hq, Hh, HE, Ha0, HV, HDm, HD, HP, HPW, Hdec; try lia; try (unfold vN; lia).
  exists j0. split.
  - destruct (aim_k m0 ltac:(lia)) as (_ & g & _ & _ & _ & _ & _ & _ & _ & B & A & _). apply Rabs_le_inv in A. unfold soon_after.
    assert (J1 : (0 <= IZR (j0 - vk m0) <= 2)%R) by (split; apply IZR_le; lia). rewrite minus_IZR in J1. lra.
  - assert (ST : forall j a, aimed vX tt vk m0 vN (on_at voff D) j a -> exists k, call_for p dpt zero idx tt target (look + vmiss dpt q1 q2 delta look) k j a /\
      (Rabs (IZR a + 4 * IZR (dwell k) - due p dpt zero (target k) j) <= vmiss dpt q1 q2 delta look)%R).
    { intros j a (m & Hm & Kj & Ta & Nr & E). destruct (call_aimed m j a Hm Kj Ta Nr) as [Q1 Q2]. exists m. split; [exact Q1|]. replace (IZR a + 4 * IZR (dwell m))%R with (IZR (voff m)); [exact Q2|]. rewrite E. unfold on_at, D. rewrite minus_IZR, mult_IZR. ring. }
    exists ps, (map (level (o_inv o)) tl). split; [rewrite Lg, map_app, level_pulses; reflexivity|]. split; [|split].
    + intros k on off Hi. cbv zeta. destruct (Gd k on off Hi) as [Ga (m & Hm & Kj & Ta & Nr & E)]. split; [exact (ST _ _ Ga)|].
      destruct (call_aimed m _ off Hm Kj Ta Nr) as [Q1 Q2]. exists m. split; [exact Q1|]. unfold off_at, D in E. destruct fu; [exact E|]. rewrite E. exact Q2.
    + destruct Tl as [->|(a & -> & Qa)]; [left; reflexivity|]. right. exists a. split; [reflexivity|]. exact (ST _ _ Qa).
    + intros j Hj Hc. apply Al; [exact Hj|]. apply lt_IZR. rewrite plus_IZR. pose proof (vX_le j). pose proof coarse as [Ce _].
      assert (Mc : splan dpt q1 q2 delta alpha dv = (7 + e2 + b * (11 / 10 * C2) + 2 * ea + 4 * IZR dv)%R) by reflexivity. rewrite Mc in Hc. change (due p dpt zero (about j) j) with (T j) in Hc. lra.
Qed.
End Aim.
