(** The sensors of the built-in configuration and the ranges their readings convert to. *)
Require Import ZArith Reals Lra Lia List Bool.
From Flocq Require Import Core IEEE754.BinarySingleNaN.
From Verif Require Import Res Word F32 F32Flocq AngleProofs Interval Outputs OutputRun Decoder DecoderAngle DecoderSafe Sensors SensorSpec SensorProofs CalcSpec SafeSpec Rig RigSpec.
Import ListNotations.
Open Scope Z_scope.
Ltac Zify.zify_post_hook ::= idtac.

Definition sdat0 : sdat := SDat f_zero 0 false f_zero 0 f_zero f_zero f_zero FAULT_NONE.
(** config.c 217-259 in the order of sensors.h 9-21.  (Decimal literals are quotients of whole floats here, which may differ
    in the last place.)  [frt] is the fuel temperature sensor, config.c 253-254. *)
Definition factory_with (frt : scfg) : list sensor :=
  [(SCfg 3 SRC_ADC LINEAR_WINDOWED (f_of_Z 12) (f_of_Z 420) f_zero (f_of_Z 5) f_zero f_zero f_zero f_zero f_zero (flit 5 100) (flit 495 100) (f_of_Z 50) 120 120 0, sdat0);
   (SCfg 4 SRC_ADC THERM f_zero f_zero f_zero (f_of_Z 5) (f_of_Z 2490) (flit 146167419060305 100000000000000000) (flit 22887572003919 100000000000000000) (flit 164484831669638 1000000000000000000000)
      f_zero (flit 5 100) (flit 495 100) (f_of_Z 10) 0 0 0, sdat0);
   (SCfg 5 SRC_ADC THERM f_zero f_zero f_zero (f_of_Z 5) (f_of_Z 2490) (flit 131586818223649 100000000000000000) (flit 25618700140100 100000000000000000) (flit 18474199456928 100000000000000000000)
      f_zero (flit 5 100) (flit 495 100) (f_of_Z 50) 0 0 0, sdat0);
   (SCfg 2 SRC_ADC LINEAR f_zero (flit 245 10) f_zero (f_of_Z 5) f_zero f_zero f_zero f_zero (f_of_Z 80) (flit 1 10) (flit 49 10) (flit 138 10) 0 0 0, sdat0);
   (SCfg 6 SRC_ADC LINEAR (flit (-1574) 100) (flit 14547 100) f_zero (f_of_Z 5) f_zero f_zero f_zero f_zero (f_of_Z 10) (flit 25 100) (flit 45 10) (f_of_Z 25) 0 0 0, sdat0);
   (SCfg 5 SRC_CONST LINEAR f_zero f_zero f_zero f_zero f_zero f_zero f_zero f_zero f_zero f_zero f_zero f_zero 0 0 0, set_value sdat0 (f_of_Z 102));
   (frt, sdat0);
   (SCfg 7 SRC_ADC LINEAR (flit 499 1000) (flit 1309 1000) f_zero (f_of_Z 5) f_zero f_zero f_zero f_zero f_zero f_zero f_zero f_zero 0 0 0, sdat0);
   (SCfg 0 SRC_CONST LINEAR f_zero f_zero f_zero f_zero f_zero f_zero f_zero f_zero f_zero f_zero f_zero f_zero 0 0 0, set_value sdat0 (f_of_Z 100));
   (SCfg 3 SRC_FREQ LINEAR f_zero (f_of_Z 100) (f_of_Z 50) (f_of_Z 150) f_zero f_zero f_zero f_zero f_zero f_zero f_zero f_zero 0 0 0, sdat0)].
(** The fuel temperature sensor with fault limits [lo], [hi] and a value to assume; config.c sets none. *)
Definition frt_cfg (lo hi v : f32) : scfg :=
  SCfg 3 SRC_PULSEWIDTH LINEAR (f_of_Z (-40)) (f_of_Z 125) (flit 1 1000) (flit 5 1000) f_zero f_zero f_zero f_zero f_zero lo hi v 0 0 0.
Definition factory : list sensor := factory_with (frt_cfg f_zero f_zero f_zero).
Definition factory_limited : list sensor := factory_with (frt_cfg (flit 1 1000) (flit 5 1000) (f_of_Z 20)).

(** config.c 187-210: the outputs and the decoder. *)
Definition idle_entry : entry := Entry 0 0 false UNSCHEDULED.
Definition factory_output (t : etype) (angle pin : Z) : output := Output t (f_of_Z angle) pin false idle_entry idle_entry.
Definition factory_outputs : list output :=
  [factory_output IGNITION_EVENT 0 0; factory_output IGNITION_EVENT 120 1; factory_output IGNITION_EVENT 240 2;
   factory_output IGNITION_EVENT 360 0; factory_output IGNITION_EVENT 480 1; factory_output IGNITION_EVENT 600 2;
   factory_output FUEL_EVENT 700 8; factory_output FUEL_EVENT 460 9; factory_output FUEL_EVENT 220 10] ++ repeat (factory_output DISABLED_EVENT 0 0) 7.
Definition factory_decoder : dcfg := DCfg MISSING_CAMSYNC f_zero (flit 35 100) 80 4 36 (f_of_Z 10) 0.

(** A logf that is roughly right: between 3 (e^3 = 20.1) and 12.5 (e^12.5 = 268337) for arguments between 21 and 260000. *)
Definition log_sane (logf : f32 -> f32) : Prop := forall x, iv x 21 260000 -> iv (logf x) 3 (25 / 2).

(** ** Ranges *)
Lemma rep_q m k : Z.abs m <= 2 ^ 24 -> 0 <= k <= 100 -> rep (IZR m / IZR (2 ^ k)).
Proof.
  intros Hm Hk. unfold Rdiv. replace (/ IZR (2 ^ k))%R with (bpow radix2 (- k)); [apply rep_grid; lia|]. rewrite bpow_opp. f_equal. rewrite <- (IZR_Zpower radix2) by lia. reflexivity.
Qed.
Lemma iv_flit a b lo hi : Z.abs a <= 2 ^ 24 -> 0 < b <= 2 ^ 24 -> rep lo -> rep hi -> (lo * IZR b <= IZR a)%R -> (IZR a <= hi * IZR b)%R -> iv (flit a b) lo hi.
Proof.
  intros Ha Hb L H A B. unfold flit. assert (0 < IZR b)%R by (apply IZR_lt; lia). apply (iv_divc _ _ (IZR a) (IZR a) (IZR b)); auto; apply iv_Z; lia.
Qed.

(** A linear sensor read between its raw bounds gives a value between its range bounds, up to rounding. *)
Lemma linear_range c raw a a' g : iv (c_raw_min c) 0 4000000 -> iv (c_raw_max c) 0 4000000 -> (R_ (c_raw_min c) < R_ (c_raw_max c))%R ->
  vf raw -> fin raw -> (R_ (c_raw_min c) <= R_ raw <= R_ (c_raw_max c))%R ->
  iv (c_range_min c) a a' -> iv (fsub (c_range_max c) (c_range_min c)) 0 g -> rep a -> rep g -> rep (a' + g) -> iv (sensor_convert_linear c raw) a (a' + g).
Proof.
  intros (V1 & F1 & B1) (V2 & F2 & B2) L V F B Im Ig Ra Rg Rs. unfold sensor_convert_linear. destruct (feq (c_raw_max c) (c_raw_min c)) eqn:E; [apply feq_iff in E; auto; lra|].
  set (D := fsub (c_raw_max c) (c_raw_min c)). destruct (fsub_ok (c_raw_max c) (c_raw_min c) 22) as [Ed Fd]; auto; [lia|simpl; apply Rabs_le; lra|]. fold D in Ed, Fd.
  destruct (fsub_ok raw (c_raw_min c) 22) as [En Fn]; auto; [lia|simpl; apply Rabs_le; lra|].
  assert (Pd : (0 < R_ D)%R).
  { assert (Nz := rnd_sub_nonzero _ _ V2 V1 F2 F1 ltac:(lra)). rewrite <- Ed in Nz. assert (0 <= R_ D)%R; [|lra]. rewrite Ed, <- rnd_0. apply rnd_le. lra. }
  assert (Vd : vf D) by (unfold D; auto with vf). assert (In : iv (fsub raw (c_raw_min c)) 0 (R_ D)) by (split; [auto with vf|]; split; [exact Fn|]; rewrite En, Ed; split; [rewrite <- rnd_0|]; apply rnd_le; lra).
  assert (Ip : iv (fdiv (fsub raw (c_raw_min c)) D) 0 1) by (apply (iv_divc _ D 0 (R_ D) (R_ D)); auto; try (apply rep_Z; lia); try lra; split; auto; split; auto; lra).
  assert (Pg : (0 <= g)%R) by (destruct Ig as (_ & _ & Bg); lra).
  assert (Im2 : iv (fmul (fdiv (fsub raw (c_raw_min c)) D) (fsub (c_range_max c) (c_range_min c))) 0 g) by (apply (iv_mul _ _ 0 1 0 g); auto; try lra; apply (rep_Z 0); lia).
  apply (iv_add _ _ a a' 0 g); auto; lra.
Qed.

(** A thermistor against a 2490 ohm resistor, read between 0.05 and 4.95 volts; the coefficients in units of 2^-30. *)
Definition u30 (z : Z) : R := (IZR z / IZR (2 ^ 30))%R.
Lemma u30_rep z : Z.abs z <= 2 ^ 24 -> rep (u30 z).
Proof. intros H. apply rep_q; lia. Qed.
Lemma u30_le (k x m y : Z) : k * x <= m * y -> (IZR k * u30 x <= IZR m * u30 y)%R.
Proof.
  intros H. apply IZR_le in H. rewrite !mult_IZR in H. unfold u30, Rdiv. change (IZR (2 ^ 30)) with 1073741824%R. lra.
Qed.
Lemma resistance_range c raw : c_raw_max c = f_of_Z 5 -> c_bias c = f_of_Z 2490 -> vf raw -> fin raw -> (R_ (flit 5 100) <= R_ raw <= R_ (flit 495 100))%R ->
  (0 < R_ raw)%R /\ iv (fdiv (c_bias c) (fsub (fdiv (c_raw_max c) raw) (f_of_Z 1))) 21 260000.
Proof.
  intros E5 Eb V F B. rewrite E5, Eb.
  destruct (iv_flit 5 100 (IZR 3 / IZR (2 ^ 6)) 1) as (_ & _ & Bl); try lia; try (apply rep_q; lia); try (apply (rep_Z 1); lia); try (change (IZR (2 ^ 6)) with 64%R; lra); try lra.
  destruct (iv_flit 495 100 1 (IZR 5069 / IZR (2 ^ 10))) as (_ & _ & Bh); try lia; try (apply rep_q; lia); try (apply (rep_Z 1); lia); try (change (IZR (2 ^ 10)) with 1024%R; lra); try lra.
  change (IZR (2 ^ 6)) with 64%R in Bl. change (IZR (2 ^ 10)) with 1024%R in Bh.
  assert (I : iv raw (3 / 64) (5069 / 1024)) by (split; auto; split; auto; lra). split; [lra|].
  assert (Q1 : rep (1 + 10300 / 1048576)) by (replace (1 + 10300 / 1048576)%R with (IZR 1058876 / IZR (2 ^ 20))%R by (change (IZR (2 ^ 20)) with 1048576%R; lra); apply rep_q; lia).
  assert (Q2 : rep (10300 / 1048576)) by (change 1048576%R with (IZR (2 ^ 20)); apply rep_q; lia).
  assert (I1 : iv (fdiv (f_of_Z 5) raw) (1 + 10300 / 1048576) 107) by (apply (iv_div _ _ 5 5 (3 / 64) (5069 / 1024)); auto; try (apply (iv_Z 5); lia); try (apply (rep_Z 107); lia); lra).
  assert (I2 : iv (fsub (fdiv (f_of_Z 5) raw) (f_of_Z 1)) (10300 / 1048576) 106) by (apply (iv_sub _ _ (1 + 10300 / 1048576) 107 1 1); auto; try (apply (iv_Z 1); lia); try (apply (rep_Z 106); lia); lra).
  apply (iv_div _ _ 2490 2490 (10300 / 1048576) 106); auto; try (apply (iv_Z 2490); lia); try (apply (rep_Z 21); lia); try (apply (rep_Z 260000); lia); lra.
Qed.

Lemma therm_range logf c raw (a1 a2 b1 b2 c2 l1 l2 p1 p2 p3 t1 t2 lo hi : Z) : log_sane logf -> c_raw_max c = f_of_Z 5 -> c_bias c = f_of_Z 2490 -> vf raw -> fin raw -> (R_ (flit 5 100) <= R_ raw <= R_ (flit 495 100))%R ->
  iv (c_a c) (u30 a1) (u30 a2) -> iv (c_b c) (u30 b1) (u30 b2) -> iv (c_c c) (u30 0) (u30 c2) ->
  0 <= a1 <= 4000000 -> 0 <= a2 <= 4000000 -> 0 <= b1 -> 0 < l1 <= 3 * b1 -> l1 <= 4000000 -> 25 * b2 <= 2 * l2 -> 0 <= l2 <= 4000000 -> 0 <= c2 -> 25 * c2 <= 2 * p1 -> 25 * p1 <= 2 * p2 -> 25 * p2 <= 2 * p3 -> p3 <= 4000000 -> 
  0 <= t1 <= 10000 -> t1 * (a2 + l2 + p3) <= 2 ^ 30 -> 2 ^ 30 <= t2 * (a1 + l1) -> 0 <= t2 <= 10000 -> -1000 <= lo <= t1 - 274 -> t2 - 273 <= hi <= 10000 ->
  iv (sensor_convert_thermistor logf c raw) (IZR lo) (IZR hi).
Proof.
  intros LG E5 Eb V F B Ia Ib Ic A1 A2 B1 L1 L0 L2 L3 C2 P1 P2 P3 P4 T1 T2 T3 T4 Hl Hh. destruct (resistance_range c raw E5 Eb V F B) as [Pr Ir]. unfold sensor_convert_thermistor.
  destruct (feq raw f_zero) eqn:Ez; [apply feq_iff in Ez; auto with vf; rewrite R_f_zero in Ez; lra|]. specialize (LG _ Ir). set (l := logf _) in *. clearbody l. cbv zeta. clear E5 Eb Ir.
  assert (Z0 : u30 0 = 0%R) by (unfold u30; change (IZR (2 ^ 30)) with 1073741824%R; lra).
  assert (U : forall k x m y, k * x <= m * y -> (IZR k * u30 x <= IZR m * u30 y)%R) by (intros; now apply u30_le).
  assert (Pos : forall x, 0 <= x -> (0 <= u30 x)%R) by (intros x Hx; pose proof (U 1 0 1 x ltac:(lia)); rewrite Z0 in *; lra).
  assert (I1 : iv (fmul (c_b c) l) (u30 l1) (u30 l2)).
  { apply (iv_mul _ _ (u30 b1) (u30 b2) 3 (25 / 2)); auto; try (apply u30_rep; lia); [lra|pose proof (U 1 l1 3 b1 ltac:(lia)); lra|pose proof (U 25 b2 2 l2 ltac:(lia)); lra]. }
  assert (I2 : iv (fadd (c_a c) (fmul (c_b c) l)) (u30 (a1 + l1)) (u30 (a2 + l2))).
  { apply (iv_add _ _ _ _ _ _ _ _ Ia I1); try (apply u30_rep; lia); unfold u30; rewrite plus_IZR; lra. }
  assert (R0 : rep (u30 0)) by (apply u30_rep; lia).
  assert (J1 : iv (fmul (c_c c) l) (u30 0) (u30 p1)) by (apply (iv_mul _ _ (u30 0) (u30 c2) 3 (25 / 2)); auto; try (apply u30_rep; lia); try (rewrite Z0; lra); pose proof (U 25 c2 2 p1 ltac:(lia)); lra).
  assert (J2 : iv (fmul (fmul (c_c c) l) l) (u30 0) (u30 p2)) by (apply (iv_mul _ _ (u30 0) (u30 p1) 3 (25 / 2)); auto; try (apply u30_rep; lia); try (rewrite Z0; lra); pose proof (U 25 p1 2 p2 ltac:(lia)); lra).
  assert (J3 : iv (fmul (fmul (fmul (c_c c) l) l) l) (u30 0) (u30 p3)) by (apply (iv_mul _ _ (u30 0) (u30 p2) 3 (25 / 2)); auto; try (apply u30_rep; lia); try (rewrite Z0; lra); pose proof (U 25 p2 2 p3 ltac:(lia)); lra).
  assert (I3 : iv (fadd (fadd (c_a c) (fmul (c_b c) l)) (fmul (fmul (fmul (c_c c) l) l) l)) (u30 (a1 + l1)) (u30 (a2 + l2 + p3))).
  { apply (iv_add _ _ _ _ _ _ _ _ I2 J3); try (apply u30_rep; lia); rewrite ?Z0; unfold u30; rewrite ?plus_IZR; lra. }
  assert (G : (IZR t1 * u30 (a2 + l2 + p3) <= 1 <= IZR t2 * u30 (a1 + l1))%R).
  { unfold u30, Rdiv. apply IZR_le in T2, T3. rewrite mult_IZR in T2, T3. change (IZR (2 ^ 30)) with 1073741824%R in *. lra. }
  assert (Pa : (0 < u30 (a1 + l1))%R). { unfold u30. assert (0 < IZR (a1 + l1))%R by (apply IZR_lt; lia). change (IZR (2 ^ 30)) with 1073741824%R. lra. }
  assert (R1 : (0 <= IZR t1)%R) by (apply IZR_le; lia).
  assert (I4 : iv (fdiv (f_of_Z 1) (fadd (fadd (c_a c) (fmul (c_b c) l)) (fmul (fmul (fmul (c_c c) l) l) l))) (IZR t1) (IZR t2)).
  { apply (iv_div _ _ 1 1 (u30 (a1 + l1)) (u30 (a2 + l2 + p3))); auto; try (apply (iv_Z 1); lia); try (apply rep_Z; lia); lra. }
  assert (I5 : iv (flit 27315 100) 273 274) by (apply iv_flit; try lia; try (apply (rep_Z 273); lia); try (apply (rep_Z 274); lia); lra).
  apply (iv_sub _ _ _ _ _ _ _ _ I4 I5); try (apply rep_Z; lia); rewrite <- minus_IZR; apply IZR_le; lia.
Qed.

(** ** The built-in sensors *)
Lemma num_Z z : Z.abs z <= 2 ^ 24 -> number (f_of_Z z).
Proof. intros H. destruct (iv_Z z H) as (V & F & _). split; auto. Qed.
Lemma num_flit a b : Z.abs a <= 2 ^ 24 -> 0 < b <= 2 ^ 24 -> number (flit a b).
Proof.
  intros Ha Hb. assert (1 <= IZR b)%R by (apply IZR_le; lia). assert (- 16777216 <= IZR a <= 16777216)%R by (split; [apply (IZR_le (-16777216))|apply (IZR_le _ 16777216)]; lia).
  destruct (iv_flit a b (-16777216) 16777216) as (V & F & _); auto; try (apply (rep_Z 16777216); lia); try (apply (rep_Z (-16777216)); lia); try nra. split; auto.
Qed.
Lemma zero_lag : exists n, 0 <= n <= 100 /\ f_zero = f_of_Z n.
Proof. exists 0. split; [lia|reflexivity]. Qed.

Lemma limits_in c raw : R_ (c_fault_max c) <> 0%R -> accepted c raw -> (R_ (c_fault_min c) <= R_ raw <= R_ (c_fault_max c))%R.
Proof. intros N [E|B]; [contradiction|exact B]. Qed.
Lemma flit_pos a b : 0 < a <= 2 ^ 24 -> 0 < b <= 2 ^ 24 -> (/ 16777216 <= R_ (flit a b))%R.
Proof.
  intros Ha Hb. assert (1 <= IZR b <= 16777216)%R by (split; [apply (IZR_le 1)|apply (IZR_le _ 16777216)]; lia). assert (1 <= IZR a <= 16777216)%R by (split; [apply (IZR_le 1)|apply (IZR_le _ 16777216)]; lia).
  destruct (iv_flit a b (/ 16777216) 16777216) as (_ & _ & B); try lia; try lra; try (apply (rep_Z 16777216); lia); try nra.
  replace (/ 16777216)%R with (IZR 1 / IZR (2 ^ 24))%R by (change (IZR (2 ^ 24)) with 16777216%R; lra). apply rep_q; lia.
Qed.

Ltac solve_iv := match goal with
  | |- iv (f_of_Z ?z) _ _ => eapply iv_weak; [apply (iv_Z z); lia|lra|lra]
  | |- iv f_zero _ _ => eapply iv_weak; [apply (iv_Z 0); lia|lra|lra]
  end.

(** A linear sensor of 0 to 5 volts with its range in whole numbers around it. *)
Lemma volts_box pulses logf c (a a' g lo hi : Z) : c_source c = SRC_ADC -> c_method c <> THERM -> c_raw_min c = f_zero -> c_raw_max c = f_of_Z 5 ->
  iv (c_range_min c) (IZR a) (IZR a') -> iv (fsub (c_range_max c) (c_range_min c)) 0 (IZR g) -> Z.abs a <= 100000 -> Z.abs a' <= 100000 -> 0 <= g <= 100000 -> lo <= a -> a' + g <= hi ->
  forall raw, reading pulses (c_source c) raw -> accepted c raw -> iv (converted logf c raw) (IZR lo) (IZR hi).
Proof.
  intros Sc M E0 E5 Im Ig A A' G L H raw Hr _. rewrite Sc in Hr. destruct Hr as (V & F & B).
  assert (X : iv (sensor_convert_linear c raw) (IZR a) (IZR a' + IZR g)).
  { destruct (f_of_Z_exact 5) as [R5 _]; [lia|]. apply linear_range; auto; rewrite ?E0, ?E5; try solve_iv; rewrite ?R_f_zero, ?R5; try lra; try (apply rep_Z; lia). rewrite <- plus_IZR. apply rep_Z. lia. }
  rewrite <- plus_IZR in X. unfold converted. destruct (c_method c); [| |contradiction]; apply (iv_weak _ _ _ _ _ X); apply IZR_le; lia.
Qed.

Lemma frt_linear logf lo hi v raw : vf raw -> fin raw -> (R_ (flit 1 1000) <= R_ raw <= R_ (flit 5 1000))%R -> iv (converted logf (frt_cfg lo hi v) raw) (-64) 128.
Proof.
  intros V F B. unfold converted. cbn [frt_cfg c_method]. eapply iv_weak; [apply (linear_range (frt_cfg lo hi v) raw (-40) (-40) 165); cbn [frt_cfg c_raw_min c_raw_max c_range_min c_range_max]; auto|lra|lra].
  + apply iv_flit; try lia; try (apply (rep_Z 0); lia); try (apply (rep_Z 4000000); lia); lra.
  + apply iv_flit; try lia; try (apply (rep_Z 0); lia); try (apply (rep_Z 4000000); lia); lra.
  + destruct (iv_flit 1 1000 0 (IZR 1 / IZR (2 ^ 9))) as (_ & _ & B1); try lia; try (apply (rep_Z 0); lia); try (apply rep_q; lia); change (IZR (2 ^ 9)) with 512%R in *; try lra.
    destruct (iv_flit 5 1000 (IZR 1 / IZR (2 ^ 8)) 1) as (_ & _ & B2); try lia; try (apply (rep_Z 1); lia); try (apply rep_q; lia); change (IZR (2 ^ 8)) with 256%R in *; try lra.
  + apply (iv_Z (-40)). lia.
  + eapply iv_weak; [eapply (iv_sub _ _ 125 125 (-40) (-40) 165 165); [apply (iv_Z 125); lia|apply (iv_Z (-40)); lia|apply (rep_Z 165); lia|apply (rep_Z 165); lia|lra|lra]|lra|lra].
  + apply (rep_Z (-40)). lia.
  + apply (rep_Z 165). lia.
  + replace (-40 + 165)%R with 125%R by lra. apply (rep_Z 125). lia.
Qed.
Lemma frt_box pulses logf : in_box pulses logf (frt_cfg (flit 1 1000) (flit 5 1000) (f_of_Z 20)) (-64) 128.
Proof.
  split; cbn [frt_cfg c_fault_min c_fault_max c_fault_value c_lag c_source].
  - split; apply num_flit; lia.
  - solve_iv.
  - apply zero_lag.
  - intros raw (V & F & B) Ac. apply limits_in in Ac; cbn [frt_cfg c_fault_max c_fault_min] in *; [|pose proof (flit_pos 5 1000 ltac:(lia) ltac:(lia)); lra]. now apply frt_linear.
Qed.
(** Without limits, if the sensor sends pulses within its range only. *)
Definition ms1_to_5 : R * R := (R_ (flit 1 1000), R_ (flit 5 1000)).
Lemma frt_in_range logf : in_box ms1_to_5 logf (frt_cfg f_zero f_zero f_zero) (-64) 128.
Proof.
  split; cbn [frt_cfg c_fault_min c_fault_max c_fault_value c_lag c_source].
  - split; apply (num_Z 0); lia.
  - solve_iv.
  - apply zero_lag.
  - intros raw (V & F & B) _. now apply frt_linear.
Qed.

Lemma iv_bits m e lo hi : SpecFloat.valid_binary fprec femax (SpecFloat.S754_finite false m e) = true -> (lo <= IZR (Zpos m) * bpow radix2 e <= hi)%R -> iv (SpecFloat.S754_finite false m e) lo hi.
Proof. intros V B. split; [exact V|]. split; [reflexivity|]. unfold R_, SF2R, F2R. cbn [cond_Zopp Fnum Fexp]. exact B. Qed.
Ltac coefficient := match goal with |- iv ?x _ _ => let y := eval vm_compute in x in replace x with y by (vm_compute; reflexivity) end; apply iv_bits; [vm_compute; reflexivity|]; unfold u30; change (IZR (2 ^ 30)) with 1073741824%R; simpl bpow; lra.

Definition iat_cfg : scfg := fst (nth 1 factory_limited (frt_cfg f_zero f_zero f_zero, sdat0)).
Definition clt_cfg : scfg := fst (nth 2 factory_limited (frt_cfg f_zero f_zero f_zero, sdat0)).
Lemma therm_limits c raw : c_fault_min c = flit 5 100 -> c_fault_max c = flit 495 100 -> accepted c raw -> (R_ (flit 5 100) <= R_ raw <= R_ (flit 495 100))%R.
Proof. intros E1 E2 Ac. apply limits_in in Ac; [now rewrite E1, E2 in Ac|]. rewrite E2. pose proof (flit_pos 495 100 ltac:(lia) ltac:(lia)). lra. Qed.
Lemma iat_box pulses logf : log_sane logf -> in_box pulses logf iat_cfg (-64) 512.
Proof.
  intros LG. split; cbn [iat_cfg nth factory_limited factory_with fst c_fault_min c_fault_max c_fault_value c_lag c_source].
  - split; apply num_flit; lia.
  - solve_iv.
  - apply zero_lag.
  - intros raw (V & F & _) Ac. apply (therm_limits iat_cfg raw eq_refl eq_refl) in Ac. change (converted logf iat_cfg raw) with (sensor_convert_thermistor logf iat_cfg raw).
    apply (therm_range logf iat_cfg raw 1569460 1569461 245753 245754 177 737259 3071925 2213 27663 345788 215 466); auto; try reflexivity; try lia; cbn [iat_cfg nth factory_limited factory_with fst c_a c_b c_c]; coefficient.
Qed.
Lemma clt_box pulses logf : log_sane logf -> in_box pulses logf clt_cfg (-131072) 131072.
Proof.
  intros LG. split; cbn [clt_cfg nth factory_limited factory_with fst c_fault_min c_fault_max c_fault_value c_lag c_source].
  - split; apply num_flit; lia.
  - solve_iv.
  - apply zero_lag.
  - intros raw (V & F & _) Ac. apply (therm_limits clt_cfg raw eq_refl eq_refl) in Ac. change (converted logf clt_cfg raw) with (sensor_convert_thermistor logf clt_cfg raw).
    eapply iv_weak; [apply (therm_range logf clt_cfg raw 1412902 1412903 275078 275079 199 825234 3438488 2488 31100 388750 204 480 (-1000) 10000); auto; try reflexivity; try lia; cbn [clt_cfg nth factory_limited factory_with fst c_a c_b c_c]; coefficient|lra|lra].
Qed.

Definition at_ (i : nat) : sensor := nth i factory_limited (frt_cfg f_zero f_zero f_zero, sdat0).
Lemma map_box pulses logf : in_box pulses logf (fst (at_ 0)) 0 512.
Proof.
  split; cbn [at_ nth factory_limited factory_with fst c_fault_min c_fault_max c_fault_value c_lag].
  - split; apply num_flit; lia.
  - solve_iv.
  - apply zero_lag.
  - apply (volts_box pulses logf _ 12 12 408); cbn [at_ nth factory_limited factory_with fst c_source c_method c_raw_min c_raw_max c_range_min c_range_max]; try reflexivity; try discriminate; try lia; [apply (iv_Z 12); lia|].
    eapply iv_weak; [eapply (iv_sub _ _ 420 420 12 12 408 408); [apply (iv_Z 420); lia|apply (iv_Z 12); lia|apply (rep_Z 408); lia|apply (rep_Z 408); lia|lra|lra]|lra|lra].
Qed.
Lemma brv_box pulses logf : in_box pulses logf (fst (at_ 3)) (-131072) 131072.
Proof.
  split; cbn [at_ nth factory_limited factory_with fst c_fault_min c_fault_max c_fault_value c_lag].
  - split; apply num_flit; lia.
  - eapply iv_weak; [apply (iv_flit 138 10 13 14); try lia; try (apply (rep_Z 13); lia); try (apply (rep_Z 14); lia); lra|lra|lra].
  - exists 80. split; [lia|reflexivity].
  - apply (volts_box pulses logf _ 0 0 25); cbn [at_ nth factory_limited factory_with fst c_source c_method c_raw_min c_raw_max c_range_min c_range_max]; try reflexivity; try discriminate; try lia; [apply (iv_Z 0); lia|].
    eapply (iv_sub _ _ 24 25 0 0); [apply iv_flit; try lia; try (apply (rep_Z 24); lia); try (apply (rep_Z 25); lia); lra|apply (iv_Z 0); lia|apply (rep_Z 0); lia|apply (rep_Z 25); lia|lra|lra].
Qed.
Lemma tps_box pulses logf : in_box pulses logf (fst (at_ 4)) (-131072) 131072.
Proof.
  assert (I1 : iv (flit (-1574) 100) (-16) (-15)) by (apply iv_flit; try lia; try (apply (rep_Z (-16)); lia); try (apply (rep_Z (-15)); lia); lra).
  split; cbn [at_ nth factory_limited factory_with fst c_fault_min c_fault_max c_fault_value c_lag].
  - split; apply num_flit; lia.
  - solve_iv.
  - exists 10. split; [lia|reflexivity].
  - apply (volts_box pulses logf _ (-16) (-15) 162); cbn [at_ nth factory_limited factory_with fst c_source c_method c_raw_min c_raw_max c_range_min c_range_max]; try reflexivity; try discriminate; try lia; [exact I1|].
    eapply (iv_sub _ _ 145 146 (-16) (-15)); [apply iv_flit; try lia; try (apply (rep_Z 145); lia); try (apply (rep_Z 146); lia); lra|exact I1|apply (rep_Z 0); lia|apply (rep_Z 162); lia|lra|lra].
Qed.

Lemma factory_each pulses logf frt i : log_sane logf -> c_pin frt = 3 -> c_method frt = LINEAR -> in_box pulses logf frt (-64) 128 -> (i < 10)%nat ->
  let at_ i := nth i (factory_with frt) (frt_cfg f_zero f_zero f_zero, sdat0) in 0 <= c_pin (fst (at_ i)) /\ sensor_ok pulses logf (Z.of_nat i) (fst (at_ i)) /\ idle_sensor (snd (at_ i)) /\
  forall lo hi, box (Z.of_nat i) = Some (lo, hi) -> iv (a_value (snd (at_ i))) (IZR lo) (IZR hi).
Proof.
  intros LG Ep Em Bf Hi at_.
  assert (Bx : forall a b lo hi : Z, Some (a, b) = Some (lo, hi) -> a = lo /\ b = hi) by (intros a b lo hi E; split; congruence).
  assert (Z0 : forall a b lo hi, Some (a, b) = Some (lo, hi) -> a <= 0 <= b -> iv f_zero (IZR lo) (IZR hi)).
  { intros a b lo hi E H. apply Bx in E. destruct E as [<- <-]. eapply iv_weak; [apply (iv_Z 0); lia| |]; apply IZR_le; lia. }
  assert (One : forall c j a b, windows_ok c -> box j = Some (a, b) -> in_box pulses logf c a b -> sensor_ok pulses logf j c).
  { intros c j a b Wk E H. split; [exact Wk|]. intros lo hi E'. rewrite E in E'. apply Bx in E'. now destruct E' as [<- <-]. }
  assert (C : (i = 0 \/ i = 1 \/ i = 2 \/ i = 3 \/ i = 4 \/ i = 5 \/ i = 6 \/ i = 7 \/ i = 8 \/ i = 9)%nat) by lia.
  destruct C as [->|[->|[->|[->|[->|[->|[->|[->|[->| ->]]]]]]]]]; (split; [cbn; rewrite ?Ep; lia|]); (split; [|split; [repeat split|]]).
  all: try (intros lo hi E; cbn in E; first [discriminate E|apply (Z0 _ _ _ _ E); lia]).
  - apply (One _ _ 0 512); [|reflexivity|apply map_box]. intros _. split; [split; cbn; unfold W; try reflexivity; lia|cbn; lia].
  - apply (One _ _ (-64) 512); [intros E; discriminate E|reflexivity|now apply iat_box].
  - apply (One _ _ (-131072) 131072); [intros E; discriminate E|reflexivity|now apply clt_box].
  - apply (One _ _ (-131072) 131072); [intros E; discriminate E|reflexivity|apply brv_box].
  - apply (One _ _ (-131072) 131072); [intros E; discriminate E|reflexivity|apply tps_box].
  - split; [intros E; discriminate E|]. intros lo hi E. cbn in E. discriminate E.
  - apply (One _ _ (-64) 128); [intros E; cbn in E; congruence|reflexivity|exact Bf].
  - split; [intros E; discriminate E|]. intros lo hi E. cbn in E. discriminate E.
  - split; [intros E; discriminate E|]. intros lo hi E. cbn in E. discriminate E.
  - split; [intros E; discriminate E|]. intros lo hi E. cbn in E. discriminate E.
Qed.
Lemma factory_with_start pulses logf frt : log_sane logf -> c_pin frt = 3 -> c_method frt = LINEAR -> in_box pulses logf frt (-64) 128 -> sensors_start pulses logf (factory_with frt).
Proof.
  intros LG Ep Em Bf. split; [reflexivity|]. intros i c s G.
  assert (Hi : 0 <= i < 10) by (apply Arr.get_range in G; exact G). apply Arr.get_ok in G. destruct G as [_ G].
  pose proof (factory_each pulses logf frt (Z.to_nat i) LG Ep Em Bf ltac:(lia)) as K. rewrite Z2Nat.id in K by lia. cbv beta zeta in K. rewrite (nth_error_nth _ _ _ G) in K. exact K.
Qed.
Lemma factory_start pulses logf : log_sane logf -> sensors_start pulses logf factory_limited.
Proof. intros LG. apply factory_with_start; auto. apply frt_box. Qed.
Lemma factory_start_in_range logf : log_sane logf -> sensors_start ms1_to_5 logf factory.
Proof. intros LG. apply factory_with_start; auto. apply frt_in_range. Qed.

(** ** The built-in decoder and outputs *)
Lemma factory_decoder_ok : dec_ok factory_decoder.
Proof.
  destruct (f_of_Z_exact 10) as [E F]; [cbn; lia|]. split; cbn [factory_decoder dc_dpt dc_num dc_max_change dc_window dc_min_rpm dc_offset dc_required]; try lia.
  - split; cbn; lia.
  - split; cbn [factory_decoder dc_dpt dc_num]; auto using vf_of_Z; rewrite E; lra.
  - apply iv_flit; try lia; try (apply (rep_Z 0); lia); try (apply (rep_Z 4); lia); lra.
  - rewrite E. lra.
  - split; [reflexivity|]. split; [reflexivity|]. rewrite R_f_zero, Rabs_R0. lra.
Qed.
Lemma factory_outputs_ok : length factory_outputs = 16%nat /\ Forall output_ok factory_outputs /\ Forall fresh factory_outputs.
Proof.
  split; [reflexivity|]. assert (A : forall t z p, 0 <= z <= 720 -> 0 <= p < 32 -> output_ok (factory_output t z p) /\ fresh (factory_output t z p)).
  { intros t z p Hz Hp. destruct (f_of_Z_exact z) as [E F]; [lia|]. split; [split; [|cbn [factory_output o_pin]; rewrite Z.mod_small; lia]|repeat split; cbn; unfold W; lia].
    cbn [factory_output o_angle]. split; [apply vf_of_Z|]. split; [exact F|]. rewrite E. apply Rabs_le. split; [|apply (IZR_le _ 720); lia]. apply Rle_trans with 0%R; [lra|apply (IZR_le 0); lia]. }
  assert (X : Forall (fun o => output_ok o /\ fresh o) factory_outputs).
  { unfold factory_outputs. cbn [app]. do 9 (apply Forall_cons; [apply A; lia|]). apply Forall_forall. intros o I. apply repeat_spec in I. subst o. apply A; lia. }
  split; (eapply Forall_impl; [|exact X]); intros o []; auto.
Qed.
