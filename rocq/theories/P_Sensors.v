(** Properties C35-C38, C62 and C63: sensors and knock. *)
Require Import ZArith Reals Lra Lia List Bool.
From Flocq Require Import Core.
From Verif Require Import Res Word F32 F32Flocq DecoderProofs Sensors SensorSpec KnockSpec FinBack SensorProofs KnockProofs.
From Verif Require AngleProofs.
Import ListNotations.
Open Scope Z_scope.
Ltac Zify.zify_post_hook ::= idtac.

(** ** C35 *)
(** All settings and readings are arbitrary floats; the results are the rounded ones.  Where a result is finite: *)
Theorem C35_monotone : forall c r1 r2, valid_cfg c -> vf r1 -> vf r2 -> flt (c_raw_min c) (c_raw_max c) = true -> fle r1 r2 = true ->
  fin (sensor_convert_linear c r1) -> fin (sensor_convert_linear c r2) ->
  (fle (c_range_min c) (c_range_max c) = true -> fle (sensor_convert_linear c r1) (sensor_convert_linear c r2) = true) /\
  (fle (c_range_max c) (c_range_min c) = true -> fle (sensor_convert_linear c r2) (sensor_convert_linear c r1) = true).
Proof. exact linear_mono. Qed.
Print Assumptions C35_monotone.

Theorem C35_minimum : forall c, valid_cfg c -> fin (c_raw_min c) -> fin (c_raw_max c) -> feq (c_raw_max c) (c_raw_min c) = false ->
  fin (c_range_min c) -> fin (fsub (c_range_max c) (c_range_min c)) ->
  fin (sensor_convert_linear c (c_raw_min c)) /\ feq (sensor_convert_linear c (c_raw_min c)) (c_range_min c) = true.
Proof. exact linear_at_min. Qed.
Print Assumptions C35_minimum.

(** The raw maximum maps to range minimum + (range maximum - range minimum), which is the range maximum if the
    minimum is 0 (and otherwise up to rounding, see C35_maximum_refuted). *)
Theorem C35_maximum : forall c, valid_cfg c -> feq (c_raw_max c) (c_raw_min c) = false -> fin (fsub (c_raw_max c) (c_raw_min c)) ->
  fin (sensor_convert_linear c (c_raw_max c)) ->
  feq (sensor_convert_linear c (c_raw_max c)) (fadd (c_range_min c) (fsub (c_range_max c) (c_range_min c))) = true /\
  (R_ (c_range_min c) = 0%R -> feq (sensor_convert_linear c (c_raw_max c)) (c_range_max c) = true).
Proof. exact linear_at_max. Qed.
Print Assumptions C35_maximum.

(** Readings between the raw bounds give values between the range minimum and the value at the raw maximum. *)
Theorem C35_bounded : forall c r, valid_cfg c -> vf r -> flt (c_raw_min c) (c_raw_max c) = true -> fin (c_raw_min c) -> fin (c_raw_max c) ->
  fle (c_raw_min c) r = true -> fle r (c_raw_max c) = true -> fle (c_range_min c) (c_range_max c) = true ->
  fin (c_range_min c) -> fin (fsub (c_range_max c) (c_range_min c)) -> fin (sensor_convert_linear c r) -> fin (sensor_convert_linear c (c_raw_max c)) ->
  fle (c_range_min c) (sensor_convert_linear c r) = true /\ fle (sensor_convert_linear c r) (sensor_convert_linear c (c_raw_max c)) = true.
Proof.
  intros c r V Vr L F3 F4 L1 L2 Lr F1 Fg Fr Fm.
  assert (N : feq (c_raw_max c) (c_raw_min c) = false).
  { destruct (feq (c_raw_max c) (c_raw_min c)) eqn:E; auto. destruct V. apply feq_iff in E; auto. apply flt_iff in L; auto. lra. }
  destruct (linear_at_min c V F3 F4 N F1 Fg) as [A B].
  destruct (linear_mono c (c_raw_min c) r V (vc3 c V) Vr L L1 A Fr) as [M1 _]. destruct (linear_mono c r (c_raw_max c) V Vr (vc4 c V) L L2 Fr Fm) as [M2 _].
  split; auto. pose proof (linear_vf c r V Vr). pose proof (linear_vf c _ V (vc3 c V)). pose proof (vc1 c V). specialize (M1 Lr). apply fle_iff in M1; auto. apply feq_iff in B; auto. apply fle_iff; auto. lra.
Qed.
Print Assumptions C35_bounded.

Theorem C35_degenerate : forall c r, feq (c_raw_max c) (c_raw_min c) = true -> sensor_convert_linear c r = f_zero.
Proof. intros c r E. unfold sensor_convert_linear. now rewrite E. Qed.
Print Assumptions C35_degenerate.

Definition linear_cfg (lo hi rlo rhi : f32) : scfg :=
  SCfg 0 SRC_ADC LINEAR lo hi rlo rhi f_zero f_zero f_zero f_zero f_zero f_zero f_zero f_zero 0 0 0.
(* A 0.4-4.6 V pressure sensor for 20-300 kPa. *)
Definition map_sensor : scfg := linear_cfg (f_of_Z 20) (f_of_Z 300) (flit 4 10) (flit 46 10).
Example C35_example : valid_cfg map_sensor /\ flt (c_raw_min map_sensor) (c_raw_max map_sensor) = true /\
  sensor_convert_linear map_sensor (flit 4 10) = f_of_Z 20 /\ sensor_convert_linear map_sensor (flit 46 10) = f_of_Z 300 /\
  f_trunc (sensor_convert_linear map_sensor (flit 25 10)) = Some 160 /\ fin (sensor_convert_linear map_sensor (flit 25 10)).
Proof. split; [constructor; reflexivity|]. repeat split; vm_compute; reflexivity. Qed.
Theorem C35_maximum_refuted : exists c, valid_cfg c /\ flt (c_raw_min c) (c_raw_max c) = true /\ fin (sensor_convert_linear c (c_raw_max c)) /\
  feq (sensor_convert_linear c (c_raw_max c)) (c_range_max c) = false.
Proof. exists (linear_cfg (f_of_Z (-40)) (flit 1 10) f_zero (f_of_Z 5)). split; [constructor; reflexivity|]. repeat split; vm_compute; reflexivity. Qed.
Print Assumptions C35_maximum_refuted.

(** ** C36 *)
(** The reading is usable: nothing is wrong with the connection, and it is within the fault bounds if there are any. *)
Definition usable (c : scfg) (s : sdat) (raw : f32) : Prop :=
  a_fault s = FAULT_NONE /\ (feq (c_fault_max c) f_zero = true \/ (flt raw (c_fault_min c) = false /\ flt (c_fault_max c) raw = false)).
Lemma usable_dec c s raw t : (usable c s raw /\ no_fault (detect_faults c (set_input s raw t)) = true) \/ (~ usable c s raw /\ no_fault (detect_faults c (set_input s raw t)) = false).
Proof.
  unfold usable, detect_faults. cbn [set_input a_fault a_raw]. destruct (a_fault s); cbn [no_fault negb]; [|right; split; [intros [? _]; discriminate|auto]..].
  destruct (feq (c_fault_max c) f_zero); cbn [negb]; [left; auto|]. unfold fgt. fold (flt raw (c_fault_min c)).
  destruct (flt raw (c_fault_min c)) eqn:A; destruct (flt (c_fault_max c) raw) eqn:B; cbn [orb no_fault]; [right|right|right|left]; split; auto; intros [_ [H|[H1 H2]]]; congruence.
Qed.

(** An unusable reading gives the configured value as it is: no filter, derivative 0. *)
Theorem C36_fault : forall v c s raw t, ~ usable c s raw -> exists s', sensor_convert v c s raw t = Ok s' /\
  a_value s' = c_fault_value c /\ a_deriv s' = f_zero /\ a_fault s' = a_fault s.
Proof.
  intros v c s raw t N. unfold sensor_convert. destruct (usable_dec c s raw t) as [[U _]|[_ D]]; [contradiction|]. rewrite D. cbn [negb].
  eexists. split; [reflexivity|]. auto.
Qed.
Print Assumptions C36_fault.

(** A usable one is converted by the configured method and filtered. *)
Theorem C36_usable : forall v c s raw t s', usable c s raw -> sensor_convert v c s raw t = Ok s' -> exists x,
  a_value s' = process_lag_filter (c_lag c) (a_value s) x /\ a_fault s' = FAULT_NONE /\
  (c_method c = LINEAR -> x = sensor_convert_linear c raw) /\ (c_method c = THERM -> x = sensor_convert_thermistor (v_logf v) c raw) /\
  (c_method c = LINEAR_WINDOWED -> v_rpm v = 0 -> x = sensor_convert_linear c raw).
Proof.
  intros v c s raw t s' U H. unfold sensor_convert in H. destruct (usable_dec c s raw t) as [[_ D]|[N _]]; [|contradiction]. rewrite D in H. cbn [negb] in H.
  destruct U as [U _]. apply bind_ok in H. destruct H as ([x s1] & E & H). apply bind_ok in H. destruct H as (d & _ & H). injection H as <-. exists x.
  assert (K : a_value s1 = a_value s /\ a_fault s1 = a_fault s).
  { destruct (c_method c); [injection E as _ <-; auto| |injection E as _ <-; auto].
    apply bind_ok in E. destruct E as (a & _ & E). unfold sensor_convert_linear_windowed in E. destruct (v_rpm v =? 0); [injection E as _ <-; auto|].
    apply bind_ok in E. destruct E as (b & _ & E). apply bind_ok in E. destruct E as (o & _ & E). apply bind_ok in E. destruct E as (b' & _ & E).
    destruct b'; injection E as _ <-; repeat match goal with |- context [if ?q then _ else _] => destruct q end; auto. }
  destruct K as [K1 K2]. cbn [set_output a_value a_fault]. rewrite K1, K2. split; auto. split; auto.
  split; [|split]; intros M; rewrite M in E.
  - injection E as <- _. reflexivity.
  - injection E as <- _. reflexivity.
  - intros Z. apply bind_ok in E. destruct E as (a & _ & E). unfold sensor_convert_linear_windowed in E. rewrite Z in E. injection E as <- _. reflexivity.
Qed.
Print Assumptions C36_usable.

(** Bit i of the fault status is set exactly for sensors whose input is flagged. *)
Lemma fault_bits_spec l : forall i j, 0 <= i -> Z.testbit (fault_bits l i) j = true <-> exists k c s, j = i + Z.of_nat k /\ nth_error l k = Some (c, s) /\ a_fault s <> FAULT_NONE.
Proof.
  induction l as [|[c s] l IH]; intros i j Hi; cbn [fault_bits].
  - rewrite Z.bits_0. split; [discriminate|]. intros (k & c & s & _ & H & _). destruct k; discriminate.
  - rewrite Z.lor_spec, orb_true_iff, IH by lia. split.
    + intros [H|(k & c' & s' & E & H)].
      * destruct (a_fault s) eqn:F; cbn [no_fault] in H; [rewrite Z.bits_0 in H; discriminate| |];
          (rewrite Z.shiftl_1_l in H; destruct (Z.eq_dec i j) as [->|Ne]; [|rewrite Z.pow2_bits_false in H by auto; discriminate]; exists 0%nat, c, s; rewrite F; simpl; split; [lia|split; [auto|discriminate]]).
      * exists (S k), c', s'. split; [lia|exact H].
    + intros (k & c' & s' & E & H & F). destruct k as [|k].
      * left. injection H as <- <-. replace j with i by lia. destruct (a_fault s); [congruence| |]; cbn [no_fault]; rewrite Z.shiftl_1_l, Z.pow2_bits_true; auto.
      * right. exists k, c', s'. split; [lia|auto].
Qed.
Theorem C36_status : forall l i, Z.testbit (sensor_fault_status l) (Z.of_nat i) = true <-> exists c s, nth_error l i = Some (c, s) /\ a_fault s <> FAULT_NONE.
Proof.
  intros l i. unfold sensor_fault_status. rewrite fault_bits_spec by lia. split.
  - intros (k & c & s & E & H). replace k with i in H by lia. eauto.
  - intros (c & s & H). exists i, c, s. split; [lia|auto].
Qed.
Print Assumptions C36_status.

Lemma each_nth f l : forall l', each f l = Ok l' -> length l' = length l /\ forall i x, nth_error l i = Some x -> exists y, f x = Ok y /\ nth_error l' i = Some y.
Proof.
  induction l as [|x l IH]; intros l' H; cbn [each] in H.
  - injection H as <-. split; auto. intros i y E. destruct i; discriminate.
  - apply bind_ok in H. destruct H as (y & E & H). apply bind_ok in H. destruct H as (r & E2 & H). injection H as <-. destruct (IH _ E2) as [L K]. split; [simpl; lia|].
    intros [|i] z Ez; [injection Ez as <-; eauto|]. apply K. exact Ez.
Qed.
Lemma convert_keeps_fault v c s raw t s' : sensor_convert v c s raw t = Ok s' -> a_fault s' = a_fault s.
Proof.
  intros H. destruct (usable_dec c s raw t) as [[U _]|[N _]].
  - destruct (C36_usable _ _ _ _ _ _ U H) as (x & _ & F & _). destruct U. congruence.
  - destruct (C36_fault v c s raw t N) as (s1 & E & _ & _ & F). congruence.
Qed.

(** After an ADC update: each ADC sensor on an existing pin is flagged exactly if the update was not valid (and then
    shows its fault value); the other sensors are untouched. *)
Theorem C36_adc : forall v u l l' i c s, sensor_update_adc v u l = Ok l' -> nth_error l i = Some (c, s) ->
  exists s', nth_error l' i = Some (c, s') /\
  ((c_source c = SRC_ADC /\ c_pin c < 16 /\ (a_fault s' <> FAULT_NONE <-> d_valid u = false) /\ (d_valid u = false -> a_value s' = c_fault_value c)) \/
   ((c_source c <> SRC_ADC \/ 16 <= c_pin c) /\ s' = s)).
Proof.
  intros v u l l' i c s H E. destruct (each_nth _ _ _ H) as [_ K]. destruct (K i _ E) as (y & Ey & En). unfold sensor_adc in Ey.
  destruct (c_source c) eqn:Sc; try (injection Ey as <-; exists s; split; auto; right; split; auto; left; discriminate).
  destruct (Z.leb_spec 16 (c_pin c)); [injection Ey as <-; exists s; split; auto; right; auto|].
  apply bind_ok in Ey. destruct Ey as (raw & _ & Ey). apply bind_ok in Ey. destruct Ey as (s1 & Ec & Ey). injection Ey as <-. exists s1. split; auto. left. split; auto. split; auto.
  pose proof (convert_keeps_fault _ _ _ _ _ _ Ec) as F. cbn [set_fault a_fault] in F. rewrite F. unfold conn_fault. split.
  - destruct (d_valid u); split; try congruence; discriminate.
  - intros Z. rewrite Z in Ec. cbn [conn_fault] in Ec. destruct (C36_fault v c (set_fault s FAULT_CONN) raw (d_time u)) as (s2 & E2 & V & _); [intros [D _]; discriminate D|]. congruence.
Qed.
Print Assumptions C36_adc.

(** Out-of-range readings never show up in the fault status: valid ADC updates leave the bit clear whatever was read. *)
Theorem C36_range_not_reported_refuted : exists v u l l', d_valid u = true /\ sensor_update_adc v u l = Ok l' /\
  (exists c s, nth_error l' 0 = Some (c, s) /\ flt (c_fault_max c) (a_raw s) = true /\ a_value s = c_fault_value c) /\ sensor_fault_status l' = 0.
Proof.
  exists (SEnv (fun x => x) 5000 0 (Ok f_zero)), (AdcUpdate 0 true (repeat (f_of_Z 5) 16)),
    [(SCfg 0 SRC_ADC LINEAR f_zero (f_of_Z 100) f_zero (f_of_Z 5) f_zero f_zero f_zero f_zero f_zero (flit 1 2) (flit 9 2) (f_of_Z 50) 0 0 0,
      SDat f_zero 0 false f_zero 0 f_zero f_zero f_zero FAULT_NONE)].
  eexists. split; [reflexivity|]. split; [vm_compute; reflexivity|]. split; [|reflexivity]. do 2 eexists. split; [reflexivity|]. split; reflexivity.
Qed.
Print Assumptions C36_range_not_reported_refuted.

(** ** C37 *)
Theorem C37_off : forall lag old new, feq lag f_zero = true -> process_lag_filter lag old new = new.
Proof. intros lag old new E. unfold process_lag_filter. now rewrite E. Qed.
Print Assumptions C37_off.
(** Between the old and the new value, up to a rounding error of a few units in the last place of the larger one. *)
Theorem C37_between : forall M lag old new, vf lag -> vf old -> vf new -> fin lag -> fin old -> fin new -> (0 <= R_ lag <= 100)%R ->
  (Rabs (R_ old) <= M)%R -> (Rabs (R_ new) <= M)%R -> (M <= IZR (2 ^ 100))%R ->
  let y := process_lag_filter lag old new in let d := (8 * bpow radix2 (-24) * M + 4 * bpow radix2 (-150))%R in
  fin y /\ (Rmin (R_ old) (R_ new) - d <= R_ y <= Rmax (R_ old) (R_ new) + d)%R.
Proof. exact lag_between. Qed.
Print Assumptions C37_between.
(** It is the weighted mean. *)
Theorem C37_mean : forall M lag old new, vf lag -> vf old -> vf new -> fin lag -> fin old -> fin new -> (0 <= R_ lag <= 100)%R ->
  (Rabs (R_ old) <= M)%R -> (Rabs (R_ new) <= M)%R -> (M <= IZR (2 ^ 100))%R ->
  (Rabs (R_ (process_lag_filter lag old new) - (R_ old * R_ lag + R_ new * (100 - R_ lag)) / 100) <= 8 * bpow radix2 (-24) * M + 4 * bpow radix2 (-150))%R.
Proof. intros. apply lag_err; auto. Qed.
Print Assumptions C37_mean.
(** With a coefficient up to 99 a constant reading is reached: the error shrinks by the coefficient at each reading,
    down to a relative 2^-12. *)
Theorem C37_settles : forall M lag old new, vf lag -> vf old -> vf new -> fin lag -> fin old -> fin new -> (0 <= R_ lag <= 99)%R ->
  (Rabs (R_ old) <= M)%R -> (Rabs (R_ new) <= M)%R -> (4 * M <= IZR (2 ^ 100))%R -> (bpow radix2 (-100) <= M)%R -> forall n,
  (Rabs (R_ (settle lag new n old) - R_ new) <= (R_ lag / 100) ^ n * Rabs (R_ old - R_ new) + bpow radix2 (-12) * M)%R.
Proof.
  intros M lag old new Vl Vo Vn Fl Fo Fn Hl Ho Hn HM Hm n. destruct (settle_err M lag old new Vl Vo Vn Fl Fo Fn Hl Ho Hn HM Hm n) as (_ & _ & _ & E).
  eapply Rle_trans; [exact E|]. apply Rplus_le_compat_l. right. rewrite u24_val. change (bpow radix2 (-12)) with (/ 4096)%R. lra.
Qed.
Print Assumptions C37_settles.
(* Example, and the exact version of "coefficient 100 keeps the old value" fails by one unit in the last place. *)
Example C37_example : process_lag_filter (f_of_Z 75) (f_of_Z 100) (f_of_Z 200) = f_of_Z 125 /\ f_trunc (settle (f_of_Z 75) (f_of_Z 200) 30 (f_of_Z 100)) = Some 199.
Proof. split; vm_compute; reflexivity. Qed.
Theorem C37_hundred_refuted : exists old, process_lag_filter (f_of_Z 100) old (f_of_Z 0) = fadd old (f_of_Z 1) /\ feq (fadd old (f_of_Z 1)) old = false.
Proof. exists (f_of_Z 10737419). split; vm_compute; reflexivity. Qed.
Print Assumptions C37_hundred_refuted.

(** ** C38 *)
(** Any sequence [h] of readings at any crank angles, with the engine turning; then one more, [x].  [g] are the
    readings of the window in progress after [h] ([collected]).  If [x] ends it - it is outside of all windows, or a
    window's width after the first - the value passed on is the mean of exactly [g]; otherwise the value is held. *)
Theorem C38_average : forall logf rate rpm c s0 h s x s', windowed c -> rpm <> 0 -> a_collecting s0 = false -> a_fault s0 = FAULT_NONE ->
  Forall (fun x => crank (s_angle x) /\ readable c x) (h ++ [x]) -> Z.of_nat (length h) + 1 < W ->
  readings logf rate rpm c s0 h = Ok s -> readings logf rate rpm c s [x] = Ok s' ->
  exists g r, collected c h g /\ a_value s' = process_lag_filter (c_lag c) (a_value s) r /\
    ((g <> [] /\ (~ inside c (s_angle x) \/ past c g (s_angle x)) /\ r = mean c g) \/
     ((g = [] \/ (inside c (s_angle x) /\ ~ past c g (s_angle x))) /\ r = a_value s)).
Proof.
  intros logf rate rpm c s0 h s x s' Wd Hr Hc Hf Fa Le E1 E2. apply Forall_app in Fa. destruct Fa as [Fa Fx]. destruct (Forall_inv Fx) as [Cx Rx].
  destruct (readings_spec logf rate rpm c s0 h Wd Hr Hc Hf Fa Le s E1) as (Hfs & g & Cg & Hg & Lg & _).
  cbn [readings] in E2. apply bind_ok in E2. destruct E2 as (s2 & E2 & H). injection H as <-.
  destruct (convert_step logf rate rpm c s g x s2 Wd Hr Cx Rx Hg Hfs ltac:(lia) E2) as (_ & r & V & K). exists g, r. split; auto. split; auto.
  destruct K as [(K1 & _ & K3)|[(K1 & K2 & _ & K4)|(K1 & K2 & K3 & _ & K5)]].
  - destruct g as [|y g]; [right; auto|left]. split; [discriminate|auto].
  - destruct g as [|y g]; [right; auto|left]. split; [discriminate|]. destruct K2 as [K2|K2]; [discriminate|auto].
  - right. auto.
Qed.
Print Assumptions C38_average.
(** The collected readings are consecutive, the latest ones, and all inside a window. *)
Theorem C38_only_window : forall c h g, collected c h g -> exists pre, h = pre ++ g /\ Forall (fun x => inside c (s_angle x)) g.
Proof.
  intros c h g H. induction H as [|h g x _ _ _|h g x _ _ I _|h g x _ (pre & -> & F) I _ _].
  - exists []. auto.
  - exists (h ++ [x]). rewrite app_nil_r. auto.
  - exists h. auto.
  - exists pre. rewrite app_assoc. split; auto. apply Forall_app. auto.
Qed.
Print Assumptions C38_only_window.
(** The test the code makes is membership in a window, and it ends. *)
Theorem C38_window : forall c a, windowed c -> crank a -> (forall b, current_angle_in_window c a = Ok b -> (b = true <-> inside c a)) /\
  ((Rabs (R_ a - IZR (c_offset c)) <= 1000000)%R -> c_offset c <= 16000000 -> exists b, current_angle_in_window c a = Ok b).
Proof. intros c a Wd C. split; [now apply in_window_spec|now apply in_window_total]. Qed.
Print Assumptions C38_window.
(** With a total width of 0 (the default) the test never ends outside the first window. *)
Theorem C38_zero_width_refuted : forall c a cur, c_total c = 0 -> clamp_angle (fsub a (f_of_Z (c_offset c))) (f_of_Z 720) = Ok cur ->
  flt cur (f_of_Z (w32 (c_capture c))) = false -> (forall n, window_loop n c cur 0 = Err Diverges) /\ current_angle_in_window c a = Err Diverges.
Proof.
  intros c a cur T E F. assert (K : forall n, window_loop n c cur 0 = Err Diverges).
  { induction n; cbn [window_loop]; change (0 <? 720) with true; cbv iota; rewrite Z.add_0_l, F, andb_false_r; auto. rewrite T. exact IHn. }
  split; auto. unfold current_angle_in_window. rewrite E. apply K.
Qed.
Print Assumptions C38_zero_width_refuted.

(* Example: windows of 45 degrees every 90 degrees; readings at 5, 20, 50, 95 degrees. *)
Definition win_cfg : scfg := SCfg 0 SRC_ADC LINEAR_WINDOWED f_zero (f_of_Z 100) f_zero (f_of_Z 5) f_zero f_zero f_zero f_zero f_zero f_zero f_zero f_zero 45 90 0.
Definition sdat0 : sdat := SDat f_zero 0 false f_zero 0 f_zero f_zero f_zero FAULT_NONE.
Definition at_angle (a v : Z) : sample := (f_of_Z a, f_of_Z v, 0).
Lemma crank_Z z : 0 <= z < 720 -> crank (f_of_Z z).
Proof. intros H. destruct (f_of_Z_exact z) as [E F]; [lia|]. split; [auto with vf|]. split; auto. rewrite E. split; [apply IZR_le|apply IZR_lt]; lia. Qed.
Example C38_example : windowed win_cfg /\ Forall (fun x => crank (s_angle x) /\ readable win_cfg x) [at_angle 5 1; at_angle 20 3; at_angle 50 5; at_angle 95 4] /\
  exists s, readings (fun x => x) 5000 1000 win_cfg sdat0 [at_angle 5 1; at_angle 20 3; at_angle 50 5; at_angle 95 4] = Ok s /\ a_value s = f_of_Z 40 /\ a_samples s = 1.
Proof.
  split; [constructor; unfold W; cbn; auto; lia|]. split.
  - repeat (apply Forall_cons; [split; [apply crank_Z; lia|left; reflexivity]|]). apply Forall_nil.
  - eexists. split; [vm_compute; reflexivity|]. split; reflexivity.
Qed.

(** ** C62 *)
(** However the samples arrive in updates, the knock level is that of the last complete block of 64 samples, computed
    from that block alone by the recurrence of KnockSpec.v in float arithmetic. *)
Fixpoint knock_updates (k : knock) (l : list (list f32)) : res knock :=
  match l with [] => Ok k | u :: r => k <- knock_samples k u 0 (length u) ;; knock_updates k r end.
Theorem C62_blocks : forall k us, q_n k = 0 -> q_sprev k = f_zero -> q_sprev2 k = f_zero ->
  exists k', knock_updates k us = Ok k' /\
  let samples := concat us in let m := (length samples / 64)%nat in
  q_value k' = if (m =? 0)%nat then q_value k else power f32 fadd fsub fmul f_zero (f_of_Z 2) (q_cr k) (firstn 64 (skipn (64 * (m - 1)) samples)).
Proof.
  intros k us N S1 S2.
  assert (E : forall us k, knock_updates k us = Ok (fold_left knock_add_sample (concat us) k)).
  { clear. induction us as [|u us IH]; intros k; [reflexivity|]. cbn [knock_updates concat]. rewrite knock_samples_ok by (cbn; lia). cbn [bind].
    change (Z.to_nat 0) with 0%nat. cbn [skipn]. rewrite firstn_all, IH, fold_left_app. reflexivity. }
  exists (fold_left knock_add_sample (concat us) k). split; [apply E|].
  assert (D : done k (q_value k) []) by (unfold done; cbn; rewrite N, S1, S2; auto).
  apply (done_all (concat us)) in D. cbn [app] in D. destruct D as (_ & _ & D). rewrite keeps_cr in D. exact D.
Qed.
Print Assumptions C62_blocks.
(** In exact arithmetic that recurrence is the power of the frequency [w] (radians per sample) in the block. *)
Theorem C62_power : forall w block, power R Rplus Rminus Rmult 0%R 2%R (cos w) block = spectral_power w block.
Proof. exact goertzel_power. Qed.
Print Assumptions C62_power.
(** Updates of up to 16 samples never read outside the sample array. *)
Theorem C62_update : forall pin n samples ks, length samples = 16%nat -> n <= 16 -> exists ks', sensor_update_knock pin n samples ks = Ok ks' /\
  (if pin =? 0 then snd ks' = snd ks else fst ks' = fst ks).
Proof.
  intros pin n samples [k0 k1] L Hn. unfold sensor_update_knock. assert (Z.to_nat n <= 16)%nat by lia.
  destruct (pin =? 0); rewrite knock_samples_ok by (cbn; lia); eexists; split; try reflexivity.
Qed.
Print Assumptions C62_update.
Definition knock0 (freq : Z) : knock := Knock (f_of_Z freq) 0 0 f_zero f_zero 0 f_zero f_zero f_zero.
Example C62_example : exists k k', knock_configure (fun _ => f_zero) 64000 (knock0 15500) = Ok k /\ q_n k = 0 /\ q_sprev k = f_zero /\
  knock_updates k (repeat [f_of_Z 1; f_of_Z 0; f_of_Z (-1); f_of_Z 0] 16) = Ok k' /\ q_value k' = f_of_Z 1024.
Proof. do 2 eexists. split; [vm_compute; reflexivity|]. split; [reflexivity|]. split; [reflexivity|]. split; vm_compute; reflexivity. Qed.

(** ** C63 *)
(** The filter is tuned to a bucket (multiple of rate/64) above the configured frequency: a frequency that is exactly
    the k-th bucket gets bucket k+1, whatever the rate. *)
Theorem C63_tuning_refuted : forall cosf rate k f kn, 1 <= rate <= 131072 -> 0 <= k <= 63 -> vf f -> fin f -> R_ f = (IZR (k * rate) / 64)%R -> q_frequency kn = f ->
  exists kn', knock_configure cosf rate kn = Ok kn' /\ q_freq kn' = k + 1.
Proof.
  intros cosf rate k f kn Hr Hk V F E Ef. unfold knock_configure. rewrite Ef.
  assert (Ex : forall z, 0 <= z <= 2 ^ 23 -> rnd (IZR z / 64)%R = (IZR z / 64)%R).
  { intros z Hz. apply (round_generic radix2 _ ZnearestE). replace (IZR z / 64)%R with (F2R (Float radix2 z (-6))) by (unfold F2R; simpl; lra).
    destruct (Z.eq_dec z 0) as [->|]; [rewrite F2R_0; apply generic_format_0|].
    apply generic_format_F2R. intros _. change fexp32 with (FLT_exp (-149) 24). unfold cexp, FLT_exp. rewrite mag_F2R by auto.
    assert (mag radix2 (IZR z) <= 24); [|lia]. apply mag_le_bpow; [now apply IZR_neq|]. rewrite <- abs_IZR. change (bpow radix2 24) with (IZR (2 ^ 24)). apply IZR_lt. lia. }
  destruct (f_of_Z_exact rate ltac:(lia)) as [E1 F1]. destruct (f_of_Z_exact 64 ltac:(lia)) as [E2 F2].
  assert (P1 : (0 < IZR rate)%R) by (apply IZR_lt; lia).
  destruct (fdiv_correct (f_of_Z rate) (f_of_Z 64)) as [E3 F3]; auto with vf.
  { rewrite E2. lra. }
  { rewrite E1, E2, Ex by lia. apply Rle_lt_trans with (IZR rate); [rewrite Rabs_pos_eq; lra|]. unfold fmaxR, femax. change (bpow radix2 128) with (IZR (2 ^ 128)). apply IZR_lt. lia. }
  rewrite E1, E2, Ex in E3 by lia.
  assert (B1 : forall z, 0 <= z <= 2 ^ 23 -> (Rabs (rnd (IZR z / 64)) < fmaxR)%R).
  { intros z Hz. rewrite Ex by auto. assert (0 <= IZR z)%R by (apply IZR_le; lia). apply Rle_lt_trans with (IZR z); [rewrite Rabs_pos_eq; lra|]. unfold fmaxR, femax. change (bpow radix2 128) with (IZR (2 ^ 128)). apply IZR_lt. lia. }
  assert (Sm : (R_ f + IZR rate / 64 = IZR ((k + 1) * rate) / 64)%R) by (rewrite E, !mult_IZR, plus_IZR; field).
  destruct (fadd_correct f (fdiv (f_of_Z rate) (f_of_Z 64))) as [E4 F4]; auto with vf.
  { rewrite E3, Sm. apply B1. nia. }
  rewrite E3, Sm, Ex in E4 by nia.
  assert (Q : (IZR ((k + 1) * rate) / 64 / (IZR rate / 64) = IZR (k + 1))%R) by (rewrite mult_IZR; field; lra).
  destruct (fdiv_correct (fadd f (fdiv (f_of_Z rate) (f_of_Z 64))) (fdiv (f_of_Z rate) (f_of_Z 64))) as [E5 F5]; auto with vf.
  { rewrite E3. lra. }
  { rewrite E3, E4, Q. replace (IZR (k + 1)) with (IZR ((k + 1) * 64) / 64)%R by (rewrite mult_IZR; field). apply B1. lia. }
  rewrite E3, E4, Q in E5. replace (rnd (IZR (k + 1))) with (IZR (k + 1)) in E5.
  2:{ symmetry. replace (IZR (k + 1)) with (IZR ((k + 1) * 64) / 64)%R by (rewrite mult_IZR; field). apply Ex. lia. }
  unfold f_to_u32. rewrite f_to_range_fin by auto. rewrite E5, Ztrunc_IZR. destruct (Z.leb_spec 0 (k + 1)); [|lia]. destruct (Z.leb_spec (k + 1) (W - 1)); [|unfold W in *; lia].
  cbn [andb bind]. eexists. split; [reflexivity|]. reflexivity.
Qed.
Print Assumptions C63_tuning_refuted.

(** What is true instead: for every frequency up to 1 MHz the filter can be configured, and the frequency it is
    tuned to is above the configured one by at most one bucket, up to a millionth. *)
Theorem C63_tuning cosf rate f kn : 1 <= rate <= 131072 -> vf f -> fin f -> (0 <= R_ f <= 1000000)%R -> q_frequency kn = f ->
  exists kn', knock_configure cosf rate kn = Ok kn' /\
    let tuned := (IZR (q_freq kn') * IZR rate / 64)%R in let eps := ((R_ f + IZR rate) / 1000000)%R in
    (R_ f - eps <= tuned <= R_ f + IZR rate / 64 + eps)%R.
Proof.
  intros Hr V F Hf Ef. unfold knock_configure. rewrite Ef.
  assert (U : (AngleProofs.ur <= / 16000000)%R) by (unfold AngleProofs.ur; lra). assert (U0 : (0 < AngleProofs.ur)%R) by (unfold AngleProofs.ur; lra).
  destruct (f_of_Z_exact rate ltac:(lia)) as [E1 F1]. destruct (f_of_Z_exact 64 ltac:(lia)) as [E2 F2].
  assert (P1 : (1 <= IZR rate <= 131072)%R) by (split; apply IZR_le; lia).
  assert (Ex : rnd (IZR rate / 64)%R = (IZR rate / 64)%R).
  { apply (round_generic radix2 _ ZnearestE). replace (IZR rate / 64)%R with (F2R (Float radix2 rate (-6))) by (unfold F2R; simpl; lra).
    apply generic_format_F2R. intros _. change fexp32 with (FLT_exp (-149) 24). unfold cexp, FLT_exp. rewrite mag_F2R by lia.
    assert (mag radix2 (IZR rate) <= 24); [|lia]. apply mag_le_bpow; [apply IZR_neq; lia|]. rewrite <- abs_IZR. change (bpow radix2 24) with (IZR (2 ^ 24)). apply IZR_lt. lia. }
  assert (Bd : forall x, (0 <= x <= 1000000000)%R -> (Rabs (rnd x) < fmaxR)%R).
  { intros x Hx. apply rnd_abs_lt_max with 30; [lia|]. rewrite Rabs_pos_eq by lra. change (bpow radix2 30) with (IZR (2 ^ 30)). apply Rle_trans with 1000000000%R; [lra|]. apply IZR_le. lia. }
  destruct (fdiv_correct (f_of_Z rate) (f_of_Z 64)) as [E3 F3]; auto with vf.
  { rewrite E2. lra. }
  { rewrite E1, E2. apply Bd. lra. }
  rewrite E1, E2, Ex in E3.
  set (bs := (IZR rate / 64)%R) in *. assert (Hbs : (/ 64 <= bs <= 2048)%R) by (unfold bs; lra).
  destruct (fadd_correct f (fdiv (f_of_Z rate) (f_of_Z 64))) as [E4 F4]; auto with vf.
  { rewrite E3. apply Bd. lra. }
  rewrite E3 in E4. pose proof (AngleProofs.rnd_pos_bounds (R_ f + bs) ltac:(lra)) as B4. rewrite <- E4 in B4.
  assert (Vs : vf (fadd f (fdiv (f_of_Z rate) (f_of_Z 64)))) by auto with vf. set (sum := fadd f (fdiv (f_of_Z rate) (f_of_Z 64))) in *. clearbody sum.
  assert (S1 : (bs / 2 <= R_ sum <= 1100000)%R) by nra.
  assert (Q1 : (/ 2 <= R_ sum / bs <= 1100000 * 64)%R).
  { split; apply Rmult_le_reg_r with bs; try lra; unfold Rdiv; rewrite ?Rmult_assoc, ?Rinv_l, ?Rmult_1_r by lra; nra. }
  destruct (fdiv_correct sum (fdiv (f_of_Z rate) (f_of_Z 64))) as [E5 F5]; auto with vf.
  { rewrite E3. lra. }
  { rewrite E3. apply Bd. lra. }
  rewrite E3 in E5. pose proof (AngleProofs.rnd_pos_bounds (R_ sum / bs) ltac:(lra)) as B5. rewrite <- E5 in B5.
  set (q := fdiv sum (fdiv (f_of_Z rate) (f_of_Z 64))) in *.
  assert (Q2 : (0 <= R_ q <= 100000000)%R) by nra.
  unfold f_to_u32. rewrite f_to_range_fin by auto. rewrite Ztrunc_floor by lra.
  pose proof (Zfloor_lb (R_ q)) as L1. pose proof (Zfloor_ub (R_ q)) as L2. set (n := Zfloor (R_ q)) in *.
  assert (N : 0 <= n <= 100000000).
  { split; [apply Zfloor_lub; simpl; lra|]. apply le_IZR. lra. }
  destruct (Z.leb_spec 0 n); [|lia]. destruct (Z.leb_spec n (W - 1)); [|unfold W in *; lia].
  cbn [andb bind]. eexists. split; [reflexivity|]. cbn [q_freq]. cbv zeta.
  replace (IZR n * IZR rate / 64)%R with (IZR n * bs)%R by (unfold bs; field).
  assert (Hq : ((R_ f + bs) * (1 - AngleProofs.ur) * (1 - AngleProofs.ur) <= R_ q * bs <= (R_ f + bs) * (1 + AngleProofs.ur) * (1 + AngleProofs.ur))%R).
  { assert (R_ sum / bs * bs = R_ sum)%R by (field; lra). split; nra. }
  assert (Eb : (IZR rate = 64 * bs)%R) by (unfold bs; field). rewrite Eb.
  split; nra.
Qed.
Print Assumptions C63_tuning.
