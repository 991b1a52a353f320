(** Properties C65-C67: which input a sensor takes, its derivative, and thermistors. *)
Require Import ZArith Reals Lra Lia List Bool.
From Flocq Require Import Core.
From Verif Require Import Res Word F32 F32Flocq DecoderProofs Sensors SensorSpec FinBack SensorProofs RelErr Arr ThermProofs P_Sensors.
Import ListNotations.
Open Scope Z_scope.
Ltac Zify.zify_post_hook ::= idtac.

(** ** C65 *)
Lemma windowed_keeps c rpm s a x s1 : sensor_convert_linear_windowed c rpm s a = Ok (x, s1) -> a_raw s1 = a_raw s /\ a_time s1 = a_time s /\ a_value s1 = a_value s.
Proof.
  intros E. unfold sensor_convert_linear_windowed in E. destruct (rpm =? 0); [injection E as _ <-; auto|].
  apply bind_ok in E. destruct E as (b & _ & E). apply bind_ok in E. destruct E as (o & _ & E). apply bind_ok in E. destruct E as (b' & _ & E).
  destruct b'; injection E as _ <-; repeat match goal with |- context [if ?q then _ else _] => destruct q end; auto.
Qed.
Lemma convert_input v c s raw t s' : sensor_convert v c s raw t = Ok s' -> a_raw s' = raw /\ a_time s' = t.
Proof.
  intros H. unfold sensor_convert in H. destruct (negb (no_fault (detect_faults c (set_input s raw t)))); [injection H as <-; auto|].
  apply bind_ok in H. destruct H as ([x s1] & E & H). apply bind_ok in H. destruct H as (d & _ & H). injection H as <-. cbn [set_output a_raw a_time].
  destruct (c_method c); [injection E as _ <-; auto| |injection E as _ <-; auto].
  apply bind_ok in E. destruct E as (a & _ & E). apply windowed_keeps in E. destruct E as (-> & -> & _). auto.
Qed.
(** An ADC sensor takes the reading of its own pin, with the time of the update; a linear one with no fault shows that
    reading converted (and filtered). *)
Theorem C65_adc : forall v u l l' i c s, sensor_update_adc v u l = Ok l' -> nth_error l i = Some (c, s) -> c_source c = SRC_ADC -> c_pin c < 16 ->
  exists s' raw, nth_error l' i = Some (c, s') /\ 0 <= c_pin c /\ nth_error (d_values u) (Z.to_nat (c_pin c)) = Some raw /\ a_raw s' = raw /\ a_time s' = d_time u /\
  (d_valid u = true -> feq (c_fault_max c) f_zero = true \/ (flt raw (c_fault_min c) = false /\ flt (c_fault_max c) raw = false) ->
     c_method c = LINEAR -> a_value s' = process_lag_filter (c_lag c) (a_value s) (sensor_convert_linear c raw)).
Proof.
  intros v u l l' i c s H E Sc Hp. destruct (each_nth _ _ _ H) as [_ K]. destruct (K i _ E) as (y & Ey & En). unfold sensor_adc in Ey. rewrite Sc in Ey.
  destruct (Z.leb_spec 16 (c_pin c)); [lia|]. apply bind_ok in Ey. destruct Ey as (raw & Er & Ey). apply bind_ok in Ey. destruct Ey as (s1 & Ec & Ey). injection Ey as <-.
  destruct (proj1 (get_ok _ _ _) Er) as [P N]. exists s1, raw. split; auto. split; auto. split; auto. destruct (convert_input _ _ _ _ _ _ Ec) as [A B]. split; auto. split; auto.
  intros V U M. rewrite V in Ec. assert (Us : usable c (set_fault s (conn_fault true)) raw) by (split; auto).
  destruct (C36_usable _ _ _ _ _ _ Us Ec) as (x & X & _ & L & _). rewrite (L M) in X. exact X.
Qed.
Print Assumptions C65_adc.

(** The readings of the other pins make no difference to it. *)
Theorem C65_adc_isolated : forall v u1 u2 l l1 l2 i c s, sensor_update_adc v u1 l = Ok l1 -> sensor_update_adc v u2 l = Ok l2 -> nth_error l i = Some (c, s) ->
  d_time u1 = d_time u2 -> d_valid u1 = d_valid u2 -> nth_error (d_values u1) (Z.to_nat (c_pin c)) = nth_error (d_values u2) (Z.to_nat (c_pin c)) ->
  nth_error l1 i = nth_error l2 i.
Proof.
  intros v u1 u2 l l1 l2 i c s H1 H2 E Et Ev En. destruct (each_nth _ _ _ H1) as [_ K1]. destruct (each_nth _ _ _ H2) as [_ K2].
  destruct (K1 i _ E) as (y1 & E1 & N1). destruct (K2 i _ E) as (y2 & E2 & N2). rewrite N1, N2. f_equal. unfold sensor_adc in E1, E2.
  destruct (c_source c); try congruence. destruct (16 <=? c_pin c); [congruence|].
  apply bind_ok in E1. destruct E1 as (r1 & G1 & E1). apply bind_ok in E2. destruct E2 as (r2 & G2 & E2).
  destruct (proj1 (get_ok _ _ _) G1) as [_ M1]. destruct (proj1 (get_ok _ _ _) G2) as [_ M2]. assert (r1 = r2) by congruence. subst r2. rewrite Et, Ev in E1. congruence.
Qed.
Print Assumptions C65_adc_isolated.

(** A frequency or pulse width sensor on the pin of the update takes its frequency or pulse width; all other sensors keep
    everything. *)
Theorem C65_freq : forall v u l l' i c s, sensor_update_freq v u l = Ok l' -> nth_error l i = Some (c, s) ->
  exists s', nth_error l' i = Some (c, s') /\
  ((c_source c = SRC_FREQ /\ c_pin c = f_pin u /\ a_raw s' = f_frequency u /\ a_time s' = f_time u /\ (a_fault s' <> FAULT_NONE <-> f_valid u = false) /\ (f_valid u = false -> a_value s' = c_fault_value c)) \/
   (c_source c = SRC_PULSEWIDTH /\ c_pin c = f_pin u /\ a_raw s' = f_pulsewidth u /\ a_time s' = f_time u /\ (a_fault s' <> FAULT_NONE <-> f_valid u = false) /\ (f_valid u = false -> a_value s' = c_fault_value c)) \/
   ((c_pin c <> f_pin u \/ (c_source c <> SRC_FREQ /\ c_source c <> SRC_PULSEWIDTH)) /\ s' = s)).
Proof.
  intros v u l l' i c s H E. destruct (each_nth _ _ _ H) as [_ K]. destruct (K i _ E) as (y & Ey & En). unfold sensor_freq in Ey.
  destruct (Z.eqb_spec (c_pin c) (f_pin u)) as [Ep|Ep]; cbn [negb] in Ey; [|injection Ey as <-; exists s; split; auto].
  assert (G : forall raw s1, sensor_convert v c (set_fault s (conn_fault (f_valid u))) raw (f_time u) = Ok s1 ->
    a_raw s1 = raw /\ a_time s1 = f_time u /\ (a_fault s1 <> FAULT_NONE <-> f_valid u = false) /\ (f_valid u = false -> a_value s1 = c_fault_value c)).
  { intros raw s1 Ec. destruct (convert_input _ _ _ _ _ _ Ec) as [A B]. split; auto. split; auto.
    pose proof (convert_keeps_fault _ _ _ _ _ _ Ec) as F. cbn [set_fault a_fault] in F. rewrite F. unfold conn_fault. split.
    - destruct (f_valid u); split; try congruence; discriminate.
    - intros Z. rewrite Z in Ec. cbn [conn_fault] in Ec. destruct (C36_fault v c (set_fault s FAULT_CONN) raw (f_time u)) as (s2 & E2 & V & _); [intros [D _]; discriminate D|]. congruence. }
  destruct (c_source c) eqn:Sc; try (injection Ey as <-; exists s; split; auto; right; right; split; auto; right; split; discriminate);
    (apply bind_ok in Ey; destruct Ey as (s1 & Ec & Ey); injection Ey as <-; exists s1; split; auto).
  right. left. split; auto.
Qed.
Print Assumptions C65_freq.
(* Example: sensors on pins 2 and 3 and a frequency sensor on pin 0. *)
Definition on_pin (p : Z) (src : ssource) : scfg := SCfg p src LINEAR f_zero (f_of_Z 100) f_zero (f_of_Z 5) f_zero f_zero f_zero f_zero f_zero f_zero f_zero f_zero 0 0 0.
Definition three_sensors : list sensor := [(on_pin 2 SRC_ADC, sdat0); (on_pin 3 SRC_ADC, sdat0); (on_pin 0 SRC_FREQ, sdat0)].
Definition env0 : senv := SEnv (fun x => x) 5000 0 (Ok f_zero).
Example C65_example : exists l' l'', sensor_update_adc env0 (AdcUpdate 7 true (map f_of_Z [0; 1; 2; 3; 4; 5; 6; 7; 8; 9; 10; 11; 12; 13; 14; 15])) three_sensors = Ok l' /\
  map (fun x => f_trunc (a_value (snd x))) l' = [Some 40; Some 60; Some 0] /\
  sensor_update_freq env0 (FreqUpdate 9 true 0 (f_of_Z 4) (f_of_Z 1)) l' = Ok l'' /\ map (fun x => f_trunc (a_value (snd x))) l'' = [Some 40; Some 60; Some 80].
Proof. do 2 eexists. split; [vm_compute; reflexivity|]. split; [vm_compute; reflexivity|]. split; vm_compute; reflexivity. Qed.

(** ** C66 *)
(** The derivative is the change of the value per second at the sampling rate: with a rate that divides a million, the change
    times the rate, up to rounding. *)
Theorem C66_derivative : forall v c s raw t s', usable c s raw -> sensor_convert v c s raw t = Ok s' -> 1 <= v_rate v <= 1000000 ->
  vf (a_value s) -> vf (a_value s') -> fin (a_value s) -> fin (a_value s') -> (Rabs (R_ (a_value s)) <= bpow radix2 90)%R -> (Rabs (R_ (a_value s')) <= bpow radix2 90)%R ->
  fin (a_deriv s') /\
  let period := (IZR (1000000 / v_rate v) / 1000000)%R in let x := ((R_ (a_value s') - R_ (a_value s)) / period)%R in
  (Rabs (R_ (a_deriv s') - x) <= 4 * bpow radix2 (-24) * Rabs x + bpow radix2 (-120))%R.
Proof.
  intros v c s raw t s' U H Hr V1 V2 F1 F2 B1 B2. unfold sensor_convert in H. destruct (usable_dec c s raw t) as [[_ D]|[N _]]; [|contradiction]. rewrite D in H. cbn [negb] in H.
  apply bind_ok in H. destruct H as ([x s1] & E & H). apply bind_ok in H. destruct H as (d & Ed & H). injection H as <-.
  assert (K : a_value s1 = a_value s).
  { destruct (c_method c); [injection E as _ <-; auto| |injection E as _ <-; auto].
    apply bind_ok in E. destruct E as (a & _ & E). apply windowed_keeps in E. now destruct E as (_ & _ & ->). }
  cbn [set_output a_value a_deriv] in *. rewrite K in *.
  destruct (derivative_err (v_rate v) (a_value s) (process_lag_filter (c_lag c) (a_value s) x) V1 V2 F1 F2 Hr B1 B2) as (d' & Ed' & Fd & _ & X).
  rewrite Ed in Ed'. injection Ed' as <-. split; auto. cbv zeta in *.
  assert (P : (1 <= IZR (1000000 / v_rate v))%R) by (apply IZR_le; apply rate_period; auto).
  match goal with |- context [(?y / (IZR ?p / 1000000))%R] => replace (y / (IZR p / 1000000))%R with (y * (1000000 / IZR p))%R by (field; lra) end. exact X.
Qed.
Print Assumptions C66_derivative.
(** A frequency sensor's updates do not come at that rate: its derivative is not the change per second between its updates. *)
Theorem C66_freq_refuted : exists v u c s s', sensor_update_freq v u [(c, s)] = Ok [(c, s')] /\ w32 (f_time u - a_time s) = TICKRATE /\
  a_value s = f_zero /\ a_value s' = f_of_Z 20 /\ a_deriv s' = f_of_Z 100000.
Proof.
  exists env0, (FreqUpdate 4000000 true 0 (f_of_Z 1) f_zero), (on_pin 0 SRC_FREQ), sdat0. eexists. split; [vm_compute; reflexivity|]. repeat split; vm_compute; reflexivity.
Qed.
Print Assumptions C66_freq_refuted.
Example C66_example : exists s', sensor_convert env0 (on_pin 0 SRC_ADC) sdat0 (f_of_Z 1) 0 = Ok s' /\ usable (on_pin 0 SRC_ADC) sdat0 (f_of_Z 1) /\ a_value s' = f_of_Z 20 /\ a_deriv s' = f_of_Z 100000.
Proof. eexists. split; [vm_compute; reflexivity|]. split; [split; [reflexivity|left; reflexivity]|]. split; reflexivity. Qed.

(** ** C67 *)
(** The C library's logf on positive numbers: finite and increasing. *)
Definition log_ok (logf : f32 -> f32) : Prop := forall x y, vf x -> vf y -> fin x -> fin y -> (0 < R_ x)%R -> (R_ x <= R_ y)%R ->
  vf (logf x) /\ fin (logf x) /\ vf (logf y) /\ fin (logf y) /\ (R_ (logf x) <= R_ (logf y))%R.
(** The computation for a reading overflows nowhere and the resistance and the temperature are positive. *)
Definition therm_regular (logf : f32 -> f32) (c : scfg) (raw : f32) : Prop :=
  let q := fsub (fdiv (c_raw_max c) raw) (f_of_Z 1) in let r := resistance c raw in let i := inverse_temp c (logf r) in
  fin q /\ (0 < R_ q)%R /\ fin r /\ (0 < R_ r)%R /\ fin i /\ (0 < R_ i)%R /\ fin (sensor_convert_thermistor logf c raw).

(** A higher reading is never a higher temperature: whatever the (non-negative) coefficients. *)
Theorem C67_monotone : forall logf c r1 r2, log_ok logf -> vf (c_bias c) -> vf (c_raw_max c) -> vf (c_a c) -> vf (c_b c) -> vf (c_c c) -> vf r1 -> vf r2 ->
  (0 <= R_ (c_bias c))%R -> (0 <= R_ (c_raw_max c))%R -> (0 <= R_ (c_b c))%R -> (0 <= R_ (c_c c))%R ->
  fin r1 -> fin r2 -> (0 < R_ r1)%R -> fle r1 r2 = true -> therm_regular logf c r1 -> therm_regular logf c r2 ->
  fle (sensor_convert_thermistor logf c r2) (sensor_convert_thermistor logf c r1) = true.
Proof.
  intros logf c r1 r2 LG Vb Vm Va Vbb Vc V1 V2 Pb Pm Pbb Pc F1 F2 P1 L (G1 & G2 & G3 & G4 & G5 & G6 & G7) (K1 & K2 & K3 & K4 & K5 & K6 & K7).
  apply fle_iff in L; auto.
  assert (Z1 : feq r1 f_zero = false). { destruct (feq r1 f_zero) eqn:E; auto. apply feq_iff in E; auto with vf; rewrite R_f_zero in E; lra. }
  assert (Z2 : feq r2 f_zero = false). { destruct (feq r2 f_zero) eqn:E; auto. apply feq_iff in E; auto with vf; rewrite R_f_zero in E; lra. }
  pose proof (resistance_mono c r1 r2 Vb Vm V1 V2 F1 F2 ltac:(lra) Pm Pb G1 K1 K2 G3 K3) as M.
  assert (Vr1 : vf (resistance c r1)) by (unfold resistance; auto with vf). assert (Vr2 : vf (resistance c r2)) by (unfold resistance; auto with vf).
  destruct (LG _ _ Vr1 Vr2 G3 K3 G4 M) as (L1 & L2 & L3 & L4 & L5).
  pose proof (inverse_mono c _ _ Va Vbb Vc L1 L3 Pbb Pc G5 K5 L5) as I.
  assert (Vi1 : vf (inverse_temp c (logf (resistance c r1)))) by (unfold inverse_temp; auto 10 with vf). assert (Vi2 : vf (inverse_temp c (logf (resistance c r2)))) by (unfold inverse_temp; auto 10 with vf).
  rewrite therm_eq in G7, K7 |- * by auto. rewrite (therm_eq logf c r1) by auto. destruct kelvin_R as (_ & _ & Vk). apply fle_iff; auto with vf.
  apply temp_antitone; auto; lra.
Qed.
Print Assumptions C67_monotone.

(** The resistance handed to logf is that of the lower half of a divider with the configured bias resistor, and the
    temperature is Steinhart and Hart's formula in degrees Celsius. *)
Theorem C67_resistance : forall c raw, vf (c_bias c) -> vf (c_raw_max c) -> vf raw -> fin (c_bias c) -> fin (c_raw_max c) -> fin raw ->
  (1 / 1000 <= R_ (c_raw_max c) <= 100000)%R -> (1 / 1000 <= R_ (c_bias c) <= 10000000)%R -> (R_ (c_raw_max c) / 100000 <= R_ raw <= R_ (c_raw_max c) * (63 / 64))%R ->
  exists r, (forall logf, sensor_convert_thermistor logf c raw = sensor_convert_thermistor (fun _ => logf r) c raw) /\ vf r /\ fin r /\
  let x := (R_ (c_bias c) * R_ raw / (R_ (c_raw_max c) - R_ raw))%R in (0 < x)%R /\ (Rabs (R_ r - x) <= x / 60000)%R.
Proof.
  intros c raw Vb Vm Vr Fb Fm Fr Bm Bb Br. exists (resistance c raw). split.
  { intros logf. unfold sensor_convert_thermistor. reflexivity. }
  destruct (resistance_rel c raw Vb Vm Vr Fb Fm Fr Bm Bb Br) as (V & F & (A & _ & C & D)). split; auto. split; auto. cbv zeta. split; auto.
  rewrite ur_val in *. apply Rabs_le. lra.
Qed.
Print Assumptions C67_resistance.
Theorem C67_temperature : forall logf c raw l, vf (c_a c) -> vf (c_b c) -> vf (c_c c) -> fin (c_a c) -> fin (c_b c) -> fin (c_c c) -> vf raw -> fin raw -> R_ raw <> 0%R ->
  vf l -> fin l -> logf (resistance c raw) = l ->
  (/ 1000000000 <= R_ (c_a c) <= 1)%R -> (/ 1000000000 <= R_ (c_b c) <= 1)%R -> (/ 1000000000 <= R_ (c_c c) <= 1)%R -> (/ 1000 <= R_ l <= 100)%R ->
  let inv := (R_ (c_a c) + R_ (c_b c) * R_ l + R_ (c_c c) * R_ l ^ 3)%R in (/ 1000 <= inv)%R ->
  fin (sensor_convert_thermistor logf c raw) /\ (Rabs (R_ (sensor_convert_thermistor logf c raw) - (/ inv - 273.15)) <= 0.002)%R.
Proof.
  intros logf c raw l Va Vb Vc Fa Fb Fc Vr Fr Nr Vl Fl El Ba Bb Bc Bl inv Bi.
  assert (Z1 : feq raw f_zero = false). { destruct (feq raw f_zero) eqn:E; auto. apply feq_iff in E; auto with vf; rewrite R_f_zero in E; lra. }
  rewrite therm_eq by auto. rewrite El. now apply temp_accurate.
Qed.
Print Assumptions C67_temperature.
(* Example: a 2490 ohm bias resistor and the coefficients of the default air temperature sensor (config.c 222-230), with ln 2490 = 7.82 for logf. *)
Definition clt_cfg : scfg := SCfg 0 SRC_ADC THERM f_zero f_zero f_zero (f_of_Z 5) (f_of_Z 2490) (flit 146167419060305 100000000000000000) (flit 22887572003919 100000000000000000) (flit 164484831669638 1000000000000000000000) f_zero f_zero f_zero f_zero 0 0 0.
Example C67_example : f_trunc (resistance clt_cfg (flit 25 10)) = Some 2490 /\ therm_regular (fun _ => flit 782 100) clt_cfg (flit 25 10) /\
  f_trunc (sensor_convert_thermistor (fun _ => flit 782 100) clt_cfg (flit 25 10)) = Some 27.
Proof.
  split; [vm_compute; reflexivity|].
  assert (Q : forall m e, (0 < R_ (SpecFloat.S754_finite false m e))%R) by (intros m e; unfold R_; apply F2R_gt_0; reflexivity).
  split; [|vm_compute; reflexivity]. unfold therm_regular. cbv zeta.
  match goal with |- fin ?a /\ (0 < R_ ?a)%R /\ fin ?b /\ (0 < R_ ?b)%R /\ fin ?c /\ (0 < R_ ?c)%R /\ fin ?d =>
    let a' := eval vm_compute in a in let b' := eval vm_compute in b in let c' := eval vm_compute in c in let d' := eval vm_compute in d in
    replace a with a' by (vm_compute; reflexivity); replace b with b' by (vm_compute; reflexivity); replace c with c' by (vm_compute; reflexivity); replace d with d' by (vm_compute; reflexivity) end.
  repeat split; try reflexivity; apply Q.
Qed.
