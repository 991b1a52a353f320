(** Proofs for C92: the sensors' values stay within their boxes, so the firmware stays defined. *)
Require Import ZArith Reals Lra Lia List Bool.
From Flocq Require Import Core.
From Verif Require Import Res Word F32 F32Flocq Arr Outputs TimeProofs CalcProofs AngleProofs Interval Sensors SensorSpec SensorProofs PulseProofs Decoder DecoderSafe DecoderAngle Calc CalcSpec System SafeSpec SafeDec FwSafe Rig RigSpec.
Import ListNotations.
Open Scope Z_scope.
Ltac Zify.zify_post_hook ::= idtac.

(** ** The crank's angle *)
Lemma angle_now c d now : dsafe c d -> dd_rpm d <= 2 ^ 24 -> (now - dd_last_time d) mod 2 ^ 32 * dd_rpm d <= 600000000000 -> exists a, current_angle d now = Ok a /\ crank a.
Proof.
  intros D Rm T. destruct (ds_angle _ _ D) as (V & F & B). pose proof (ds_rpm _ _ D) as R0. unfold current_angle. destruct (Z.eqb_spec (dd_rpm d) 0) as [Z|Z]; [exists (dd_last_angle d); repeat split; auto; lra|].
  change ((now - dd_last_time d) mod 2 ^ 32) with (w32 (now - dd_last_time d)) in T.
  destruct (degrees_accuracy (w32 (now - dd_last_time d)) (dd_rpm d)) as (Vg & Fg & Bg); [apply w32_range|lia|]. cbv zeta in Bg.
  pose proof (w32_range (now - dd_last_time d)) as Wr. set (e := w32 (now - dd_last_time d)) in *. clearbody e. set (g := degrees_from_time_diff _ _) in *. clearbody g.
  assert (P : (0 <= IZR e * IZR (dd_rpm d) <= 600000000000)%R) by (rewrite <- mult_IZR; split; apply IZR_le; nia).
  unfold ur in Bg. destruct (fadd_ok (dd_last_angle d) g 23) as [E2 F2]; auto; [lia|simpl; rewrite Rabs_pos_eq; lra|].
  destruct f720 as (V7 & F7 & R7).
  assert (B2 : (Rabs (R_ (fadd (dd_last_angle d) g)) <= bpow radix2 23)%R) by (rewrite E2; apply rnd_abs_le_bpow; [lia|]; rewrite Rabs_pos_eq; simpl; lra).
  destruct (clamp_angle_terminates (fadd (dd_last_angle d) g) (f_of_Z 720)) as (r & E); auto with vf; [rewrite R7; simpl; lra|].
  destruct (clamp_angle_range (fadd (dd_last_angle d) g) (f_of_Z 720) r) as (Va & Fa & G1 & G2); auto with vf.
  exists r. split; [exact E|]. unfold fge in G1. apply fle_iff in G1; auto with vf. apply flt_iff in G2; auto with vf. rewrite R_f_zero in G1. rewrite R7 in G2. repeat split; auto; lra.
Qed.

(** ** One sensor *)
Definition pow2 (b : Z) : Prop := b = 0 \/ exists k, 0 <= k <= 17 /\ (b = 2 ^ k \/ b = - 2 ^ k).
Lemma box_pow2 i lo hi : box i = Some (lo, hi) -> pow2 lo /\ pow2 hi /\ lo <= 0 <= hi.
Proof.
  unfold box. intros H. assert (P0 : pow2 0) by now left. assert (P : forall k, 0 <= k <= 17 -> pow2 (2 ^ k) /\ pow2 (- 2 ^ k)) by (intros k Hk; split; right; exists k; auto).
  destruct (P 9 ltac:(lia)) as [P9 _]. destruct (P 6 ltac:(lia)) as [_ P6]. destruct (P 7 ltac:(lia)) as [P7 _]. destruct (P 17 ltac:(lia)) as [P17 N17].
  destruct (i =? MAP_); [assert (lo = 0 /\ hi = 512) as [-> ->] by (split; congruence); repeat split; auto; lia|].
  destruct (i =? IAT_); [assert (lo = -64 /\ hi = 512) as [-> ->] by (split; congruence); repeat split; auto; lia|].
  destruct (i =? FRT_); [assert (lo = -64 /\ hi = 128) as [-> ->] by (split; congruence); repeat split; auto; lia|].
  destruct (_ || _); [|discriminate]. assert (lo = -131072 /\ hi = 131072) as [-> ->] by (split; congruence). repeat split; auto; lia.
Qed.
Lemma pow2_bound b : pow2 b -> Z.abs b <= 131072.
Proof.
  intros [->|(k & Hk & E)]; [lia|]. assert (2 ^ k <= 2 ^ 17) by (apply Z.pow_le_mono_r; lia). assert (0 < 2 ^ k) by (apply Z.pow_pos_nonneg; lia).
  change (2 ^ 17) with 131072 in *. destruct E; lia.
Qed.
Lemma rep_times n b : pow2 b -> Z.abs n <= 2 ^ 24 -> rep (IZR n * IZR b).
Proof.
  intros [->|(k & Hk & E)] Hn; [rewrite Rmult_0_r; apply (rep_Z 0); lia|].
  assert (P : IZR (2 ^ k) = bpow radix2 k) by (rewrite (IZR_Zpower radix2) by lia; reflexivity).
  destruct E as [-> | ->]; [rewrite P; apply rep_grid; lia|]. replace (IZR n * IZR (- 2 ^ k))%R with (IZR (- n) * IZR (2 ^ k))%R by (rewrite !opp_IZR; ring). rewrite P. apply rep_grid; lia.
Qed.
Lemma rep_pow2 b : pow2 b -> rep (IZR b).
Proof. intros P. pose proof (rep_times 1 b P ltac:(lia)) as H. now rewrite Rmult_1_l in H. Qed.

(** What is known of a sensor with box [lo], [hi] at any time. *)
Record boxed (lo hi : Z) (s : sdat) : Prop := {
  bx_value : iv (a_value s) (IZR lo) (IZR hi);
  bx_deriv : number (a_deriv s);
  bx_samples : 0 <= a_samples s;
  bx_acc : iv (a_acc s) (IZR (a_samples s) * IZR lo) (IZR (a_samples s) * IZR hi) }.

Lemma sub_crank a b : crank a -> crank b -> exists r, clamp_angle (fsub a b) (f_of_Z 720) = Ok r.
Proof.
  intros (Va & Fa & Ba) (Vb & Fb & Bb). destruct f720 as (V7 & F7 & R7). destruct (fsub_ok a b 10) as [E F]; auto; [lia|simpl; apply Rabs_le; lra|].
  apply clamp_angle_terminates; auto with vf; [|rewrite R7; simpl; lra]. rewrite E. apply rnd_abs_le_bpow; [lia|]. simpl. apply Rabs_le. lra.
Qed.

Lemma windowed_total c rpm s a : windowed c -> c_offset c <= 720 -> crank a -> crank (a_start s) ->
  exists x s', sensor_convert_linear_windowed c rpm s a = Ok (x, s') /\ crank (a_start s').
Proof.
  intros Wd O A S0. unfold sensor_convert_linear_windowed. destruct (rpm =? 0); [eauto|].
  assert (B : (Rabs (R_ a - IZR (c_offset c)) <= 1000000)%R).
  { destruct A as (_ & _ & A). pose proof (wd_offset c Wd). assert (0 <= IZR (c_offset c) <= 720)%R by (split; apply IZR_le; lia). apply Rabs_le. lra. }
  destruct (in_window_total c a Wd A B ltac:(lia)) as (b & Eb). rewrite Eb. cbn [bind]. destruct (sub_crank a (a_start s) A S0) as (q & Eq).
  destruct b; cbn [negb bind]; rewrite ?Eq; cbn [bind]; set (close := _ && _); destruct close; cbn [a_collecting set_window]; try (eexists _, _; split; [reflexivity|]; cbn [a_start set_window]; auto; fail).
  destruct (a_collecting s); eexists _, _; (split; [reflexivity|]); cbn [a_start set_window]; auto.
Qed.

Lemma iv_mean n lo hi x : pow2 lo -> pow2 hi -> 1 <= n <= 2 ^ 24 -> iv x (IZR n * IZR lo) (IZR n * IZR hi) -> iv (fdiv x (f_of_Z n)) (IZR lo) (IZR hi).
Proof.
  intros Pl Ph Hn X. assert (N : (1 <= IZR n)%R) by (apply IZR_le; lia).
  apply (iv_divc x (f_of_Z n) (IZR n * IZR lo) (IZR n * IZR hi) (IZR n)); auto using rep_pow2; try (apply iv_Z; lia); lra.
Qed.

(** The windowed average: the value and the sum of the open window. *)
Lemma windowed_boxed lo hi c rpm s a x s' : pow2 lo -> pow2 hi -> boxed lo hi s -> a_samples s < 2 ^ 24 -> iv (sensor_convert_linear c (a_raw s)) (IZR lo) (IZR hi) ->
  sensor_convert_linear_windowed c rpm s a = Ok (x, s') -> iv x (IZR lo) (IZR hi) /\ boxed lo hi s'.
Proof.
  intros Pl Ph B N L. pose proof B as [Bv Bd Bs Ba]. unfold sensor_convert_linear_windowed. destruct (rpm =? 0).
  { intros H. assert (x = sensor_convert_linear c (a_raw s) /\ s' = s) as [-> ->] by (split; congruence). auto. }
  destruct (current_angle_in_window c a) as [inw|]; cbn [bind]; [|discriminate]. destruct (if negb inw then _ else _) as [over|]; cbn [bind]; [|discriminate].
  set (close := over && _). set (result := if close then _ else _). set (s1 := if close then _ else s).
  assert (Rv : iv result (IZR lo) (IZR hi)).
  { unfold result. destruct close eqn:E; [|exact Bv]. unfold close in E. apply andb_true_iff in E. destruct E as [_ E]. apply andb_true_iff in E. destruct E as [_ E].
    apply negb_true_iff, Z.eqb_neq in E. apply iv_mean; auto; lia. }
  assert (S1 : boxed lo hi s1 /\ a_samples s1 = a_samples s /\ a_raw s1 = a_raw s) by (unfold s1; destruct close; [|auto]; split; [split; auto|auto]). clearbody result s1. destruct S1 as (S1 & Sn & Sr).
  destruct inw.
  - set (s2 := if a_collecting s1 then s1 else _).
    assert (S2 : boxed lo hi s2 /\ a_samples s2 < 2 ^ 24 /\ a_raw s2 = a_raw s).
    { unfold s2. destruct (a_collecting s1); [split; [auto|]; split; [lia|auto]|]. split; [|split; [cbn; lia|exact Sr]]. destruct S1 as [X1 X2 X3 X4]. split; auto; cbn [set_window a_samples a_acc]; [lia|]. rewrite !Rmult_0_l.
      split; [auto with vf|]. split; [reflexivity|]. rewrite R_f_zero. lra. }
    clearbody s2. destruct S2 as (S2 & Sn2 & Sr2). intros H. assert (x = result /\ s' = set_window s2 (fadd (a_acc s2) (sensor_convert_linear c (a_raw s2))) (w32 (a_samples s2 + 1)) true (a_start s2)) as [-> ->] by (split; congruence).
    split; [exact Rv|]. destruct S2 as [X1 X2 X3 X4]. split; auto; cbn [set_window a_samples a_acc]; unfold w32; rewrite (Z.mod_small (a_samples s2 + 1)) by (unfold W; lia); [lia|].
    rewrite Sr2, plus_IZR. apply (iv_add _ _ _ _ _ _ _ _ X4 L); try lra; rewrite <- plus_IZR; apply rep_times; auto; lia.
  - intros H. assert (x = result /\ s' = s1) as [-> ->] by (split; congruence). auto.
Qed.

(** The lag filter stays exactly within whole bounds. *)
Lemma lag_boxed lo hi n old new : pow2 lo -> pow2 hi -> 0 <= n <= 100 -> iv old (IZR lo) (IZR hi) -> iv new (IZR lo) (IZR hi) -> iv (process_lag_filter (f_of_Z n) old new) (IZR lo) (IZR hi).
Proof.
  intros Pl Ph Hn Ho Hw. unfold process_lag_filter. destruct (feq _ _); [exact Hw|]. pose proof (pow2_bound lo Pl) as Bl. pose proof (pow2_bound hi Ph) as Bh.
  assert (Rn : (0 <= IZR n <= 100)%R) by (split; apply IZR_le; lia).
  assert (I1 : iv (f_of_Z n) (IZR n) (IZR n)) by (apply iv_Z; lia).
  assert (I2 : iv (fsub (f_of_Z 100) (f_of_Z n)) (IZR (100 - n)) (IZR (100 - n))) by (apply (iv_sub _ _ 100 100 (IZR n) (IZR n)); auto; [apply iv_Z; lia| | | |]; try (apply rep_Z; lia); rewrite minus_IZR; lra).
  assert (X1 : iv (fmul old (f_of_Z n)) (IZR (lo * n)) (IZR (hi * n))) by (apply (iv_mulc old (f_of_Z n) (IZR lo) (IZR hi) (IZR n)); auto; try (apply rep_Z; nia); try (rewrite mult_IZR; lra); lra).
  assert (X2 : iv (fmul new (fsub (f_of_Z 100) (f_of_Z n))) (IZR (lo * (100 - n))) (IZR (hi * (100 - n)))) by (apply (iv_mulc new _ (IZR lo) (IZR hi) (IZR (100 - n))); auto; try (apply rep_Z; nia); try (rewrite mult_IZR; lra); rewrite minus_IZR; lra).
  assert (X3 : iv (fadd (fmul old (f_of_Z n)) (fmul new (fsub (f_of_Z 100) (f_of_Z n)))) (IZR (lo * 100)) (IZR (hi * 100))).
  { apply (iv_add _ _ _ _ _ _ _ _ X1 X2); try (apply rep_Z; lia); rewrite <- plus_IZR; apply IZR_le; lia. }
  apply (iv_divc _ _ _ _ 100 _ _ X3); auto using rep_pow2; [apply iv_Z; lia|lra|rewrite mult_IZR; lra|rewrite mult_IZR; lra].
Qed.

Lemma deriv_total rate old new : 1 <= rate <= 1000000 -> exists d, process_derivative rate old new = Ok d.
Proof.
  intros R. unfold process_derivative. destruct (Z.eqb_spec rate 0); [lia|]. assert (0 <= 1000000 / rate <= 1000000) by (split; [apply Z.div_pos; lia|apply Z.div_le_upper_bound; nia]).
  rewrite time_from_us_exact by lia. cbn [bind]. eauto.
Qed.
Lemma deriv_number rate lo hi old new d : pow2 lo -> pow2 hi -> 1 <= rate <= 1000000 -> iv old (IZR lo) (IZR hi) -> iv new (IZR lo) (IZR hi) -> process_derivative rate old new = Ok d -> number d.
Proof.
  intros Pl Ph R Ho Hw. unfold process_derivative. destruct (Z.eqb_spec rate 0); [lia|]. pose proof (pow2_bound lo Pl) as Bl. pose proof (pow2_bound hi Ph) as Bh.
  assert (Q : 1 <= 1000000 / rate <= 1000000) by (split; [apply Z.div_le_lower_bound; lia|apply Z.div_le_upper_bound; nia]).
  rewrite time_from_us_exact by lia. cbn [bind]. set (t := 1000000 / rate) in *. clearbody t. intros H. assert (d = fdiv (fmul (f_of_Z TICKRATE) (fsub new old)) (f_of_Z (4 * t))) as -> by congruence.
  assert (Wd : forall x, iv x (IZR lo) (IZR hi) -> iv x (-131072) 131072) by (intros x X; apply (iv_weak _ _ _ _ _ X); apply IZR_le; lia).
  assert (X1 : iv (fsub new old) (-262144) 262144) by (apply (iv_sub _ _ _ _ _ _ _ _ (Wd _ Hw) (Wd _ Ho)); try (apply rep_Z; lia); lra).
  assert (T : iv (f_of_Z TICKRATE) 4000000 4000000) by (apply (iv_Z 4000000); lia).
  assert (Rp : rep (bpow radix2 40) /\ rep (- bpow radix2 40)).
  { split; [apply rep_bpow; lia|]. replace (- bpow radix2 40)%R with (IZR (-1) * bpow radix2 40)%R by ring. apply rep_grid; lia. }
  assert (B40 : bpow radix2 40 = 1099511627776%R) by (simpl; lra).
  assert (X2 : iv (fmul (f_of_Z TICKRATE) (fsub new old)) (- bpow radix2 40) (bpow radix2 40)).
  { destruct T as (Vt & Ft & Bt). destruct X1 as (Vy & Fy & By). assert (Et : R_ (f_of_Z TICKRATE) = 4000000%R) by lra.
    destruct (rep_between (R_ (f_of_Z TICKRATE) * R_ (fsub new old)) (- bpow radix2 40) (bpow radix2 40)) as [B N]; try apply Rp; [rewrite Et, B40; lra|].
    destruct (fmul_ok (f_of_Z TICKRATE) (fsub new old) 100) as [E F]; auto; [lia|]. split; [auto with vf|]. split; [auto|]. now rewrite E. }
  assert (R4 : (4 <= IZR (4 * t))%R) by (apply IZR_le; lia).
  destruct (iv_divc _ (f_of_Z (4 * t)) _ _ (IZR (4 * t)) _ _ X2 ltac:(apply iv_Z; lia) (proj2 Rp) (proj1 Rp)) as (V & F & _); [lra| | |split; auto]; rewrite B40; nra.
Qed.

(** ** A conversion *)
Lemma accepts c s : number (c_fault_min c) -> number (c_fault_max c) -> number (a_raw s) -> no_fault (detect_faults c s) = true -> accepted c (a_raw s).
Proof.
  intros [V1 F1] [V2 F2] [V3 F3]. unfold detect_faults, accepted. destruct (negb (no_fault (a_fault s))) eqn:E0; [apply negb_true_iff in E0; congruence|].
  destruct (feq (c_fault_max c) f_zero) eqn:E; [intros _; left; apply feq_iff in E; auto with vf; rewrite R_f_zero in E; exact E|]. cbn [negb].
  destruct (fgt _ _ || flt _ _) eqn:E2; [discriminate|]. intros _. right. apply orb_false_iff in E2. destruct E2 as [A B]. unfold fgt in A.
  split; apply Rnot_lt_le; intros K; [assert (flt (a_raw s) (c_fault_min c) = true) by (apply flt_iff; auto)|assert (flt (c_fault_max c) (a_raw s) = true) by (apply flt_iff; auto)]; unfold flt in *; congruence.
Qed.

Lemma convert_ok v c s raw t : windows_ok c -> crank (a_start s) -> 1 <= v_rate v <= 1000000 -> (exists a, v_angle v = Ok a /\ crank a) ->
  exists s', sensor_convert v c s raw t = Ok s' /\ crank (a_start s').
Proof.
  intros Wk S0 R (a & Ea & A). unfold sensor_convert. destruct (negb _); [eexists; split; [reflexivity|]; exact S0|]. set (s1 := set_input s raw t).
  assert (S1 : crank (a_start s1)) by exact S0. clearbody s1.
  assert (X : exists x s2, match c_method c with LINEAR => Ok (sensor_convert_linear c (a_raw s1), s1) | LINEAR_WINDOWED => a <- v_angle v ;; sensor_convert_linear_windowed c (v_rpm v) s1 a
                 | THERM => Ok (sensor_convert_thermistor (v_logf v) c (a_raw s1), s1) end = Ok (x, s2) /\ crank (a_start s2)).
  { destruct (c_method c) eqn:M; [eauto| |eauto]. rewrite Ea. cbn [bind]. destruct (Wk M) as [Wd O]. now apply windowed_total. }
  destruct X as (x & s2 & E & S2). rewrite E. cbn [bind]. destruct (deriv_total (v_rate v) (a_value s2) (process_lag_filter (c_lag c) (a_value s2) x) R) as (d & Ed). rewrite Ed. cbn [bind]. eexists. split; [reflexivity|exact S2].
Qed.

Section Pulses.
Variable pulses : R * R.

Lemma convert_boxed lo hi v c s raw t s' : pow2 lo -> pow2 hi -> in_box pulses (v_logf v) c lo hi -> (no_fault (a_fault s) = true -> reading pulses (c_source c) raw) -> boxed lo hi s -> a_samples s < 2 ^ 24 -> 1 <= v_rate v <= 1000000 ->
  sensor_convert v c s raw t = Ok s' -> boxed lo hi s'.
Proof.
  intros Pl Ph [[Q1 Q2] Q3 (n & Hn & Q4) Q5] Ir B N R. unfold sensor_convert. destruct (no_fault (detect_faults c (set_input s raw t))) eqn:Nf; cbn [negb].
  2:{ intros H. assert (s' = set_output (set_input s raw t) (c_fault_value c) f_zero) as -> by congruence. destruct B as [X1 X2 X3 X4]. split; auto. split; [auto with vf|reflexivity]. }
  assert (Nf0 : no_fault (a_fault s) = true) by (unfold detect_faults in Nf; cbn [set_input a_fault] in Nf; destruct (a_fault s); auto; discriminate Nf). specialize (Ir Nf0).
  assert (Nr : number raw) by (destruct (c_source c); cbn [reading] in Ir; try contradiction; destruct Ir as (V & F & _); split; auto).
  assert (Ac : accepted c raw). { apply (accepts c (set_input s raw t)) in Nf; auto. }
  specialize (Q5 raw Ir Ac). set (s1 := set_input s raw t). assert (B1 : boxed lo hi s1) by (destruct B; split; auto). assert (N1 : a_samples s1 < 2 ^ 24) by exact N. assert (Er : a_raw s1 = raw) by reflexivity. clearbody s1.
  destruct (match c_method c with LINEAR => _ | LINEAR_WINDOWED => _ | THERM => _ end) as [[x s2]|] eqn:E; cbn [bind]; [|discriminate].
  assert (X : iv x (IZR lo) (IZR hi) /\ boxed lo hi s2).
  { unfold converted in Q5. destruct (c_method c).
    - assert (x = sensor_convert_linear c (a_raw s1) /\ s2 = s1) as [-> ->] by (split; congruence). rewrite Er. auto.
    - destruct (v_angle v) as [a|]; cbn [bind] in E; [|discriminate]. apply (windowed_boxed lo hi c (v_rpm v) s1 a); auto. now rewrite Er.
    - assert (x = sensor_convert_thermistor (v_logf v) c (a_raw s1) /\ s2 = s1) as [-> ->] by (split; congruence). rewrite Er. auto. }
  destruct X as [X B2]. destruct (process_derivative _ _ _) as [d|] eqn:Ed; cbn [bind]; [|discriminate]. intros H.
  assert (s' = set_output s2 (process_lag_filter (c_lag c) (a_value s2) x) d) as -> by congruence. rewrite Q4 in *. pose proof (lag_boxed lo hi n _ _ Pl Ph Hn (bx_value _ _ _ B2) X) as L.
  destruct B2 as [X1 X2 X3 X4]. split; auto. apply (deriv_number (v_rate v) lo hi (a_value s2) (process_lag_filter (f_of_Z n) (a_value s2) x)); auto.
Qed.

(** ** All sensors *)
Definition sensor_inv (logf : f32 -> f32) (i : Z) (x : sensor) : Prop :=
  0 <= c_pin (fst x) /\ sensor_ok pulses logf i (fst x) /\ crank (a_start (snd x)) /\ forall lo hi, box i = Some (lo, hi) -> boxed lo hi (snd x).
Definition sensors_inv (logf : f32 -> f32) (k : Z) (l : list sensor) : Prop := forall j x, nth_error l j = Some x -> sensor_inv logf (k + Z.of_nat j) x.

Lemma each_ok logf f (P : sensor -> Prop) : (forall i x, sensor_inv logf i x -> P x -> exists y, f x = Ok y /\ sensor_inv logf i y) ->
  forall l k, sensors_inv logf k l -> Forall P l -> exists l', each f l = Ok l' /\ length l' = length l /\ sensors_inv logf k l'.
Proof.
  intros H l. induction l as [|x l IH]; intros k I Pl; [exists []; split; [reflexivity|]; split; [reflexivity|exact I]|]. cbn [each]. apply Forall_cons_iff in Pl. destruct Pl as [Px Pl].
  destruct (H k x) as (y & Ey & Iy); auto; [specialize (I 0%nat x eq_refl); now replace (k + Z.of_nat 0) with k in I by lia|]. rewrite Ey. cbn [bind].
  destruct (IH (k + 1)) as (l' & El & L & Il); auto; [intros j z Z; replace (k + 1 + Z.of_nat j) with (k + Z.of_nat (Datatypes.S j)) by lia; now apply I|]. rewrite El. cbn [bind].
  exists (y :: l'). split; [reflexivity|]. split; [cbn [length]; now rewrite L|]. intros [|j] z Z; cbn [nth_error] in Z.
  - assert (z = y) as -> by congruence. now replace (k + Z.of_nat 0) with k by lia.
  - replace (k + Z.of_nat (Datatypes.S j)) with (k + 1 + Z.of_nat j) by lia. now apply Il.
Qed.

Lemma boxed_fault lo hi s f : boxed lo hi s -> boxed lo hi (set_fault s f).
Proof. intros [X1 X2 X3 X4]. split; auto. Qed.

Lemma one_ok v i c s raw t f : sensor_inv (v_logf v) i (c, s) -> a_samples s < 2 ^ 24 -> 1 <= v_rate v <= 1000000 -> (exists a, v_angle v = Ok a /\ crank a) -> (no_fault f = true -> reading pulses (c_source c) raw) ->
  exists s', sensor_convert v c (set_fault s f) raw t = Ok s' /\ sensor_inv (v_logf v) i (c, s').
Proof.
  intros (P & Sk & C & B) N R A Ir. cbn [fst snd] in *. destruct (convert_ok v c (set_fault s f) raw t (proj1 Sk) C R A) as (s' & E & C'). exists s'. split; [exact E|].
  split; [exact P|]. split; [exact Sk|]. split; [exact C'|]. intros lo hi Bx. destruct (box_pow2 i lo hi Bx) as (Pl & Ph & _). cbn [snd].
  apply (convert_boxed lo hi v c (set_fault s f) raw t); auto; [now apply Sk|now apply boxed_fault, B].
Qed.

Lemma adc_ok v u i x : sensor_inv (v_logf v) i x -> a_samples (snd x) < 2 ^ 24 -> 1 <= v_rate v <= 1000000 -> (exists a, v_angle v = Ok a /\ crank a) ->
  length (d_values u) = 16%nat -> (d_valid u = true -> Forall (reading pulses SRC_ADC) (d_values u)) -> exists y, sensor_adc v u x = Ok y /\ sensor_inv (v_logf v) i y.
Proof.
  intros I N R A L F. destruct x as [c s]. unfold sensor_adc. destruct (c_source c) eqn:Sc; eauto. destruct (Z.leb_spec 16 (c_pin c)); [eauto|].
  destruct I as (P & I). destruct (get (d_values u) (c_pin c)) as [raw|] eqn:G; [|destruct (get_in_range (d_values u) (c_pin c)) as (z & Z); [cbn [fst] in P; rewrite L; lia|congruence]]. cbn [bind].
  assert (Ir : no_fault (conn_fault (d_valid u)) = true -> reading pulses (c_source c) raw). { rewrite Sc. intros Nf. specialize (F ltac:(destruct (d_valid u); [reflexivity|discriminate Nf])). rewrite Forall_forall in F. apply F. apply get_ok in G. destruct G as [_ G]. eapply nth_error_In; eauto. }
  destruct (one_ok v i c s raw (d_time u) (conn_fault (d_valid u)) (conj P I)) as (s' & E & I'); auto. rewrite E. cbn [bind]. eauto.
Qed.

Lemma freq_ok v u i x : sensor_inv (v_logf v) i x -> a_samples (snd x) < 2 ^ 24 -> 1 <= v_rate v <= 1000000 -> (exists a, v_angle v = Ok a /\ crank a) ->
  (f_valid u = true -> reading pulses SRC_FREQ (f_frequency u) /\ reading pulses SRC_PULSEWIDTH (f_pulsewidth u)) -> exists y, sensor_freq v u x = Ok y /\ sensor_inv (v_logf v) i y.
Proof.
  intros I N R A F. assert (F' : no_fault (conn_fault (f_valid u)) = true -> reading pulses SRC_FREQ (f_frequency u) /\ reading pulses SRC_PULSEWIDTH (f_pulsewidth u)) by (intros Nf; apply F; destruct (f_valid u); [reflexivity|discriminate Nf]).
  destruct x as [c s]. unfold sensor_freq. destruct (negb _); [eauto|]. destruct (c_source c) eqn:Sc; eauto.
  - destruct (one_ok v i c s (f_frequency u) (f_time u) (conn_fault (f_valid u)) I) as (s' & E & I'); auto; [rewrite Sc; intros Nf; now apply F'|]. rewrite E. cbn [bind]. eauto.
  - destruct (one_ok v i c s (f_pulsewidth u) (f_time u) (conn_fault (f_valid u)) I) as (s' & E & I'); auto; [rewrite Sc; intros Nf; now apply F'|]. rewrite E. cbn [bind]. eauto.
Qed.

(** ** What the calculations read *)
Lemma readings_ok logf l : length l = 10%nat -> sensors_inv logf 0 l -> exists s, readings l = Ok s /\ sens_in_range s.
Proof.
  intros L I.
  assert (G : forall i, 0 <= i < 10 -> exists x, get l i = Ok x /\ sensor_inv logf i x).
  { intros i Hi. destruct (get_in_range l i) as (x & E); [rewrite L; lia|]. exists x. split; [exact E|]. apply get_ok in E. destruct E as [_ E]. specialize (I _ _ E). now replace (0 + Z.of_nat (Z.to_nat i)) with i in I by lia. }
  destruct (G MAP_) as (x0 & E0 & _ & _ & _ & B0); [unfold MAP_; lia|]. destruct (G IAT_) as (x1 & E1 & _ & _ & _ & B1); [unfold IAT_; lia|]. destruct (G CLT_) as (x2 & E2 & _ & _ & _ & B2); [unfold CLT_; lia|].
  destruct (G BRV_) as (x3 & E3 & _ & _ & _ & B3); [unfold BRV_; lia|]. destruct (G TPS_) as (x4 & E4 & _ & _ & _ & B4); [unfold TPS_; lia|]. destruct (G FRT_) as (x6 & E6 & _ & _ & _ & B6); [unfold FRT_; lia|].
  destruct (G EGO_) as (x7 & E7 & _); [unfold EGO_; lia|]. unfold readings, value_of. rewrite E0, E1, E2, E3, E4, E6, E7. cbn [bind]. eexists. split; [reflexivity|].
  specialize (B0 _ _ eq_refl). specialize (B1 _ _ eq_refl). specialize (B2 _ _ eq_refl). specialize (B3 _ _ eq_refl). specialize (B4 _ _ eq_refl). specialize (B6 _ _ eq_refl).
  destruct B0 as [B0 _ _ _]. destruct B1 as [B1 _ _ _]. destruct B2 as [(B2a & B2b & _) _ _ _]. destruct B3 as [(B3a & B3b & _) _ _ _]. destruct B4 as [(B4a & B4b & _) D4 _ _]. destruct B6 as [B6 _ _ _].
  split; cbn [s_map s_iat s_frt s_clt s_brv s_tps s_tpsrate]; auto; try (split; auto; fail); [apply (iv_weak _ _ _ _ _ B1); lra|apply (iv_weak _ _ _ _ _ B6); lra].
Qed.

(** ** Only a sensor update changes what the calculations read *)
Section Kept.
Variables (env : nat -> Z * list Z) (nd : bool).
Lemma point_kept w now w' : point env w = Ok (now, w') -> w_sens w' = w_sens w.
Proof. unfold point. destruct (env (w_k w)) as [t l]. destruct (swaps _ _ _) as [[d os]|]; cbn [bind]; [|discriminate]. intros H. assert (X := f_equal (fun r => match r with Ok (_, w) => Some (w_sens w) | Err _ => None end) H). cbn [w_sens] in X. congruence. Qed.
Lemma put_kept w i o w' : put_out w i o = Ok w' -> w_sens w' = w_sens w.
Proof. unfold put_out. destruct (put _ _ _) as [os|]; cbn [bind]; [|discriminate]. intros H. assert (w' = set_outs w os) as -> by congruence. reflexivity. Qed.
Ltac open_ok H := let x := fresh "x" in let E := fresh "E" in apply bind_ok in H; destruct H as (x & E & H).
Lemma cancel_kept n : forall i w w', cancel_from env nd n i w = Ok w' -> w_sens w' = w_sens w.
Proof.
  induction n as [|n IH]; intros i w w' H; cbn [cancel_from] in H; [congruence|]. apply bind_ok in H. destruct H as ([now w1] & E1 & H). open_ok H. open_ok H. apply bind_ok in H. destruct H as (w2 & E2 & H).
  rewrite (IH _ _ _ H), (put_kept _ _ _ _ E2). eapply point_kept; eauto.
Qed.
Lemma commit_kept w i a b w' : commit_output env w i a b = Ok w' -> w_sens w' = w_sens w.
Proof.
  unfold commit_output. intros H. apply bind_ok in H. destruct H as ([n1 w1] & E1 & H). open_ok H. apply bind_ok in H. destruct H as (w2 & E2 & H). apply bind_ok in H. destruct H as ([n3 w3] & E3 & H). open_ok H.
  rewrite (put_kept _ _ _ _ H), (point_kept _ _ _ E3), (put_kept _ _ _ _ E2). eapply point_kept; eauto.
Qed.
Lemma ignition_kept w i w' : schedule_ignition env nd w i = Ok w' -> w_sens w' = w_sens w.
Proof.
  unfold schedule_ignition. intros H. apply bind_ok in H. destruct H as ([n1 w1] & E1 & H). open_ok H. apply bind_ok in H. destruct H as ([o p] & _ & H). apply bind_ok in H. destruct H as (w2 & E2 & H).
  apply point_kept in E1. apply put_kept in E2. destruct p as [[a b]|]; [apply commit_kept in H; congruence|congruence].
Qed.
Lemma fuel_kept w i w' : schedule_fuel env nd w i = Ok w' -> w_sens w' = w_sens w.
Proof.
  unfold schedule_fuel. intros H. apply bind_ok in H. destruct H as ([n1 w1] & E1 & H). open_ok H. apply bind_ok in H. destruct H as ([o p] & _ & H). apply bind_ok in H. destruct H as (w2 & E2 & H).
  apply point_kept in E1. apply put_kept in E2. destruct p as [[a b]|]; [|congruence]. apply bind_ok in H. destruct H as (w3 & E3 & H). apply commit_kept in E3. apply bind_ok in H. destruct H as ([n4 w4] & E4 & H). apply point_kept in E4.
  open_ok H. destruct (_ && _); [|congruence]. apply bind_ok in H. destruct H as (c & _ & H). assert (w' = set_cbs w4 c) as -> by congruence. cbn [set_cbs w_sens]. congruence.
Qed.
Lemma event_kept w i w' : schedule_event env nd w i = Ok w' -> w_sens w' = w_sens w.
Proof.
  unfold schedule_event. intros H. open_ok H. destruct (o_type x); [congruence| |]; apply bind_ok in H; destruct H as ([cut v] & _ & H); cbv zeta in H;
    (destruct (cut || _); [apply cancel_kept in H|first [apply fuel_kept in H|apply ignition_kept in H]]); exact H.
Qed.
Lemma from_kept n : forall i w w', schedule_from env nd n i w = Ok w' -> w_sens w' = w_sens w.
Proof. induction n as [|n IH]; intros i w w' H; cbn [schedule_from] in H; [congruence|]. apply bind_ok in H. destruct H as (w1 & E & H). rewrite (IH _ _ _ H). eapply event_kept; eauto. Qed.
Lemma effects_kept fx : forall w w', effects env nd fx w = Ok w' -> w_sens w' = w_sens w.
Proof.
  induction fx as [|[t|] fx IH]; intros w w' H; cbn [effects] in H; [congruence| |]; apply bind_ok in H; destruct H as (c & E & H); apply IH in H; [exact H|]. apply cancel_kept in E. congruence.
Qed.
Lemma update_kept w n t w' : decoder_update_scheduling env nd w n t = Ok w' -> w_sens w' = w_sens w.
Proof.
  unfold decoder_update_scheduling. intros H. apply bind_ok in H. destruct H as ([d fx] & _ & H). apply bind_ok in H. destruct H as (w1 & E1 & H). apply effects_kept in E1. cbn [set_dec w_sens] in E1.
  destruct (_ =? 0); [congruence|]. open_ok H. apply bind_ok in H. destruct H as ([n2 w2] & E2 & H). apply point_kept in E2. apply bind_ok in H. destruct H as ([v c] & _ & H). apply from_kept in H. cbn [set_vals w_sens] in H. congruence.
Qed.
Lemma test_kept w w' : execute_test_trigger env nd w = Ok w' -> w_sens w' = w_sens w.
Proof.
  unfold execute_test_trigger. destruct (_ =? 0); [congruence|]. intros H. open_ok H. destruct (test_wheel_next _ _) as [[dg tr] th]. apply bind_ok in H. destruct H as (w1 & E1 & H). apply update_kept in E1. cbn [set_sim w_sens] in E1.
  open_ok H. open_ok H. assert (w' = set_cbs w1 x1) as -> by congruence. exact E1.
Qed.
Lemma sens_kept w e w' : (forall s, e <> FSensors s) -> fstep env nd w e = Ok w' -> w_sens w' = w_sens w.
Proof.
  intros N H. destruct e; cbn [fstep] in H.
  - eapply update_kept; eauto.
  - unfold timer_interrupt in H. open_ok H. open_ok H. apply bind_ok in H. destruct H as ([n1 w1] & E1 & H). apply point_kept in E1. open_ok H. open_ok H. apply bind_ok in H. destruct H as (w2 & Ec & H).
    assert (K : w_sens w2 = w_sens w1).
    { unfold callback in Ec. destruct (_ =? EXPIRE_CB); [unfold lose_position, cancel_outputs in Ec; apply cancel_kept in Ec; exact Ec|]. destruct (_ =? TEST_CB); [apply test_kept in Ec; exact Ec|apply event_kept in Ec; exact Ec]. }
    destruct (0 <? Callbacks.cb_n (w_cbs w2)); [apply bind_ok in H; destruct H as (q & _ & H); assert (w' = set_cbs w2 q) as -> by congruence; cbn [set_cbs w_sens]; congruence|congruence].
  - unfold lose_position, cancel_outputs in H. apply cancel_kept in H. exact H.
  - apply bind_ok in H. destruct H as ([n1 w1] & E1 & H). apply point_kept in E1. congruence.
  - now destruct (N s).
  - assert (X := f_equal (fun r => match r with Ok w => Some (w_sens w) | Err _ => None end) H). cbn [w_sens] in X. congruence.
  - assert (X := f_equal (fun r => match r with Ok w => Some (w_sens w) | Err _ => None end) H). cbn [w_sens] in X. congruence.
  - open_ok H. eapply put_kept; eauto.
  - apply bind_ok in H. destruct H as ([n1 w1] & E1 & H). apply point_kept in E1. open_ok H. assert (w' = set_sim (set_cbs w1 x) rpm (w_tooth w1)) as -> by congruence. exact E1.
  - eapply cancel_kept; eauto.
Qed.
End Kept.

(** ** The firmware with its sensors *)
Record rsafe (logf : f32 -> f32) (r : rig) : Prop := {
  rs_fw : safe (r_fw r);
  rs_len : length (r_sensors r) = 10%nat;
  rs_inv : sensors_inv logf 0 (r_sensors r);
  rs_seen : readings (r_sensors r) = Ok (w_sens (r_fw r)) }.

Lemma with_ok env logf w l : safe w -> length l = 10%nat -> sensors_inv logf 0 l -> exists r, with_sensors env true w l = Ok r /\ rsafe logf r.
Proof.
  intros I L S. destruct (readings_ok logf l L S) as (s & Es & Hs). unfold with_sensors. rewrite Es. cbn [bind]. destruct (step_ok env w (FSensors s) I Hs) as (w' & E & I'). rewrite E. cbn [bind].
  eexists. split; [reflexivity|]. split; cbn [r_fw r_sensors]; auto. cbn [fstep] in E. assert (w_sens w' = s) as -> by (assert (X := f_equal (fun r => match r with Ok w => Some (w_sens w) | Err _ => None end) E); cbn [w_sens] in X; congruence). exact Es.
Qed.

Lemma put_inv logf l i y : length l = 10%nat -> sensors_inv logf 0 l -> 0 <= i < 10 -> sensor_inv logf i y -> exists l', put l i y = Ok l' /\ length l' = 10%nat /\ sensors_inv logf 0 l'.
Proof.
  intros L I Hi Y. rewrite Arr.put_ok by lia. eexists. split; [reflexivity|]. split; [now rewrite upd_nat_length|]. intros j x E. rewrite nth_error_upd in E by lia.
  destruct (Nat.eqb_spec (Z.to_nat i) j) as [<-|N]; [|now apply I]. assert (x = y) as -> by congruence. now replace (0 + Z.of_nat (Z.to_nat i)) with i by lia.
Qed.

Lemma rstep_ok env logf rate r e : 1 <= rate <= 1000000 -> rsafe logf r -> rmay pulses logf r e -> exists r', rstep env true logf rate r e = Ok r' /\ rsafe logf r'.
Proof.
  intros Rt [Iw L Is Sn] M. destruct r as [w l]. cbn [r_fw r_sensors] in *.
  assert (An : forall now, may_read (Rig w l) now -> (exists a, v_angle (around logf rate w now) = Ok a /\ crank a) /\ Forall (fun x => a_samples (snd x) < 2 ^ 24) l).
  { intros now (M1 & M2 & M3). cbn [r_fw r_sensors] in *. split; [|exact M3]. destruct Iw as (c & rp & _ & _ & I). exact (angle_now c (w_dec w) now (fs_dec _ _ _ I) M1 M2). }
  assert (G : forall i, 0 <= i < 10 -> exists x, get l i = Ok x /\ sensor_inv logf i x).
  { intros i Hi. destruct (get_in_range l i) as (x & E); [rewrite L; lia|]. exists x. split; [exact E|]. apply get_ok in E. destruct E as [_ E]. specialize (Is _ _ E). now replace (0 + Z.of_nat (Z.to_nat i)) with i in Is by lia. }
  unfold rstep. cbn [r_fw r_sensors]. destruct e as [e|now u|now u|i c|i v].
  - assert (Me : may w e) by (destruct e; try exact M; destruct M). destruct (step_ok env w e Iw Me) as (w' & E & I'). rewrite E. cbn [bind]. eexists. split; [reflexivity|]. split; cbn [r_fw r_sensors]; auto.
    rewrite Sn. f_equal. symmetry. apply (sens_kept env true w e w'); [|exact E]. intros s ->. exact M.
  - destruct M as (M & U1 & U2). destruct (An now M) as [A N]. unfold sensor_update_adc.
    destruct (each_ok logf (sensor_adc (around logf rate w now) u) (fun x => a_samples (snd x) < 2 ^ 24)) with (l := l) (k := 0) as (l' & E & L' & I'); auto.
    { intros i x Ix Nx. now apply (adc_ok (around logf rate w now) u i x). }
    rewrite E. cbn [bind]. apply (with_ok env logf w l'); auto. congruence.
  - destruct M as (M & U1). destruct (An now M) as [A N]. unfold sensor_update_freq.
    destruct (each_ok logf (sensor_freq (around logf rate w now) u) (fun x => a_samples (snd x) < 2 ^ 24)) with (l := l) (k := 0) as (l' & E & L' & I'); auto.
    { intros i x Ix Nx. now apply (freq_ok (around logf rate w now) u i x). }
    rewrite E. cbn [bind]. apply (with_ok env logf w l'); auto. congruence.
  - destruct M as (Hi & Hp & Ok'). destruct (G i Hi) as (x & E & _ & _ & C & B). rewrite E. cbn [bind].
    destruct (put_inv logf l i (c, snd x) L Is Hi) as (l' & E' & L' & I'); [split; [exact Hp|]; split; [exact Ok'|]; split; [exact C|exact B]|]. rewrite E'. cbn [bind]. now apply (with_ok env logf w l').
  - destruct M as (Hi & Hv). destruct (G i Hi) as (x & E & Hp & Ok' & C & B). rewrite E. cbn [bind].
    destruct (put_inv logf l i (fst x, set_value (snd x) v) L Is Hi) as (l' & E' & L' & I').
    { split; [exact Hp|]. split; [exact Ok'|]. split; [exact C|]. intros lo hi Bx. destruct (B lo hi Bx) as [X1 X2 X3 X4]. split; auto. }
    rewrite E'. cbn [bind]. now apply (with_ok env logf w l').
Qed.

Lemma rrun_ok env logf rate l : 1 <= rate <= 1000000 -> forall r, rsafe logf r -> rsound pulses env true logf rate r l -> exists r', rrun env true logf rate r l = Ok r' /\ rsafe logf r'.
Proof.
  intros Rt. induction l as [|e l IH]; intros r I S; cbn [rrun]; [eauto|]. cbn [rsound] in S. destruct S as [M S]. destruct (rstep_ok env logf rate r e Rt I M) as (r1 & E & I1). rewrite E in S |- *. cbn [bind]. now apply IH.
Qed.
End Pulses.
