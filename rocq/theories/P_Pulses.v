(** Properties C18-C21 and C56-C58: from a commanded angle to the waveform on the pin. *)
Require Import ZArith Reals List Bool Lia Lra.
From Flocq Require Import Core.
From Verif Require Import Res Word F32 F32Flocq Arr TimeProofs TableProofs AngleProofs Outputs Buffers OutputSpec OutputRun OutputProofs BufferProofs RunProofs PulseProofs Wave WaveProofs P_Outputs.
Import ListNotations.
Open Scope Z_scope.
Ltac Zify.zify_post_hook ::= Z.to_euclidean_division_equations.

(** ** C58: angle to time and back *)
(** [x] is the exact number of ticks that [deg] degrees take at [rpm]: TICKRATE * 60 / 360 / rpm * deg. *)
Theorem C58_time_of_angle : forall rpm deg, 1 <= rpm <= 2 ^ 24 -> vf deg -> fin deg -> (0 <= R_ deg <= 720)%R ->
  exists t, time_from_rpm_diff rpm deg = Ok t /\
    let x := (4000000 * 60 / 360 * R_ deg / IZR rpm)%R in (Rabs (IZR t - x) <= 1 + x / 2 ^ 22)%R.
Proof.
  intros rpm deg H V F D. destruct (time_from_rpm_accuracy rpm deg H V F D) as (t & E & _ & A). exists t. split; auto.
  cbv zeta in *. replace (4000000 * 60 / 360 * R_ deg / IZR rpm)%R with (2000000 / 3 * R_ deg / IZR rpm)%R by (unfold Rdiv; lra).
  replace (2 ^ 22)%R with 4194304%R by lra. exact A.
Qed.
Print Assumptions C58_time_of_angle.
Theorem C58_time_monotone : forall rpm a b ta tb, 1 <= rpm <= 2 ^ 24 -> vf a -> vf b -> fin a -> fin b ->
  (0 <= R_ a)%R -> (R_ a <= R_ b <= 720)%R ->
  time_from_rpm_diff rpm a = Ok ta -> time_from_rpm_diff rpm b = Ok tb -> ta <= tb.
Proof. exact time_from_rpm_mono. Qed.
Print Assumptions C58_time_monotone.
Theorem C58_angle_of_time : forall t rpm, 0 <= t < 2 ^ 32 -> 1 <= rpm <= 2 ^ 24 ->
  let g := degrees_from_time_diff t rpm in fin g /\
    let x := (IZR t * IZR rpm * 360 / 60 / 4000000)%R in (Rabs (R_ g - x) <= 6 * x / 2 ^ 24)%R.
Proof.
  intros t rpm Ht H g. destruct (degrees_accuracy t rpm Ht H) as (_ & F & A). fold g in F, A. split; auto. cbv zeta in *.
  replace (IZR t * IZR rpm * 360 / 60 / 4000000)%R with (3 / 2000000 * IZR t * IZR rpm)%R by (unfold Rdiv; lra).
  set (x := (3 / 2000000 * IZR t * IZR rpm)%R) in *. unfold ur in A. apply Rabs_le. simpl (2 ^ 24)%R. lra.
Qed.
Print Assumptions C58_angle_of_time.
(* 90 degrees at 6000 rpm: 2.5 ms. *)
Example C58_example : time_from_rpm_diff 6000 (f_of_Z 90) = Ok 10000 /\ degrees_from_time_diff 10000 6000 = f_of_Z 90 /\ angle_ok (f_of_Z 90).
Proof.
  split; [vm_compute; reflexivity|]. split; [vm_compute; reflexivity|]. split; [reflexivity|]. split; [reflexivity|].
  destruct (f_of_Z_exact 90) as [-> _]; [lia|]. rewrite Rabs_pos_eq; lra.
Qed.

(** ** C18: position, width and polarity of a new pulse *)
(** Angle (within 1/400 degree, modulo the 720 degree cycle) and time (within one tick and
    2^-22 of the delay) of the turn-off edge after the reference trigger. *)
Definition fires_at (deg : R) (tooth_rpm t : Z) : Prop := exists g k,
  (0 <= g < 720)%R /\ (Rabs (g - (deg + 720 * IZR k)) <= / 400)%R /\
  let x := (4000000 * 60 / 360 * g / IZR tooth_rpm)%R in (Rabs (IZR t - x) <= 1 + x / 2 ^ 22)%R.
(** Both edges planned, exactly [width] ticks apart, with the configured pin and levels. *)
Definition planned_pulse (o' : output) (o : output) (stop width : Z) : Prop :=
  e_state (o_start o') = SCHEDULED /\ e_state (o_stop o') = SCHEDULED /\
  e_time (o_stop o') = stop mod 2 ^ 32 /\ e_time (o_start o') = (stop - width) mod 2 ^ 32 /\
  e_pin (o_start o') = o_pin o mod 256 /\ e_pin (o_stop o') = o_pin o mod 256 /\
  e_val (o_start o') = negb (o_inv o) /\ e_val (o_stop o') = o_inv o.

Lemma unscheduled_not_fired o : event_is_unscheduled o = true -> event_has_fired o = false /\ sstate_eqb (e_state (o_stop o)) SCHEDULED = false.
Proof.
  unfold event_is_unscheduled, event_has_fired. intros H. apply andb_true_iff in H.
  destruct (e_state (o_start o)), (e_state (o_stop o)); simpl in *; intuition congruence.
Qed.

Lemma whole_pulse lim o stop width : event_is_unscheduled o = true -> - 2 ^ 31 <= stop - width - lim -> 0 <= width -> stop - lim < 2 ^ 31 ->
  let o' := schedule_output_event_safely (w32 lim) o (w32 (stop - width)) (w32 stop) in
  (lim <= stop - width /\ planned_pulse o' o stop width) \/ (stop - width < lim /\ event_is_unscheduled o' = true).
Proof.
  intros U H1 H2 H3 o'. destruct (C14_whole_or_nothing lim o (stop - width) stop U H1 ltac:(lia) H3) as [(A & B & C & D & E)|(A & B)]; [left|right; auto].
  split; [auto|]. unfold planned_pulse. fold o' in B, C, D, E. rewrite B, C, D, E.
  repeat split; auto; unfold o', schedule_output_event_safely.
  all: destruct (commit_shape (w32 lim) (set_pins o) (w32 (stop - width)) (w32 stop)) as (t & _ & Es & Et & _).
  all: rewrite ?Es; try (destruct Et as [Et|Et]; rewrite Et).
  all: try (now destruct (enable_keeps (w32 lim) (o_start (set_pins o)) (w32 (stop - width))) as (K1 & K2 & _); rewrite ?K1, ?K2).
  all: try (now destruct (enable_keeps (w32 lim) (o_stop (set_pins o)) t) as (K1 & K2 & _); rewrite ?K1, ?K2).
  all: reflexivity.
Qed.

Theorem C18_ignition : forall nd lim mf d o adv dwell,
  event_is_unscheduled o = true -> dv_valid d <> 0 -> dv_rpm d <> 0 -> 1 <= dv_tooth_rpm d <= 2 ^ 24 ->
  angle_ok (o_angle o) -> angle_ok adv -> angle_ok (dv_last_angle d) -> angle_ok (dv_offset d) ->
  0 <= dwell <= 2 ^ 24 -> 0 <= mf <= 2 ^ 24 -> lim - 2 ^ 29 <= dv_last_time d <= lim + 2 ^ 29 ->
  exists r o' t, schedule_ignition_event nd (w32 lim) mf d o adv dwell = Ok (r, o') /\
    fires_at (R_ (o_angle o) - R_ adv - R_ (dv_last_angle d) + R_ (dv_offset d)) (dv_tooth_rpm d) t /\
    let stop := dv_last_time d + t in
    if (4 * mf <=? (stop - 4 * dwell - e_time (o_stop o)) mod 2 ^ 32) && (lim <=? stop - 4 * dwell)
    then r = 1 /\ planned_pulse o' o stop (4 * dwell)
    else event_is_unscheduled o' = true.
Proof.
  intros nd lim mf d o adv dwell U Hv Hr Ht A1 A2 A3 A4 Hd Hm Hl.
  destruct (ignition_angle (o_angle o) adv (dv_last_angle d) (dv_offset d) A1 A2 A3 A4) as (g & k & Eg & Vg & Fg & Rg & Kg).
  destruct (time_from_rpm_accuracy (dv_tooth_rpm d) g Ht Vg Fg ltac:(lra)) as (t & Et & Bt & Kt).
  destruct (unscheduled_not_fired o U) as [NF NS].
  unfold schedule_ignition_event. destruct (Z.eqb_spec (dv_rpm d) 0); [lia|]. destruct (Z.eqb_spec (dv_valid d) 0); [lia|]. cbn [orb].
  rewrite Eg. cbn [bind]. rewrite Et. cbn [bind]. rewrite !time_from_us_exact by lia. cbn [bind].
  unfold recycle, moves_too_far. rewrite NF. cbn [bind]. rewrite NS. cbn [andb bind].
  assert (F : fires_at (R_ (o_angle o) - R_ adv - R_ (dv_last_angle d) + R_ (dv_offset d)) (dv_tooth_rpm d) t).
  { exists (R_ g), k. split; auto. split; auto. cbv zeta in *.
    replace (4000000 * 60 / 360 * R_ g / IZR (dv_tooth_rpm d))%R with (2000000 / 3 * R_ g / IZR (dv_tooth_rpm d))%R by (unfold Rdiv; lra).
    replace (2 ^ 22)%R with 4194304%R by lra. exact Kt. }
  set (stop := dv_last_time d + t). unfold time_diff.
  assert (E1 : w32 (w32 stop - 4 * dwell) = w32 (stop - 4 * dwell)) by (unfold w32; apply Zminus_mod_idemp_l).
  rewrite E1.
  assert (E2 : (w32 (w32 (stop - 4 * dwell) - e_time (o_stop o))) = (stop - 4 * dwell - e_time (o_stop o)) mod 2 ^ 32).
  { unfold w32. apply Zminus_mod_idemp_l. }
  rewrite E2.
  destruct (Z.ltb_spec ((stop - 4 * dwell - e_time (o_stop o)) mod 2 ^ 32) (4 * mf)) as [L|L];
    eexists _, _, t; (split; [reflexivity|]); (split; [exact F|]); cbv zeta.
  - destruct (Z.leb_spec (4 * mf) ((dv_last_time d + t - 4 * dwell - e_time (o_stop o)) mod 2 ^ 32)); [unfold stop in L; lia|]. exact U.
  - fold stop. destruct (Z.leb_spec (4 * mf) ((stop - 4 * dwell - e_time (o_stop o)) mod 2 ^ 32)); [|lia]. cbn [andb].
    destruct (whole_pulse lim o stop (4 * dwell) U ltac:(unfold stop; lia) ltac:(lia) ltac:(unfold stop; lia)) as [(Q1 & Q2)|(Q1 & Q2)];
    destruct (Z.leb_spec lim (stop - 4 * dwell)); try lia; auto.
Qed.
Print Assumptions C18_ignition.

Theorem C18_fuel : forall nd lim now d o pw,
  event_is_unscheduled o = true -> dv_valid d <> 0 -> dv_rpm d <> 0 -> 1 <= dv_tooth_rpm d <= 2 ^ 24 ->
  angle_ok (o_angle o) -> angle_ok (dv_last_angle d) -> angle_ok (dv_offset d) ->
  0 <= pw <= 2 ^ 24 -> lim - 2 ^ 29 <= dv_last_time d <= lim + 2 ^ 29 ->
  exists r o' cb t, schedule_fuel_event nd (w32 lim) now d o pw = Ok (r, o', cb) /\
    fires_at (R_ (o_angle o) - R_ (dv_last_angle d) + R_ (dv_offset d)) (dv_tooth_rpm d) t /\
    let stop := dv_last_time d + t in
    if lim <=? stop - 4 * pw then planned_pulse o' o stop (4 * pw) else event_is_unscheduled o' = true.
Proof.
  intros nd lim now d o pw U Hv Hr Ht A1 A3 A4 Hd Hl.
  destruct (fuel_angle (o_angle o) (dv_last_angle d) (dv_offset d) A1 A3 A4) as (g & k & Eg & Vg & Fg & Rg & Kg).
  destruct (time_from_rpm_accuracy (dv_tooth_rpm d) g Ht Vg Fg ltac:(lra)) as (t & Et & Bt & Kt).
  destruct (unscheduled_not_fired o U) as [NF NS].
  unfold schedule_fuel_event. destruct (Z.eqb_spec (dv_rpm d) 0); [lia|]. destruct (Z.eqb_spec (dv_valid d) 0); [lia|]. cbn [orb].
  rewrite Eg. cbn [bind]. rewrite Et. cbn [bind].
  unfold recycle, moves_too_far. rewrite NF. cbn [bind]. rewrite NS. cbn [andb bind].
  assert (F : fires_at (R_ (o_angle o) - R_ (dv_last_angle d) + R_ (dv_offset d)) (dv_tooth_rpm d) t).
  { exists (R_ g), k. split; auto. split; auto. cbv zeta in *.
    replace (4000000 * 60 / 360 * R_ g / IZR (dv_tooth_rpm d))%R with (2000000 / 3 * R_ g / IZR (dv_tooth_rpm d))%R by (unfold Rdiv; lra).
    replace (2 ^ 22)%R with 4194304%R by lra. exact Kt. }
  set (stop := dv_last_time d + t).
  assert (E1 : w32 (w32 stop - w32 (4 * pw)) = w32 (stop - 4 * pw)) by (unfold w32; now rewrite Zminus_mod_idemp_l, Zminus_mod_idemp_r).
  rewrite E1. eexists _, _, _, t. split; [reflexivity|]. split; [exact F|]. cbv zeta. fold stop.
  destruct (whole_pulse lim o stop (4 * pw) U ltac:(unfold stop; lia) ltac:(lia) ltac:(unfold stop; lia)) as [(Q1 & Q2)|(Q1 & Q2)];
    destruct (Z.leb_spec lim (stop - 4 * pw)); try lia; auto.
Qed.
Print Assumptions C18_fuel.

(* The coil of P_Outputs (180 degrees, pin 3) with 30 degrees of advance at 6000 rpm, 60 degrees
   after the last trigger at tick 200000: fires 90 degrees = 10000 ticks later, 2 ms dwell. *)
Definition view1 : dview := DView 1 6000 6000 200000 (f_of_Z 60) f_zero.
Example C18_example : exists o', schedule_ignition_event false 200100 500 view1 coil (f_of_Z 30) 2000 = Ok (1, o') /\
  e_time (o_start o') = 202000 /\ e_time (o_stop o') = 210000 /\ e_state (o_start o') = SCHEDULED /\ e_state (o_stop o') = SCHEDULED.
Proof. eexists. split; [vm_compute; reflexivity|]. repeat split. Qed.

(** ** C19: coil rest and quarter-cycle rule *)
Theorem C19_rest : forall nd E mf d o adv dwell r o', schedule_ignition_event nd E mf d o adv dwell = Ok (r, o') ->
  event_is_unscheduled o = true \/ event_has_fired o = true -> 0 <= mf <= 2 ^ 24 -> e_state (o_start o') = SCHEDULED ->
  forall prev new, e_time (o_stop o) = prev mod 2 ^ 32 -> e_time (o_start o') = new mod 2 ^ 32 -> prev <= new < prev + 2 ^ 32 ->
  4 * mf <= new - prev.
Proof.
  intros nd E mf d o adv dwell r o' H Hs Hm S prev new Ep En Hp. unfold schedule_ignition_event in H.
  assert (NS : e_state (o_start o) <> SCHEDULED /\ e_state (o_stop o) <> SCHEDULED).
  { unfold event_is_unscheduled, event_has_fired in Hs. destruct (e_state (o_start o)), (e_state (o_stop o)); simpl in Hs; intuition congruence. }
  destruct (_ || _); [injection H as _ <-; tauto|].
  destruct (clamp_angle _ _); [|discriminate]. cbn [bind] in H. destruct (time_from_rpm_diff _ _) as [t|]; [|discriminate]. cbn [bind] in H.
  destruct (time_from_us dwell) as [z|]; [|discriminate]. cbn [bind] in H.
  destruct (recycle _ _ _ _) as [r1|] eqn:Er; [|discriminate]. cbn [bind] in H.
  assert (K : r1 = None \/ exists o1, r1 = Some o1 /\ event_is_unscheduled o1 = true /\ e_time (o_stop o1) = e_time (o_stop o)).
  { unfold recycle in Er. destruct Hs as [Hs|Hs].
    - destruct (unscheduled_not_fired o Hs) as [NF _]. rewrite NF in Er. injection Er as <-. eauto.
    - rewrite Hs in Er. destruct (time_from_rpm_diff _ _); [|discriminate]. cbn [bind] in Er. destruct (_ <? _); [injection Er as <-; auto|].
      destruct (reset_fired_event nd o) as [o1|] eqn:R1; [|discriminate]. cbn [bind] in Er. injection Er as <-. right. exists o1. split; auto.
      unfold reset_fired_event in R1. destruct (c_assert nd _); [|discriminate]. cbn [bind] in R1. destruct (c_assert nd _); [|discriminate]. cbn [bind] in R1.
      injection R1 as <-. split; reflexivity. }
  destruct K as [->|(o1 & -> & U1 & T1)]; [injection H as _ <-; tauto|].
  assert (NS1 : e_state (o_start o1) = UNSCHEDULED).
  { unfold event_is_unscheduled in U1. apply andb_true_iff in U1. destruct U1 as [U1 _]. now destruct (e_state (o_start o1)). }
  destruct (moves_too_far _ _ _) as [[]|]; [injection H as _ <-; congruence| |discriminate]. cbn [bind] in H.
  rewrite time_from_us_exact in H by lia. cbn [bind] in H.
  destruct (Z.ltb_spec (time_diff (w32 (w32 (dv_last_time d + t) - z)) (e_time (o_stop o1))) (4 * mf)) as [L|L]; [injection H as _ <-; congruence|].
  injection H as _ <-.
  assert (Es : e_time (o_start (schedule_output_event_safely E o1 (w32 (w32 (dv_last_time d + t) - z)) (w32 (dv_last_time d + t)))) = w32 (w32 (dv_last_time d + t) - z)).
  { unfold schedule_output_event_safely in *.
    destruct (commit_shape E (set_pins o1) (w32 (w32 (dv_last_time d + t) - z)) (w32 (dv_last_time d + t))) as (t' & _ & Es & _).
    rewrite Es in *. revert S. unfold sched_entry_enable. cbn [set_pins with_entries o_start e_state]. rewrite NS1. cbn [sstate_eqb orb].
    destruct (time_before _ E); cbn [snd e_state e_time]; intros; [congruence|reflexivity]. }
  rewrite Es in En. rewrite En in L. unfold time_diff in L. rewrite T1, Ep in L.
  assert (w32 (new mod 2 ^ 32 - prev mod 2 ^ 32) = new - prev).
  { unfold w32. change W with (2 ^ 32). rewrite Zminus_mod_idemp_l, Zminus_mod_idemp_r. apply Z.mod_small. lia. }
  lia.
Qed.
Print Assumptions C19_rest.

(** A fired output is only scheduled again for a turn-off at least a quarter turn later. *)
Theorem C19_quarter_turn : forall nd E mf d o adv dwell r o' t90, schedule_ignition_event nd E mf d o adv dwell = Ok (r, o') ->
  event_has_fired o = true -> o' <> o -> time_from_rpm_diff (dv_rpm d) (f_of_Z 90) = Ok t90 ->
  e_state (o_stop o') = SCHEDULED -> t90 <= time_diff (e_time (o_stop o')) (e_time (o_stop o)).
Proof.
  intros nd E mf d o adv dwell r o' t90 H Hf N T90 S. unfold schedule_ignition_event in H.
  destruct (_ || _); [injection H as _ <-; tauto|].
  destruct (clamp_angle _ _); [|discriminate]. cbn [bind] in H. destruct (time_from_rpm_diff (dv_tooth_rpm d) _) as [t|]; [|discriminate]. cbn [bind] in H.
  destruct (time_from_us dwell) as [z|]; [|discriminate]. cbn [bind] in H.
  unfold recycle in H. rewrite Hf, T90 in H. cbn [bind] in H.
  destruct (Z.ltb_spec (time_diff (w32 (dv_last_time d + t)) (e_time (o_stop o))) t90) as [L|L]; [cbn [bind] in H; injection H as _ <-; tauto|].
  destruct (reset_fired_event nd o) as [o1|] eqn:R1; [|discriminate]. cbn [bind] in H.
  unfold reset_fired_event in R1. destruct (c_assert nd _); [|discriminate]. cbn [bind] in R1. destruct (c_assert nd _); [|discriminate]. cbn [bind] in R1.
  injection R1 as <-.
  destruct (moves_too_far _ _ _) as [[]|]; [injection H as _ <-; simpl in S; discriminate| |discriminate]. cbn [bind] in H.
  destruct (time_from_us mf); [|discriminate]. cbn [bind] in H. destruct (_ <? _); injection H as _ <-; [simpl in S; discriminate|].
  revert S. unfold schedule_output_event_safely, commit_times, sched_entry_enable, event_is_unscheduled, set_pins.
  cbn [with_entries with_state o_start o_stop e_state sstate_eqb orb andb e_time e_pin e_val].
  destruct (time_before _ E); cbn [with_entries o_start o_stop e_state]; [discriminate|].
  destruct (time_before _ E); cbn [with_entries o_start o_stop e_state e_time]; [discriminate|]. intros _. exact L.
Qed.
Print Assumptions C19_quarter_turn.

(** Not so when a pending pulse is rescheduled: the rest time is measured against the pending turn-off
    edge, so a longer dwell moves the turn-on edge to 0.1 ms after the previous spark although
    0.5 ms are configured. *)
Definition fired_coil : output := Output IGNITION_EVENT (f_of_Z 180) 3 false (Entry 180000 3 true FIRED) (Entry 190000 3 false FIRED).
Theorem C19_reschedule_refuted : exists o1 o2,
  schedule_ignition_event true 190100 500 view1 fired_coil (f_of_Z 30) 2000 = Ok (1, o1) /\ e_state (o_start o1) = SCHEDULED /\
  schedule_ignition_event true 190100 500 view1 o1 (f_of_Z 30) 4900 = Ok (1, o2) /\
  e_state (o_start o2) = SCHEDULED /\ e_time (o_start o2) - e_time (o_stop fired_coil) = 400 /\ 400 < 4 * 500.
Proof. eexists _, _. split; [vm_compute; reflexivity|]. split; [reflexivity|]. split; [vm_compute; reflexivity|]. repeat split. Qed.
Print Assumptions C19_reschedule_refuted.
Example C19_example : exists o1, schedule_ignition_event true 190100 500 view1 fired_coil (f_of_Z 30) 2000 = Ok (1, o1) /\
  event_has_fired fired_coil = true /\ e_state (o_stop o1) = SCHEDULED /\ e_time (o_stop o1) = 210000 /\ time_from_rpm_diff 6000 (f_of_Z 90) = Ok 10000.
Proof. eexists. split; [vm_compute; reflexivity|]. repeat split; vm_compute; reflexivity. Qed.

(** ** C20: each planned edge is submitted once, to its own slot, and fires *)
(** The edge [s] of output [i], planned for true time [t] and not touched again, in every later
    state: planned until its block is the next to be filled, then present in exactly its slot of
    the buffer that plays (or will play next) block [t / 128], and fired afterwards. *)
Theorem C20_edge : forall nd n os l0 y l y' i s o t, idle_outputs os -> run nd (start_sys n os) l0 y -> run nd y l y' ->
  forallb (fun a => negb (touches i a)) l = true ->
  nth_error (y_outs y) i = Some o -> e_state (which s o) = SCHEDULED -> e_time (which s o) = t mod 2 ^ 32 ->
  open_from (y_n y) <= t < open_from (y_n y) + 2 ^ 31 ->
  exists o', nth_error (y_outs y') i = Some o' /\ e_time (which s o') = t mod 2 ^ 32 /\
    (y_n y' + 2 <= t / 128 -> e_state (which s o') = SCHEDULED) /\
    (t / 128 = y_n y' + 1 -> e_state (which s o') = SUBMITTED /\
       (o_pin o mod 256 < 16 -> slot_bit (d_next (y_dma y')) (t mod 128) (o_pin o mod 256) (if s then negb (o_inv o) else o_inv o) = true)) /\
    (t / 128 = y_n y' -> e_state (which s o') = SUBMITTED /\
       (o_pin o mod 256 < 16 -> slot_bit (d_cur (y_dma y')) (t mod 128) (o_pin o mod 256) (if s then negb (o_inv o) else o_inv o) = true)) /\
    (t / 128 < y_n y' -> e_state (which s o') = FIRED).
Proof.
  intros nd n os l0 y l y' i s o t [I1 I2] R0 R T Eo Es Et Ht.
  assert (Y : sys_ok y) by (eapply run_ok; eauto; now apply start_ok).
  assert (Y' : sys_ok y') by (eapply run_ok; eauto).
  assert (Ed : e_state (which s o) = due_state (y_n y) t).
  { unfold due_state, open_from in *. destruct (Z.leb_spec (y_n y + 2) (t / 128)); [auto|lia]. }
  destruct (follow nd y l y' i s o t R Y T Eo Et (proj2 Ht) Ed) as (o' & Eo' & Et' & Es' & N & Hp & Hi).
  exists o'. split; auto. split; auto.
  assert (Bits : e_state (which s o') = SUBMITTED -> e_pin (which s o') = o_pin o mod 256 /\ e_val (which s o') = (if s then negb (o_inv o) else o_inv o)).
  { intros S. destruct Y' as [_ F]. pose proof (proj1 (Forall_forall _ _) F o' (nth_error_In _ _ Eo')) as (_ & Q1 & Q2).
    rewrite <- Hp, <- Hi. destruct s; [apply Q1|apply Q2]; auto. }
  destruct Y' as [B F]. destruct (in_entries _ _ _ Eo') as [IN1 IN2].
  assert (IN : In (which s o') (entries (y_outs y'))) by (destruct s; auto).
  assert (PP : 0 <= o_pin o mod 256) by lia.
  split; [|split; [|split]]; intros Hb.
  - rewrite Es'. unfold due_state. destruct (Z.leb_spec (y_n y' + 2) (t / 128)); [auto|lia].
  - assert (S : e_state (which s o') = SUBMITTED) by (rewrite Es'; apply due_submitted; lia).
    split; auto. intros Hq. destruct (Bits S) as [Bp Bv]. apply (bo_bits_next _ _ _ B); try lia.
    exists (which s o'). split; auto. split; auto. split; [|auto]. rewrite Et'. unfold w32. f_equal. lia.
  - assert (S : e_state (which s o') = SUBMITTED) by (rewrite Es'; apply due_submitted; lia).
    split; auto. intros Hq. destruct (Bits S) as [Bp Bv]. apply (bo_bits_cur _ _ _ B); try lia.
    exists (which s o'). split; auto. split; auto. split; [|auto]. rewrite Et'. unfold w32. f_equal. lia.
  - rewrite Es'. unfold due_state. destruct (Z.leb_spec (y_n y' + 2) (t / 128)); [lia|]. destruct (Z.leb_spec (y_n y') (t / 128)); [lia|auto].
Qed.
Print Assumptions C20_edge.

(** Power-on: two swaps of the zeroed buffers, in consecutive blocks and with nothing
    scheduled, lead to the starting state of the histories above. *)
Theorem C20_startup : forall n os now1 now2, Forall fresh os -> now1 / 128 = n - 1 -> now2 / 128 = n ->
  exists d1, stm32_buffer_swap (w32 now1) dma_init os = Ok (d1, os) /\
    stm32_buffer_swap (w32 now2) d1 os = Ok (y_dma (start_sys n os), os).
Proof.
  intros n os now1 now2 F H1 H2.
  assert (ID : forall f b, (forall e, e_state e = UNSCHEDULED -> f b e = Ok (b, e)) -> each_output f b os = Ok (b, os)).
  { intros f b Hf. induction F as [|o os (S1 & S2 & _) F IH]; auto. cbn [each_output]. rewrite !Hf by auto. cbn [bind]. rewrite !Hf by auto. cbn [bind].
    rewrite IH. cbn [bind]. destruct o; reflexivity. }
  assert (SW : forall now m d, now / 128 = m + 1 -> stm32_buffer_swap (w32 now) d os = Ok (Dma (d_next d) (Buffer (w32 (128 * (m + 2))) (b_slots (d_cur d))), os)).
  { intros now m d Hm. unfold stm32_buffer_swap, retire_output_buffer, populate_output_buffer. rewrite ID.
    2:{ intros e He. unfold retire_entry. now rewrite He. }
    cbn [bind]. rewrite ID. 2:{ intros e He. unfold populate_entry. now rewrite He. }
    cbn [bind]. now rewrite (round_block now m Hm). }
  rewrite (SW now1 (n - 2)) by lia. eexists. split; [reflexivity|]. rewrite (SW now2 (n - 1)) by lia. cbn [d_next d_cur dma_init b_slots empty_buffer].
  replace (n - 2 + 2) with n by lia. replace (n - 1 + 2) with (n + 1) by lia. reflexivity.
Qed.
Print Assumptions C20_startup.
Example C20_example : exists y o y', run false y0 [Pins 0; Commit 0 130000 134000] y /\ run false y [Swap 128130; Swap 128300; Swap 128400] y' /\
  nth_error (y_outs y) 0 = Some o /\ e_state (o_start o) = SCHEDULED /\ e_time (o_start o) = 130000 /\ open_from (y_n y) <= 130000 < open_from (y_n y) + 2 ^ 31.
Proof.
  assert (H : exists y o y', run_check false y0 [Pins 0; Commit 0 130000 134000] = Some y /\ run_check false y [Swap 128130; Swap 128300; Swap 128400] = Some y' /\
    nth_error (y_outs y) 0 = Some o /\ e_state (o_start o) = SCHEDULED /\ e_time (o_start o) = 130000 /\ y_n y = 1000).
  { eexists _, _, _. split; [vm_compute; reflexivity|]. split; [vm_compute; reflexivity|]. split; [vm_compute; reflexivity|]. repeat split. }
  destruct H as (y & o & y' & H1 & H2 & H3 & H4 & H5 & H6). exists y, o, y'. rewrite H6. unfold open_from.
  split; [now apply run_check_ok|]. split; [now apply run_check_ok|]. repeat split; auto; lia.
Qed.

(** ** C21: the buffers contain exactly the submitted edges *)
Theorem C21_exact : forall nd n os l y, idle_outputs os -> run nd (start_sys n os) l y ->
  forall j p v, 0 <= j < 128 -> 0 <= p < 16 ->
  (slot_bit (d_cur (y_dma y)) j p v = true <-> exists i o s, nth_error (y_outs y) i = Some o /\ e_state (which s o) = SUBMITTED /\
     e_time (which s o) = (128 * y_n y + j) mod 2 ^ 32 /\ e_pin (which s o) = p /\ e_val (which s o) = v) /\
  (slot_bit (d_next (y_dma y)) j p v = true <-> exists i o s, nth_error (y_outs y) i = Some o /\ e_state (which s o) = SUBMITTED /\
     e_time (which s o) = (128 * (y_n y + 1) + j) mod 2 ^ 32 /\ e_pin (which s o) = p /\ e_val (which s o) = v).
Proof.
  intros nd n os l y [I1 I2] R j p v Hj Hp. assert (Y : sys_ok y) by (eapply run_ok; eauto; now apply start_ok). destruct Y as [B _].
  assert (K : forall t, (exists e, In e (entries (y_outs y)) /\ edge_at t p v e) <-> exists i o s, nth_error (y_outs y) i = Some o /\ e_state (which s o) = SUBMITTED /\
     e_time (which s o) = t mod 2 ^ 32 /\ e_pin (which s o) = p /\ e_val (which s o) = v).
  { intros t. split.
    - intros (e & I & A). apply in_flat_map in I. destruct I as (o & Io & Ie). apply In_nth_error in Io. destruct Io as [i Ei].
      exists i, o. simpl in Ie. destruct Ie as [<-|[<-|[]]]; [exists true|exists false]; auto.
    - intros (i & o & s & Eo & A). exists (which s o). split; [|exact A]. destruct (in_entries _ _ _ Eo). destruct s; auto. }
  rewrite (bo_bits_cur _ _ _ B j p v Hj Hp), (bo_bits_next _ _ _ B j p v Hj Hp), !K. tauto.
Qed.
Print Assumptions C21_exact.

(** A swap with nothing scheduled or submitted moves the buffers round and changes no slot. *)
Definition idle_entry (e : entry) : Prop := e_state e = UNSCHEDULED \/ e_state e = FIRED.
Definition all_idle (os : list output) : Prop := Forall (fun o => idle_entry (o_start o) /\ idle_entry (o_stop o)) os.
Lemma idle_swap now d os : all_idle os -> exists f, stm32_buffer_swap now d os = Ok (Dma (d_next d) (Buffer f (b_slots (d_cur d))), os).
Proof.
  intros F. assert (ID : forall f b, (forall e, idle_entry e -> f b e = Ok (b, e)) -> each_output f b os = Ok (b, os)).
  { intros f b Hf. induction F as [|o os (S1 & S2) F IH]; auto. cbn [each_output]. rewrite !Hf by auto. cbn [bind]. rewrite !Hf by auto. cbn [bind].
    rewrite IH. cbn [bind]. destruct o; reflexivity. }
  unfold stm32_buffer_swap, retire_output_buffer, populate_output_buffer. rewrite ID.
  2:{ intros e He. unfold retire_entry. now destruct He as [-> | ->]. }
  cbn [bind]. rewrite ID. 2:{ intros e He. unfold populate_entry. now destruct He as [-> | ->]. }
  cbn [bind]. eauto.
Qed.

(** Reconfiguring the pin of an output whose edge is submitted (console "set", then the next scheduling
    attempt) leaves the old pin's bits in the buffer for good: they are played on every lap,
    every 64 microseconds, although no output is active. *)
Definition repin (y : sys) (i : nat) (pin : Z) : sys :=
  Sys (y_n y) (y_dma y) (match nth_error (y_outs y) i with
                         | Some o => upd_nat (y_outs y) i (Output (o_type o) (o_angle o) pin (o_inv o) (o_start o) (o_stop o))
                         | None => y_outs y end).
Definition ghost_y : option sys :=
  match run_check true y0 [Pins 0; Commit 0 128256 128257; Swap 128130] with
  | Some y => run_check true (repin y 0 7) [Pins 0; Swap 128300; Swap 128400; Swap 128600]
  | None => None
  end.
Theorem C21_reconfigure_refuted : exists y, ghost_y = Some y /\ all_idle (y_outs y) /\
  forall k nows, length nows = k -> exists d, fold_left (fun r now => ' (d, os) <- r ;; stm32_buffer_swap now d os) nows (Ok (y_dma y, y_outs y)) = Ok (d, y_outs y) /\
    (slot_bit (d_cur d) 0 3 true = true \/ slot_bit (d_next d) 0 3 true = true).
Proof.
  assert (H : exists y, ghost_y = Some y /\ forallb (fun o => (sstate_eqb (e_state (o_start o)) UNSCHEDULED || sstate_eqb (e_state (o_start o)) FIRED) && (sstate_eqb (e_state (o_stop o)) UNSCHEDULED || sstate_eqb (e_state (o_stop o)) FIRED)) (y_outs y) = true /\
    slot_bit (d_cur (y_dma y)) 0 3 true || slot_bit (d_next (y_dma y)) 0 3 true = true).
  { eexists. split; [vm_compute; reflexivity|]. split; vm_compute; reflexivity. }
  destruct H as (y & H1 & H2 & H3). exists y. split; auto.
  assert (I : all_idle (y_outs y)).
  { apply Forall_forall. intros o Io. rewrite forallb_forall in H2. specialize (H2 o Io). unfold idle_entry.
    destruct (e_state (o_start o)), (e_state (o_stop o)); simpl in H2; try discriminate; auto. }
  split; auto. apply orb_true_iff in H3. intros k nows _. revert H3. generalize (y_dma y) as d. 
  induction nows as [|now nows IH]; intros d H3; [exists d; auto|].
  destruct (idle_swap now d (y_outs y) I) as [f E]. cbn [fold_left bind]. rewrite E. apply IH.
  cbn [d_cur d_next]. destruct H3; auto.
Qed.
Print Assumptions C21_reconfigure_refuted.

(** Pins 16-31 are silently lost (16-bit masks); pins 32 and up are undefined behaviour (shift). *)
Theorem C21_high_pins_refuted : forall slots i pin v s, get slots i = Ok s -> 0 <= s_on s < 65536 -> 0 <= s_off s < 65536 ->
  (16 <= pin < 32 -> slot_set slots i pin v = put slots i s) /\ (32 <= pin -> slot_set slots i pin v = Err ShiftTooWide).
Proof.
  intros slots i pin v s G B1 B2. unfold slot_set, shl1. rewrite G. cbn [bind]. split; intros Hp.
  - destruct (Z.ltb_spec pin 32); [|lia]. cbn [bind].
    assert (K : forall x, 0 <= x < 65536 -> Z.lor x (2 ^ pin) mod 65536 = x).
    { intros x Hx. apply Z.bits_inj'. intros b Hb. change 65536 with (2 ^ 16) in *.
      destruct (Z.lt_ge_cases b 16).
      - rewrite Z.mod_pow2_bits_low by lia. rewrite Z.lor_spec, Z.pow2_bits_eqb by lia. destruct (Z.eqb_spec pin b); [lia|]. apply orb_false_r.
      - rewrite Z.mod_pow2_bits_high by lia. symmetry. destruct (Z.eq_dec x 0) as [->|]; [apply Z.testbit_0_l|].
        apply Z.bits_above_log2; [lia|]. assert (Z.log2 x < 16) by (apply Z.log2_lt_pow2; lia). lia. }
    rewrite !K by auto. destruct s, v; reflexivity.
  - destruct (Z.ltb_spec pin 32); [lia|]. reflexivity.
Qed.
Print Assumptions C21_high_pins_refuted.

(** ** C57: the waveform on the pin *)
(** In any history, once a pulse of output [i] is planned for [ton, toff) and nobody reschedules
    or cancels it, and no other output uses its pin, the pin is at its active level exactly at
    the ticks in [ton, toff) - for every later tick, whatever happens to other outputs. *)
Theorem C57_waveform : forall nd n os l0 y l y' i o ton toff, idle_outputs os -> run nd (start_sys n os) l0 y -> run nd y l y' ->
  nth_error (y_outs y) i = Some o -> o_pin o mod 256 < 16 -> (forall m x, nth_error (y_outs y) m = Some x -> o_pin x mod 256 = o_pin o mod 256 -> m = i) ->
  e_state (o_start o) = SCHEDULED -> e_time (o_start o) = ton mod 2 ^ 32 ->
  e_state (o_stop o) = SCHEDULED -> e_time (o_stop o) = toff mod 2 ^ 32 ->
  open_from (y_n y) <= ton -> ton < toff -> toff < open_from (y_n y) + 2 ^ 31 ->
  forallb (fun a => negb (touches i a)) l = true ->
  forall T, 128 * y_n y <= T < 128 * y_n y' ->
  level (o_pin o mod 256) (o_inv o) (played nd y l) (Z.to_nat (T + 1 - 128 * y_n y)) =
    if (ton <=? T) && (T <? toff) then negb (o_inv o) else o_inv o.
Proof.
  intros nd n os l0 y l y' i o ton toff [I1 I2] R0 R Eo Hp Al S1 T1 S2 T2 B1 B2 B3 Tl T HT.
  assert (Y : sys_ok y) by (eapply run_ok; eauto; now apply start_ok).
  assert (A : alone (o_pin o mod 256) i (y_outs y)).
  { intros m x Em. split; [intros H; eapply Al; eauto|]. intros ->. congruence. }
  assert (Ds : forall t, open_from (y_n y) <= t -> due_state (y_n y) t = SCHEDULED).
  { intros t H. unfold due_state, open_from in *. destruct (Z.leb_spec (y_n y + 2) (t / 128)); [auto|lia]. }
  assert (Pl : planned i ton toff (o_inv o) y).
  { exists o. rewrite !Ds by lia. repeat split; auto; lia. }
  destruct (played_bits nd y l y' R i (o_pin o mod 256) ton toff (o_inv o) Y ltac:(lia) A Pl Tl) as [Len Bits].
  unfold level. rewrite (fold_pulse _ (o_inv o) ton toff _ (128 * y_n y)); auto.
  - cbv zeta. rewrite firstn_length_le by lia.
    replace (128 * y_n y - 1 + Z.of_nat (Z.to_nat (T + 1 - 128 * y_n y))) with T by lia. reflexivity.
  - intros k s Hk. apply nth_firstn in Hk. now apply Bits.
  - unfold open_from in B1. destruct (Z.leb_spec ton (128 * y_n y - 1)); [lia|]. reflexivity.
Qed.
Print Assumptions C57_waveform.
Example C57_example : forall nd, exists y o y', run nd y0 [Pins 0; Commit 0 128300 128420] y /\ run nd y [Swap 128130; Pins 1; Commit 1 128500 128600; Swap 128300; Swap 128400; Swap 128600] y' /\
  nth_error (y_outs y) 0 = Some o /\ e_state (o_start o) = SCHEDULED /\ e_time (o_start o) = 128300 /\ e_state (o_stop o) = SCHEDULED /\ e_time (o_stop o) = 128420 /\
  y_n y = 1000 /\ y_n y' = 1004 /\ forallb (fun a => negb (touches 0 a)) [Swap 128130; Pins 1; Commit 1 128500 128600; Swap 128300; Swap 128400; Swap 128600] = true.
Proof.
  intros nd. assert (H : exists y o y', run_check nd y0 [Pins 0; Commit 0 128300 128420] = Some y /\ run_check nd y [Swap 128130; Pins 1; Commit 1 128500 128600; Swap 128300; Swap 128400; Swap 128600] = Some y' /\
    nth_error (y_outs y) 0 = Some o /\ e_state (o_start o) = SCHEDULED /\ e_time (o_start o) = 128300 /\ e_state (o_stop o) = SCHEDULED /\ e_time (o_stop o) = 128420 /\ y_n y = 1000 /\ y_n y' = 1004).
  { destruct nd; (eexists _, _, _; split; [vm_compute; reflexivity|]; split; [vm_compute; reflexivity|]; split; [vm_compute; reflexivity|]; repeat split). }
  destruct H as (y & o & y' & H1 & H2 & H). exists y, o, y'. split; [now apply run_check_ok|]. split; [now apply run_check_ok|].
  destruct H as (? & ? & ? & ? & ? & ? & ?). repeat split; auto.
Qed.

(** ** C56: a pulse of zero width *)
(** A zero-width pulse on a non-inverted output is not harmless: the set bit wins over the clear
    bit in the same slot, and the output stays on for as long as it is not scheduled again. *)
Theorem C56_zero_width_refuted : forall nd n os l0 y l y' i o ton, idle_outputs os -> run nd (start_sys n os) l0 y -> run nd y l y' ->
  nth_error (y_outs y) i = Some o -> o_inv o = false -> o_pin o mod 256 < 16 ->
  (forall m x, nth_error (y_outs y) m = Some x -> o_pin x mod 256 = o_pin o mod 256 -> m = i) ->
  e_state (o_start o) = SCHEDULED -> e_time (o_start o) = ton mod 2 ^ 32 ->
  e_state (o_stop o) = SCHEDULED -> e_time (o_stop o) = ton mod 2 ^ 32 ->
  open_from (y_n y) <= ton < open_from (y_n y) + 2 ^ 31 ->
  forallb (fun a => negb (touches i a)) l = true ->
  forall T, 128 * y_n y <= T < 128 * y_n y' ->
  level (o_pin o mod 256) false (played nd y l) (Z.to_nat (T + 1 - 128 * y_n y)) = (ton <=? T).
Proof.
  intros nd n os l0 y l y' i o ton [I1 I2] R0 R Eo Hi Hp Al S1 T1 S2 T2 B1 Tl T HT.
  assert (Y : sys_ok y) by (eapply run_ok; eauto; now apply start_ok).
  assert (A : alone (o_pin o mod 256) i (y_outs y)).
  { intros m x Em. split; [intros H; eapply Al; eauto|]. intros ->. congruence. }
  assert (Ds : forall t, open_from (y_n y) <= t -> due_state (y_n y) t = SCHEDULED).
  { intros t H. unfold due_state, open_from in *. destruct (Z.leb_spec (y_n y + 2) (t / 128)); [auto|lia]. }
  assert (Pl : planned i ton ton false y).
  { exists o. rewrite !Ds by lia. repeat split; auto; lia. }
  destruct (played_bits nd y l y' R i (o_pin o mod 256) ton ton false Y ltac:(lia) A Pl Tl) as [Len Bits].
  unfold level. rewrite (fold_zero _ ton _ (128 * y_n y)); auto.
  - rewrite firstn_length_le by lia. f_equal. lia.
  - intros k s Hk. apply nth_firstn in Hk. now apply Bits.
  - unfold open_from in B1. destruct (Z.leb_spec ton (128 * y_n y - 1)); [lia|]. reflexivity.
Qed.
Print Assumptions C56_zero_width_refuted.
(* Zero dwell does schedule such a pulse. *)
Example C56_example : exists o', schedule_ignition_event true 200100 500 view1 coil (f_of_Z 30) 0 = Ok (1, o') /\
  e_state (o_start o') = SCHEDULED /\ e_state (o_stop o') = SCHEDULED /\ e_time (o_start o') = 210000 /\ e_time (o_stop o') = 210000.
Proof. eexists. split; [vm_compute; reflexivity|]. repeat split. Qed.
