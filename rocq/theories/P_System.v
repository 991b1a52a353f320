(** Properties C11, C29, C32 and C54 of whole-firmware executions (System.v). *)
Require Import ZArith List Bool Lia.
From Verif Require Import Res Word F32 Arr Outputs Buffers Callbacks CallbackSafe Decoder DecoderProofs DecoderRun Calc DefaultConfig System SystemProofs SystemRun P_Decoder.
Import ListNotations.
Open Scope Z_scope.
Ltac Zify.zify_post_hook ::= idtac.

(** A turn-on edge that has been planned and not been handed to the output hardware yet. *)
Definition start_waiting (o : output) : Prop := e_state (o_start o) = SCHEDULED.

(** ** C54 *)
(** Whatever happens (any triggers, timer interrupts, lost captures, swaps anywhere, sensor values,
    console changes, test trigger, shutdown; any configuration): while the position is not valid no
    turn-on edge is waiting. *)
Theorem C54_no_start_without_position : forall env nd w, freach env nd w -> dd_valid (w_dec w) = 0 ->
  forall o, In o (w_outs w) -> ~ start_waiting o.
Proof. intros env nd w R Z. exact (fi_calm _ (freach_finv _ _ _ R) Z). Qed.
Print Assumptions C54_no_start_without_position.

(** Swap interrupts only hand on what is waiting: nothing newly starts while the position is unknown. *)
Theorem C54_nothing_submitted : forall env nd w now d os i o o', freach env nd w -> dd_valid (w_dec w) = 0 ->
  stm32_buffer_swap now (w_dma w) (w_outs w) = Ok (d, os) -> nth_error (w_outs w) i = Some o -> nth_error os i = Some o' ->
  e_state (o_start o') = SUBMITTED -> e_state (o_start o) = SUBMITTED.
Proof.
  intros env nd w now d os i o o' R Z H Eo Eo' S. pose proof (fi_calm _ (freach_finv _ _ _ R) Z) as C.
  assert (NW : e_state (o_start o) <> SCHEDULED) by (apply C; now apply nth_error_In in Eo).
  assert (K : forall f b os b' os', (forall b e b' e', f b e = Ok (b', e') -> e_state e <> SCHEDULED -> e_state e' <> SCHEDULED /\ (e_state e' = SUBMITTED -> e_state e = SUBMITTED)) ->
     each_output f b os = Ok (b', os') -> forall i o', nth_error os' i = Some o' -> exists o, nth_error os i = Some o /\
       (e_state (o_start o) <> SCHEDULED -> e_state (o_start o') <> SCHEDULED /\ (e_state (o_start o') = SUBMITTED -> e_state (o_start o) = SUBMITTED))).
  { clear. intros f b os. revert b. induction os as [|o os IH]; intros b b' os' F H i o' E; cbn [each_output] in H.
    - injection H as _ <-. destruct i; discriminate.
    - apply bind_ok in H. destruct H as ([b1 s] & E1 & H). apply bind_ok in H. destruct H as ([b2 t] & E2 & H).
      apply bind_ok in H. destruct H as ([b3 r] & E3 & H). injection H as _ <-. destruct i as [|i]; [|apply (IH _ _ _ F E3 i o' E)].
      injection E as <-. exists o. split; auto. intros N. exact (F _ _ _ _ E1 N). }
  unfold stm32_buffer_swap in H. apply bind_ok in H. destruct H as ([b1 o1] & E1 & H). apply bind_ok in H. destruct H as ([b2 o2] & E2 & H). injection H as _ <-.
  assert (F2 : forall b e b' e', populate_entry b e = Ok (b', e') -> e_state e <> SCHEDULED -> e_state e' <> SCHEDULED /\ (e_state e' = SUBMITTED -> e_state e = SUBMITTED)).
  { clear. intros b e b' e' H N. unfold populate_entry in H. destruct (e_state e) eqn:Se; try (exfalso; congruence); simpl in H; injection H as _ <-; rewrite Se; split; auto. }
  assert (F1 : forall b e b' e', retire_entry b e = Ok (b', e') -> e_state e <> SCHEDULED -> e_state e' <> SCHEDULED /\ (e_state e' = SUBMITTED -> e_state e = SUBMITTED)).
  { clear. intros b e b' e' H N. unfold retire_entry in H. destruct (sstate_eqb (e_state e) SUBMITTED && _) eqn:C.
    - apply bind_ok in H. destruct H as (? & _ & H). injection H as _ <-. simpl. split; discriminate.
    - injection H as _ <-. auto. }
  destruct (K _ _ _ _ _ F2 E2 _ _ Eo') as (x & Ex & Px).
  destruct (K _ _ _ _ _ F1 E1 _ _ Ex) as (y & Ey & Py).
  rewrite Eo in Ey. injection Ey as <-. destruct (Py NW) as [N1 P1]. destruct (Px N1) as [_ P2]. auto.
Qed.
Print Assumptions C54_nothing_submitted.

(* Example: 12 even teeth with cam; at the cam pulse both outputs get pulses, a lost capture removes both. *)
Definition idle_entry : entry := Entry 0 0 false UNSCHEDULED.
Definition off_output : output := Output DISABLED_EVENT f_zero 0 false idle_entry idle_entry.
Definition ex_outs : list output :=
  [Output IGNITION_EVENT (f_of_Z 90) 0 false idle_entry idle_entry; Output FUEL_EVENT (f_of_Z 500) 8 false idle_entry idle_entry] ++ repeat off_output 14.
Definition ex_sensors (map : Z) : sens := Sens (f_of_Z map) (f_of_Z 20) (f_of_Z 80) (f_of_Z 14) (f_of_Z 20) (f_of_Z 0) (f_of_Z 20) (f_of_Z 1).
Definition ex_env (k : nat) : Z * list Z := (310000, []).
Definition ex_fw : fw := fw_init (wheel12 EVEN_CAMSYNC) default_calc (ex_sensors 50) ex_outs.
Definition ex_start : list fev := map (fun e => match e with Trigger n t => FTrigger n t | _ => FIdle end) even_start.
Definition states (w : fw) : Z * list (sstate * sstate) := (dd_valid (w_dec w), map (fun o => (e_state (o_start o), e_state (o_stop o))) (firstn 2 (w_outs w))).
Definition shows (l : list fev) (r : Z * list (sstate * sstate)) : Prop := exists w, frun ex_env false ex_fw l = Ok w /\ states w = r.

Lemma frun_freach env nd l : (forall w e, In e l -> gentle w e) -> forall w w', freach env nd w -> frun env nd w l = Ok w' -> freach env nd w'.
Proof.
  induction l as [|e l IH]; intros G w w' R H; cbn [frun] in H; [injection H as <-; auto|].
  apply bind_ok in H. destruct H as (w1 & E & H). apply (IH (fun w e I => G w e (or_intror I)) w1); auto.
  eapply freach_step; eauto. apply G. now left.
Qed.
Lemma ex_reach l w : (forall w e, In e l -> gentle w e) -> frun ex_env false ex_fw l = Ok w -> freach ex_env false w.
Proof.
  intros G H. eapply frun_freach; eauto. apply freach_init; [reflexivity|].
  intros o I. simpl in I. repeat (destruct I as [<-|I]; [reflexivity|]). destruct I.
Qed.

Example C54_example : shows ex_start (1, [(SCHEDULED, SCHEDULED); (SCHEDULED, SCHEDULED)]) /\
  shows (ex_start ++ [FOverflow]) (0, [(UNSCHEDULED, UNSCHEDULED); (UNSCHEDULED, UNSCHEDULED)]).
Proof. split; (eexists; split; [vm_compute; reflexivity|reflexivity]). Qed.
Example C54_reachable : exists w, freach ex_env false w /\ states w = (1, [(SCHEDULED, SCHEDULED); (SCHEDULED, SCHEDULED)]).
Proof.
  destruct (proj1 C54_example) as (w & H & S). exists w. split; auto. apply (ex_reach ex_start); auto.
  intros w0 e I. unfold ex_start in I. apply in_map_iff in I. destruct I as (x & <- & _). destruct x; exact Logic.I.
Qed.

(** The condition on the console is needed: an output that is switched off while its pulse is waiting keeps
    the pulse when the position is lost (src/scheduler.c 84-94 skips disabled outputs), and the next swap
    hands it to the hardware. *)
Theorem C54_disabled_output_refuted : exists w o, frun ex_env false ex_fw (ex_start ++ [FOutputConfig 1 DISABLED_EVENT (f_of_Z 500) 8 false; FOverflow]) = Ok w /\
  dd_valid (w_dec w) = 0 /\ nth_error (w_outs w) 1 = Some o /\ start_waiting o /\
  exists d os o', stm32_buffer_swap 324900 (w_dma w) (w_outs w) = Ok (d, os) /\ nth_error os 1 = Some o' /\ e_state (o_start o') = SUBMITTED.
Proof.
  do 2 eexists. split; [vm_compute; reflexivity|]. split; [reflexivity|]. split; [reflexivity|]. split; [reflexivity|].
  do 3 eexists. split; [vm_compute; reflexivity|]. split; reflexivity.
Qed.
Print Assumptions C54_disabled_output_refuted.

(** ** C32 *)
(** The three reasons to cut, from the engine speed, the settings, the sensors, the limiter's previous state
    ([was], see C31) and the commanded pulse [us]. *)
Definition rev_limited (k : ccfg) (rpm was : Z) : Prop := k_rpm_start k <= rpm /\ (k_rpm_stop k <= rpm \/ was <> 0).
Definition over_boost (k : ccfg) (s : sens) : Prop := fgt (s_map s) (k_overboost k) = true.
Definition over_duty (k : ccfg) (rpm us : Z) : Prop := exists cycle pulse,
  time_from_rpm_diff rpm (f_of_Z 720) = Ok cycle /\ time_from_us us = Ok pulse /\ fu_inj (k_fuel k) <> 0 /\ cycle / fu_inj (k_fuel k) <= pulse.
Definition must_cut (k : ccfg) (rpm was : Z) (s : sens) (us : Z) : Prop := rev_limited k rpm was \/ over_boost k s \/ over_duty k rpm us.

Lemma cut_again k rpm s v b v' : must_cut k rpm (cv_rpm_cut v) s (cv_fueling v) -> ignition_cut k rpm s v = Ok (b, v') ->
  b = true /\ must_cut k rpm (cv_rpm_cut v') s (cv_fueling v').
Proof.
  unfold ignition_cut, rpm_cut. intros M H.
  set (c := if rpm <? k_rpm_start k then 0 else if k_rpm_stop k <=? rpm then 1 else cv_rpm_cut v) in *.
  assert (Rc : rev_limited k rpm (cv_rpm_cut v) -> rev_limited k rpm c /\ c <> 0).
  { intros [R1 R2]. unfold rev_limited, c. destruct (Z.ltb_spec rpm (k_rpm_start k)); [lia|]. destruct (Z.leb_spec (k_rpm_stop k) rpm).
    - split; [split; auto; right|]; discriminate.
    - destruct R2 as [R2|R2]; [lia|]. auto. }
  destruct (Z.eqb_spec c 0) as [C|C]; cbn [negb] in H.
  - assert (M' : over_boost k s \/ over_duty k rpm (cv_fueling v)).
    { destruct M as [M|M]; auto. destruct (Rc M). congruence. }
    apply bind_ok in H. destruct H as ([o v1] & E & H). unfold fuel_overduty in E. apply bind_ok in E. destruct E as (cyc & E1 & E).
    apply bind_ok in E. destruct E as (mx & E2 & E). apply bind_ok in E. destruct E as (pw & E3 & E). injection E as <- <-.
    cbn [set_cuts cv_fueling cv_rpm_cut] in *.
    assert (F : must_cut k rpm c s (cv_fueling v)) by (unfold must_cut; tauto).
    destruct (Z.leb_spec mx pw) as [Le|Lt].
    + injection H as <- <-. cbn [set_cuts cv_fueling cv_rpm_cut]. auto.
    + unfold boost_cut in H. injection H as <- <-. cbn [set_cuts cv_fueling cv_rpm_cut]. split; auto.
      destruct M' as [M'|(cyc' & pw' & D1 & D2 & D3 & D4)]; auto. exfalso. rewrite E1 in D1. injection D1 as <-. rewrite E3 in D2. injection D2 as <-.
      destruct (fu_inj (k_fuel k) =? 0); [discriminate|]. injection E2 as <-. lia.
  - injection H as <- <-. cbn [set_cuts cv_fueling cv_rpm_cut]. split; auto. unfold must_cut.
    destruct M as [M|M]; [left; apply Rc; auto|auto].
Qed.

Lemma fueling_keeps_cut nd k now rpm s v c v' c' : calculate_fueling nd k now rpm s v c = Ok (v', c') -> cv_rpm_cut v' = cv_rpm_cut v.
Proof.
  unfold calculate_fueling. cbv zeta. intros H. do 4 (apply bind_ok in H; destruct H as (? & _ & H)).
  apply bind_ok in H. destruct H as ([tip c1] & _ & H). do 2 (apply bind_ok in H; destruct H as (? & _ & H)). injection H as <- _. reflexivity.
Qed.

Lemma cut_schedule_from env nd n : forall i w w', schedule_from env nd n i w = Ok w' -> finv w -> 0 <= i ->
  must_cut (w_cc w) (dd_rpm (w_dec w)) (cv_rpm_cut (w_vals w)) (w_sens w) (cv_fueling (w_vals w)) ->
  calm (w_outs w) \/ (forall j o, Z.of_nat j < i -> nth_error (w_outs w) j = Some o -> o_type o = DISABLED_EVENT) ->
  calm (w_outs w') \/ (forall j o, Z.of_nat j < i + Z.of_nat n -> nth_error (w_outs w') j = Some o -> o_type o = DISABLED_EVENT).
Proof.
  induction n as [|n IH]; intros i w w' H I Hi M K; cbn [schedule_from] in H.
  - injection H as <-. destruct K as [K|K]; auto. right. intros j o Hj. apply K. lia.
  - apply bind_ok in H. destruct H as (w1 & E & H). pose proof (schedule_event_finv _ _ _ _ _ E I) as I1.
    destruct (schedule_event_frame _ _ _ _ _ E I) as ((S1 & S2 & S3 & S4 & _) & V & _).
    replace (i + Z.of_nat (S n)) with (i + 1 + Z.of_nat n) by lia.
    destruct (schedule_event_spec _ _ _ _ _ E) as (o & G & (_ & L & _) & T).
    assert (M1 : must_cut (w_cc w1) (dd_rpm (w_dec w1)) (cv_rpm_cut (w_vals w1)) (w_sens w1) (cv_fueling (w_vals w1)) /\
                 (calm (w_outs w1) \/ (forall j o, Z.of_nat j < i + 1 -> nth_error (w_outs w1) j = Some o -> o_type o = DISABLED_EVENT))).
    { destruct (o_type o) eqn:Ty.
      - subst w1. split; auto. destruct K as [K|K]; auto. right. intros j p Hj Ep. destruct (Z.eq_dec (Z.of_nat j) i) as [<-|]; [|apply (K j); auto; lia].
        apply get_ok in G. rewrite Nat2Z.id in G. destruct G. congruence.
      - destruct T as (cut & v & C & Ev & T). destruct (cut_again _ _ _ _ _ _ M C) as [-> M']. rewrite S2, S3, S4, Ev. split; auto. left.
        cbn [orb] in T. apply (cancel_calm env nd _ _ T); [apply (fi_len _ I)|apply (fi_tame _ I)].
      - destruct T as (cut & v & C & Ev & T). destruct (cut_again _ _ _ _ _ _ M C) as [-> M']. rewrite S2, S3, S4, Ev. split; auto. left.
        cbn [orb] in T. apply (cancel_calm env nd _ _ T); [apply (fi_len _ I)|apply (fi_tame _ I)]. }
    destruct M1 as [M1 K1]. apply (IH (i + 1) w1 w'); auto. lia.
Qed.

(** When a trigger has been processed and the position is invalid, the revs are limited, or the boost or the
    injector duty is too high - for the speed and pulse computed at that trigger - no turn-on edge is waiting. *)
Theorem C32_cut : forall env nd w n t w', freach env nd w -> fstep env nd w (FTrigger n t) = Ok w' ->
  dd_valid (w_dec w') = 0 \/ must_cut (w_cc w) (dd_rpm (w_dec w')) (cv_rpm_cut (w_vals w)) (w_sens w) (cv_fueling (w_vals w')) ->
  forall o, In o (w_outs w') -> ~ start_waiting o.
Proof.
  intros env nd w n t w' R H C. pose proof (freach_finv _ _ _ R) as I. cbn [fstep] in H.
  destruct (trigger_finv _ _ _ _ _ _ H I) as (I' & _). destruct C as [C|M]; [exact (fi_calm _ I' C)|].
  destruct (Z.eq_dec (dd_valid (w_dec w')) 0) as [Z|Nz]; [exact (fi_calm _ I' Z)|].
  unfold decoder_update_scheduling in H. apply bind_ok in H. destruct H as ([d fx] & E & H). apply bind_ok in H. destruct H as (w1 & E1 & H).
  destruct (dd_valid (w_dec w1) =? 0) eqn:Ev; [injection H as <-; apply Z.eqb_eq in Ev; congruence|].
  destruct (effects_spec env nd fx (set_dec w d) w1 E1 (fi_len _ I) (fi_tame _ I) (fi_cbs _ I)) as ((S1 & S2 & S3 & S4 & S5 & S6 & S7) & L & V & K & ids & Cw & P).
  apply bind_ok in H. destruct H as (v & Ei & H). apply bind_ok in H. destruct H as ([now w2] & E2 & H). apply bind_ok in H. destruct H as ([v2 c2] & Ef & H).
  apply point_quiet in E2. destruct E2 as ((R1 & R2 & R3 & R4 & R5 & R6 & R7) & L2 & V2 & C2).
  assert (Cut : cv_rpm_cut v2 = cv_rpm_cut (w_vals w)).
  { unfold calculate_ignition in Ei. apply bind_ok in Ei. destruct Ei as (? & _ & Ei). apply bind_ok in Ei. destruct Ei as (? & _ & Ei). apply bind_ok in Ei. destruct Ei as (? & _ & Ei).
    injection Ei as <-. apply fueling_keeps_cut in Ef. rewrite Ef. simpl in V. simpl. now rewrite V. }
  assert (L12 : leq nobody (w_outs w) (w_outs w2)) by (eapply leq_trans; [exact L|exact L2]).
  assert (Lw : length (w_outs w2) = MAX_EVENTS) by (destruct L12 as [L0 _]; rewrite L0; apply (fi_len _ I)).
  assert (Tw : tame (w_outs w2)) by (apply (leq_tame nobody (w_outs w)); [intros j o []|exact L12|apply (fi_tame _ I)]).
  assert (I3 : finv (set_vals w2 v2 c2)).
  { constructor; simpl; auto.
    - rewrite R2, S2. simpl. change (dstep (w_dc w) (w_dec w) (Trigger n t) = Ok (d, fx)) in E. eapply dstep_vinv; [apply (fi_dec _ I)|exact E].
    - rewrite R2. intros Z. rewrite Z in Ev. discriminate.
    - exists ids. rewrite C2. exact Cw. }
  destruct (schedule_from_finv _ _ _ _ _ _ H I3) as (_ & (T1 & T2 & T3 & T4 & T5 & T6 & T7) & (a & b & c & Vc) & _).
  simpl in T1, T2, T3, T4, Vc, S3, S4.
  destruct (cut_schedule_from env nd _ 0 _ _ H I3 ltac:(lia)) as [K1|K1].
  - simpl. rewrite R3, S3, R4, S4. rewrite Vc in M. simpl in M. rewrite Cut. rewrite T2 in M. exact M.
  - right. intros j o Hj. lia.
  - exact K1.
  - intros o Io W. pose proof Io as Io'. apply In_nth_error in Io. destruct Io as [j Ej]. apply (fi_tame _ I' o Io'); auto. apply (K1 j o); auto.
    assert (j < length (w_outs w'))%nat by (apply nth_error_Some; congruence). rewrite (fi_len _ I') in H0. unfold MAX_EVENTS in *. lia.
Qed.
Print Assumptions C32_cut.

(** The same when a fuel output is rescheduled by its timer callback. *)
Theorem C32_callback : forall env nd w i o w', freach env nd w -> schedule_event env nd w i = Ok w' -> get (w_outs w) i = Ok o -> o_type o <> DISABLED_EVENT ->
  dd_valid (w_dec w) = 0 \/ must_cut (w_cc w) (dd_rpm (w_dec w)) (cv_rpm_cut (w_vals w)) (w_sens w) (cv_fueling (w_vals w)) ->
  forall o, In o (w_outs w') -> ~ start_waiting o.
Proof.
  intros env nd w i o w' R H G Ty C. pose proof (freach_finv _ _ _ R) as I.
  destruct (schedule_event_spec _ _ _ _ _ H) as (o1 & G1 & _ & T). rewrite G in G1. injection G1 as <-.
  assert (K : exists v, cancel_outputs env nd (set_vals w v (w_tip w)) = Ok w').
  { destruct (o_type o); [congruence| |]; destruct T as (cut & v & Cc & Ev & T); exists v;
      (destruct C as [C|C]; [rewrite C, orb_true_r in T; exact T|destruct (cut_again _ _ _ _ _ _ C Cc) as [-> _]; exact T]). }
  destruct K as (v & K). apply (cancel_calm env nd _ _ K); [apply (fi_len _ I)|apply (fi_tame _ I)].
Qed.
Print Assumptions C32_callback.

(* Example: the same trigger sequence with the manifold pressure above 260 kPa at the last trigger plans nothing;
   and a pulse waiting when the limit is lowered below the speed is taken back at the next tooth. *)
Definition low_limit : ccfg :=
  CCfg (k_timing default_calc) (k_ve default_calc) (k_lambda default_calc) (k_idt default_calc) (k_pwc default_calc) (k_ete default_calc) (k_dwell default_calc)
       (k_tip_amt default_calc) (k_tip_dur default_calc) default_fueling BRV f_zero 500 (f_of_Z 260) 900 800.
Example C32_example : shows (FSensors (ex_sensors 261) :: ex_start) (1, [(UNSCHEDULED, UNSCHEDULED); (UNSCHEDULED, UNSCHEDULED)]) /\
  shows (ex_start ++ [FTrigger 0 340000]) (1, [(SCHEDULED, SCHEDULED); (SCHEDULED, SCHEDULED)]) /\
  shows (ex_start ++ [FCalcConfig low_limit; FTrigger 0 340000]) (1, [(UNSCHEDULED, UNSCHEDULED); (UNSCHEDULED, UNSCHEDULED)]).
Proof. split; [|split]; (eexists; split; [vm_compute; reflexivity|reflexivity]). Qed.

(** ** C11 *)
(** In every execution at most 18 callbacks are pending, whatever their deadlines. *)
Theorem C11_firmware : forall env nd w, freach env nd w -> 0 <= cb_n (w_cbs w) <= 18.
Proof. intros env nd w R. destruct (fi_cbs _ (freach_finv _ _ _ R)) as (ids & C). exact (cwf_count _ _ _ C). Qed.
Print Assumptions C11_firmware.
(** ... and scheduling any of the 18 callback objects at any time succeeds: no access outside the table, no NULL pointer. *)
Theorem C11_firmware_schedule : forall env nd w id t, freach env nd w -> 0 <= id < 18 -> exists c, schedule_callback nd (w_cbs w) id t = Ok c.
Proof.
  intros env nd w id t R Hid. destruct (fi_cbs _ (freach_finv _ _ _ R)) as (ids & C).
  destruct (cwf_schedule nd 18 _ ids id t ltac:(lia) C Hid) as (c & l & E & _). eauto.
Qed.
Print Assumptions C11_firmware_schedule.
Example C11_firmware_example : exists w, freach ex_env false w /\ cb_n (w_cbs w) = 2.
Proof.
  assert (H : exists w, frun ex_env false ex_fw ex_start = Ok w /\ cb_n (w_cbs w) = 2) by (eexists; split; [vm_compute; reflexivity|reflexivity]).
  destruct H as (w & H & S). exists w. split; auto. apply (ex_reach ex_start); auto.
  intros w0 e I. unfold ex_start in I. apply in_map_iff in I. destruct I as (x & <- & _). destruct x; exact Logic.I.
Qed.

(** ** C29 in the whole firmware *)
(** The expiry a trigger asks for (C29_armed, C29_even_time, C29_missing_time say when and for which time) is pending in
    the callback table, with that deadline, when the trigger has been processed... *)
Theorem C29_pending : forall env nd w n t w' d e, freach env nd w -> fstep env nd w (FTrigger n t) = Ok w' ->
  dstep (w_dc w) (w_dec w) (Trigger n t) = Ok (d, [SetExpire e]) ->
  In EXPIRE_CB (firstn (Z.to_nat (cb_n (w_cbs w'))) (cb_arr (w_cbs w'))) /\ get (cb_time (w_cbs w')) EXPIRE_CB = Ok e.
Proof.
  intros env nd w n t w' d e R H D. destruct (trigger_finv _ _ _ _ _ _ H (freach_finv _ _ _ R)) as (_ & d1 & fx & E & _ & _ & _ & _ & _ & P).
  change (dstep (w_dc w) (w_dec w) (Trigger n t) = Ok (d1, fx)) in E. rewrite D in E. injection E as _ <-. destruct (P e eq_refl) as (ids & C & I & T).
  split; auto. destruct (cw_arr _ _ _ C) as (rest & Ea & _). rewrite (cw_n _ _ _ C), Nat2Z.id, Ea, firstn_app, Nat.sub_diag, firstn_all, firstn_O, app_nil_r. exact I.
Qed.
Print Assumptions C29_pending.

(** ... and when the timer interrupt runs it, the position becomes invalid and no turn-on edge is left waiting. *)
Theorem C29_stall : forall env nd w w', freach env nd w -> fstep env nd w FTimer = Ok w' -> get (cb_arr (w_cbs w)) 0 = Ok EXPIRE_CB ->
  dd_valid (w_dec w') = 0 /\ dd_loss (w_dec w') = EXPIRED /\ forall o, In o (w_outs w') -> ~ start_waiting o.
Proof.
  intros env nd w w' R H G. cbn [fstep] in H.
  destruct (timer_finv _ _ _ _ H (freach_finv _ _ _ R)) as (I & cb & c & w1 & now & G1 & P & Rm & w2 & C & (_ & S & _) & O & _ & I1).
  rewrite G in G1. injection G1 as <-. unfold callback in C. rewrite Z.eqb_refl in C.
  destruct (lose_finv _ _ _ _ _ C (invalidate_vinv _) I1) as (_ & D & K). rewrite S, D, O. auto.
Qed.
Print Assumptions C29_stall.
Definition ex_clock (k : nat) : Z * list Z := ((if (k <? 11)%nat then 310000 else if (k <? 12)%nat then 333400 else 400100), []).
Example C29_firmware_example :
  (exists w w', frun ex_clock false ex_fw ex_start = Ok w /\ fstep ex_clock false w (FTrigger 0 340000) = Ok w' /\
     exists d, dstep (w_dc w) (w_dec w) (Trigger 0 340000) = Ok (d, [SetExpire 400000])) /\
  exists w w', frun ex_clock false ex_fw (ex_start ++ [FTrigger 0 340000; FTimer]) = Ok w /\ get (cb_arr (w_cbs w)) 0 = Ok EXPIRE_CB /\
     dd_valid (w_dec w) = 1 /\ fstep ex_clock false w FTimer = Ok w' /\ states w' = (0, [(UNSCHEDULED, UNSCHEDULED); (UNSCHEDULED, UNSCHEDULED)]).
Proof.
  split.
  - do 2 eexists. split; [vm_compute; reflexivity|]. split; [vm_compute; reflexivity|]. eexists. vm_compute. reflexivity.
  - do 2 eexists. split; [vm_compute; reflexivity|]. split; [reflexivity|]. split; [reflexivity|]. split; [vm_compute; reflexivity|reflexivity].
Qed.
