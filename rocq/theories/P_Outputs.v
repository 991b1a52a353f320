(** Properties C12-C21: output events and the DMA double buffer. *)
Require Import ZArith List Bool Lia.
From Verif Require Import Res Word F32 Arr TimeProofs Outputs Buffers OutputSpec OutputRun OutputProofs BufferProofs RunProofs.
Import ListNotations.
Open Scope Z_scope.
Ltac Zify.zify_post_hook ::= Z.to_euclidean_division_equations.

(** Configured outputs with pins the code can shift by, nothing scheduled. *)
Definition idle_outputs (os : list output) : Prop := Forall fresh os /\ Forall (fun o => 0 <= o_pin o mod 256 < 32) os.

(** ** Example data: an ignition output on pin 3 and a fuel output on pin 5 *)
Definition entry0 : entry := Entry 0 0 false UNSCHEDULED.
Definition coil : output := Output IGNITION_EVENT (f_of_Z 180) 3 false entry0 entry0.
Definition injector : output := Output FUEL_EVENT (f_of_Z 360) 5 false entry0 entry0.
Definition y0 : sys := start_sys 1000 [coil; injector].

Lemma y0_idle : idle_outputs [coil; injector].
Proof. split; repeat constructor; simpl; try reflexivity; lia. Qed.

(** C12: no step of the scheduler changes an edge that the hardware already has; a fired edge
    changes only when a completely fired pulse is recycled. *)
Theorem C12_final_edges : forall nd n os l y a y' i o s, idle_outputs os -> run nd (start_sys n os) l y ->
  legal y a -> step nd y a = Ok y' -> (forall now, a <> Swap now) ->
  nth_error (y_outs y) i = Some o -> e_state (which s o) = SUBMITTED \/ e_state (which s o) = FIRED ->
  exists o', nth_error (y_outs y') i = Some o' /\
    ((e_state (which s o') = e_state (which s o) /\ e_time (which s o') = e_time (which s o) /\
      (e_state (which s o) = SUBMITTED -> which s o' = which s o)) \/
     (a = Reset i /\ e_state (o_start o) = FIRED /\ e_state (o_stop o) = FIRED)).
Proof.
  intros nd n os l y a y' i o s [I1 I2] R. apply final_step. eapply run_ok; eauto. now apply start_ok.
Qed.
Print Assumptions C12_final_edges.

(** ... and so for the C functions as called by the rest of the firmware. *)
Lemma safely_final E o on off s : e_state (which s o) = SUBMITTED \/ e_state (which s o) = FIRED ->
  e_state (which s (schedule_output_event_safely E o on off)) = e_state (which s o) /\
  e_time (which s (schedule_output_event_safely E o on off)) = e_time (which s o).
Proof.
  intros H. unfold schedule_output_event_safely. rewrite commit_final; destruct s; simpl; auto.
Qed.

Lemma recycle_cases nd d o st r : recycle nd d o st = Ok r ->
  r = None \/ r = Some o \/ (event_has_fired o = true /\ exists o', r = Some o' /\ reset_fired_event nd o = Ok o').
Proof.
  unfold recycle. destruct (event_has_fired o) eqn:E; [|intros [= <-]; auto].
  destruct (time_from_rpm_diff _ _); [|discriminate]. cbn [bind]. destruct (_ <? _); [intros [= <-]; auto|].
  destruct (reset_fired_event nd o) eqn:Er; [|discriminate]. cbn [bind]. intros [= <-]. right; right. eauto.
Qed.

Theorem C12_schedule_ignition : forall nd E mf d o adv dwell r o' s, schedule_ignition_event nd E mf d o adv dwell = Ok (r, o') ->
  e_state (which s o) = SUBMITTED \/ e_state (which s o) = FIRED ->
  (e_state (which s o') = e_state (which s o) /\ e_time (which s o') = e_time (which s o)) \/ event_has_fired o = true.
Proof.
  intros nd E mf d o adv dwell r o' s H S. unfold schedule_ignition_event in H.
  destruct (_ || _); [injection H as _ <-; auto|].
  destruct (clamp_angle _ _); [|discriminate]. cbn [bind] in H. destruct (time_from_rpm_diff _ _); [|discriminate]. cbn [bind] in H.
  destruct (time_from_us dwell); [|discriminate]. cbn [bind] in H.
  destruct (recycle _ _ _ _) as [r1|] eqn:Er; [|discriminate]. cbn [bind] in H. apply recycle_cases in Er.
  destruct Er as [->|[->|(Ef & _)]]; auto; [injection H as _ <-; auto|].
  destruct (moves_too_far _ _ _) as [[]|]; [injection H as _ <-; auto| |discriminate]. cbn [bind] in H.
  destruct (time_from_us mf); [|discriminate]. cbn [bind] in H. destruct (_ <? _); injection H as _ <-; auto.
  left. now apply safely_final.
Qed.
Print Assumptions C12_schedule_ignition.

Theorem C12_schedule_fuel : forall nd E now d o pw r o' cb s, schedule_fuel_event nd E now d o pw = Ok (r, o', cb) ->
  e_state (which s o) = SUBMITTED \/ e_state (which s o) = FIRED ->
  (e_state (which s o') = e_state (which s o) /\ e_time (which s o') = e_time (which s o)) \/ event_has_fired o = true.
Proof.
  intros nd E now d o pw r o' cb s H S. unfold schedule_fuel_event in H.
  destruct (_ || _); [injection H as _ <- _; auto|].
  destruct (clamp_angle _ _); [|discriminate]. cbn [bind] in H. destruct (time_from_rpm_diff _ _); [|discriminate]. cbn [bind] in H.
  destruct (recycle _ _ _ _) as [r1|] eqn:Er; [|discriminate]. cbn [bind] in H. apply recycle_cases in Er.
  destruct Er as [->|[->|(Ef & _)]]; auto; [injection H as _ <- _; auto|].
  destruct (moves_too_far _ _ _) as [[]|]; [injection H as _ <- _; auto| |discriminate]. cbn [bind] in H.
  injection H as _ <- _. left. now apply safely_final.
Qed.
Print Assumptions C12_schedule_fuel.

Theorem C12_invalidate : forall nd os os' i o s, invalidate_scheduled_events nd os = Ok os' -> nth_error os i = Some o ->
  e_state (which s o) = SUBMITTED \/ e_state (which s o) = FIRED ->
  exists o', nth_error os' i = Some o' /\ which s o' = which s o.
Proof.
  intros nd os. induction os as [|a os IH]; intros os' i o s H E S; [destruct i; discriminate|].
  cbn [invalidate_scheduled_events] in H. destruct (invalidate_one nd a) as [a'|] eqn:Ea; [|discriminate]. cbn [bind] in H.
  destruct (invalidate_scheduled_events nd os) as [r|] eqn:Er; [|discriminate]. cbn [bind] in H. injection H as <-.
  destruct i as [|i]; [|apply (IH r i o s eq_refl E S)]. simpl in E. injection E as ->. exists a'. split; auto.
  unfold invalidate_one in Ea. destruct (sstate_eqb _ _); [injection Ea as <-; auto|].
  assert (D : deschedule_event nd o = Ok a' -> which s a' = which s o).
  { intros D. apply deschedule_inv in D. destruct D as [(Sc & ->)|(Sc & ->)]; [|destruct s; auto].
    destruct s; simpl in *; [destruct S; congruence|]. destruct S as [-> | ->]; auto. }
  destruct (o_type o); auto. injection Ea as <-; auto.
Qed.
Print Assumptions C12_invalidate.

(** C13: descheduling. *)
Theorem C13_not_yet_submitted : forall nd o o', deschedule_event nd o = Ok o' -> e_state (o_start o) = SCHEDULED ->
  e_state (o_stop o) = SCHEDULED \/ e_state (o_stop o) = UNSCHEDULED ->
  e_state (o_start o') = UNSCHEDULED /\ e_state (o_stop o') = UNSCHEDULED.
Proof.
  intros nd o o' H S1 S2. apply deschedule_inv in H. destruct H as [(_ & ->)|(N & _)]; [|congruence].
  simpl. split; auto. destruct S2 as [S2|S2]; rewrite S2; auto.
Qed.
Print Assumptions C13_not_yet_submitted.

Theorem C13_already_submitted : forall nd o o', deschedule_event nd o = Ok o' -> e_state (o_start o) <> SCHEDULED -> o' = o.
Proof.
  intros nd o o' H S1. apply deschedule_inv in H. destruct H as [(N & _)|(_ & ->)]; [congruence|]. now destruct o.
Qed.
Print Assumptions C13_already_submitted.

(** In every orderly history, after descheduling an output either neither of its edges is
    pending, or the turn-on edge was already final and its turn-off edge is kept. *)
Theorem C13_history : forall nd n os ps l y i y' o o', idle_outputs os -> Forall2 match_out os ps ->
  run nd (start_sys n os) l y -> orderly n ps l ->
  step nd y (Deschedule i) = Ok y' -> nth_error (y_outs y) i = Some o -> nth_error (y_outs y') i = Some o' ->
  (e_state (o_start o') = UNSCHEDULED /\ e_state (o_stop o') = UNSCHEDULED) \/
  ((e_state (o_start o) = SUBMITTED \/ e_state (o_start o) = FIRED) /\ o' = o /\ e_state (o_stop o) <> UNSCHEDULED).
Proof.
  intros nd n os ps l y i y' o o' [I1 I2] M0 R O E Eo Eo'.
  pose proof (start_ok n os I1 I2) as Y0.
  assert (S0 : sim (start_sys n os) n ps).
  { split; [reflexivity|]. split; auto. clear -M0 I1. simpl in *. induction M0 as [|o p os ps (Hf & [Sa _] & [Sb _]) M IH]; auto.
    inversion I1 as [|? ? (F1 & F2 & _) I1']. subst. constructor; auto. unfold edge_ok. rewrite <- Sa, <- Sb, F1, F2. auto. }
  assert (P0 : Forall pulse_safe ps).
  { clear -M0 I1. induction M0 as [|o p os ps (Hf & [Sa _] & [Sb _]) M IH]; auto.
    inversion I1 as [|? ? (F1 & F2 & _) I1']. subst. constructor; auto. unfold pulse_safe. now rewrite <- Sa, <- Sb, F1, F2. }
  destruct (run_sim _ _ _ _ R n ps Y0 S0 P0 O) as (n' & ps' & _ & (Hn & M & EO) & P & Y).
  destruct (Forall2_nth _ _ _ _ _ M Eo) as (p & Ep & Mo).
  pose proof (proj1 (Forall_forall _ _) P p (nth_error_In _ _ Ep)) as Sp.
  destruct Mo as (_ & [Sa _] & [Sb _]). unfold pulse_safe in Sp. rewrite <- Sa, <- Sb in Sp.
  cbn [step] in E. destruct (upd_output _ _ _) as [os2|] eqn:U; [|discriminate]. cbn [bind] in E. injection E as <-.
  apply upd_output_inv in U. destruct U as (x & x' & Ex & E & ->). rewrite Eo in Ex. injection Ex as <-.
  cbn [y_outs] in Eo'. rewrite (upd_same _ _ _ _ Eo) in Eo'. injection Eo' as <-.
  destruct (e_state (o_start o)) eqn:S1; cbn [sstate_eqb] in E.
  - injection E as <-. rewrite S1. auto.
  - left. apply (C13_not_yet_submitted nd o); auto. left. apply Sp.
  - right. apply C13_already_submitted in E; [|congruence]. split; auto. split; auto. destruct Sp as [[->| ->] _]; discriminate.
  - right. apply C13_already_submitted in E; [|congruence]. split; auto. split; auto. apply Sp.
Qed.
Print Assumptions C13_history.

(** C14: an edge that a request leaves scheduled was scheduled like that before or has a
    requested time that the platform can still honour. *)
Theorem C14_feasible : forall E o on off s, let o' := schedule_output_event_safely E o on off in
  e_state (which s o') = SCHEDULED ->
  (e_state (which s o) = SCHEDULED /\ e_time (which s o') = e_time (which s o)) \/ time_before (e_time (which s o')) E = false.
Proof.
  intros E o on off s o' H. unfold o', schedule_output_event_safely in *.
  assert (K : forall e t, e_state (snd (sched_entry_enable E e t)) = SCHEDULED ->
     (e_state e = SCHEDULED /\ e_time (snd (sched_entry_enable E e t)) = e_time e) \/
     time_before (e_time (snd (sched_entry_enable E e t))) E = false).
  { intros e t. unfold sched_entry_enable. destruct (_ || _); simpl; auto. destruct (time_before t E) eqn:?; simpl; auto. }
  destruct (commit_shape E (set_pins o) on off) as (t & _ & Es & Et & _). destruct s; simpl which in *.
  - rewrite Es in *. apply K in H. simpl in H. exact H.
  - destruct Et as [Et|Et]; rewrite Et in *; simpl in *; auto. apply K in H. simpl in H. exact H.
Qed.
Print Assumptions C14_feasible.

(** An idle output is scheduled as a whole, for exactly the requested times, or left alone:
    [lim] is the (true) earliest schedulable time. *)
Theorem C14_whole_or_nothing : forall lim o on off, event_is_unscheduled o = true ->
  - 2 ^ 31 <= on - lim -> on <= off -> off - lim < 2 ^ 31 ->
  let o' := schedule_output_event_safely (w32 lim) o (w32 on) (w32 off) in
  (lim <= on /\ e_state (o_start o') = SCHEDULED /\ e_time (o_start o') = w32 on /\
                e_state (o_stop o') = SCHEDULED /\ e_time (o_stop o') = w32 off) \/
  (on < lim /\ event_is_unscheduled o' = true).
Proof.
  intros lim o on off U H1 H2 H3 o'. unfold o', schedule_output_event_safely, commit_times.
  assert (U' : event_is_unscheduled (set_pins o) = true) by exact U. rewrite U'.
  unfold event_is_unscheduled in U. apply andb_true_iff in U. destruct U as [U1 U2].
  destruct (sstate_eqb_spec (e_state (o_start o)) UNSCHEDULED) as [S1|]; [|discriminate].
  destruct (sstate_eqb_spec (e_state (o_stop o)) UNSCHEDULED) as [S2|]; [|discriminate].
  unfold sched_entry_enable. cbn [set_pins o_start o_stop with_entries e_state e_time e_pin e_val]. rewrite S1, S2. cbn [sstate_eqb orb].
  unfold w32. rewrite !time_before_spec by (unfold HALF; lia).
  destruct (Z.ltb_spec on lim).
  - right. split; auto; cbn; rewrite S1, S2; reflexivity.
  - destruct (Z.ltb_spec off lim); [lia|]. left. cbn. auto 10.
Qed.
Print Assumptions C14_whole_or_nothing.

(** A pulse of 2^31 ticks or more (9 minutes) is not: its start is scheduled alone. *)
Theorem C14_wide_pulse_refuted : forall lim o on, event_is_unscheduled o = true -> lim <= on < lim + 2 ^ 31 ->
  let o' := schedule_output_event_safely (w32 lim) o (w32 on) (w32 (lim + 2 ^ 31)) in
  e_state (o_start o') = SCHEDULED /\ e_state (o_stop o') = UNSCHEDULED.
Proof.
  intros lim o on U H1 o'. unfold o', schedule_output_event_safely, commit_times.
  assert (U' : event_is_unscheduled (set_pins o) = true) by exact U. rewrite U'.
  unfold event_is_unscheduled in U. apply andb_true_iff in U. destruct U as [U1 U2].
  destruct (sstate_eqb_spec (e_state (o_start o)) UNSCHEDULED) as [S1|]; [|discriminate].
  destruct (sstate_eqb_spec (e_state (o_stop o)) UNSCHEDULED) as [S2|]; [|discriminate].
  unfold sched_entry_enable. cbn [set_pins o_start o_stop with_entries e_state e_time e_pin e_val]. rewrite S1, S2. cbn [sstate_eqb orb].
  assert (E : w32 (lim + 2 ^ 31) = w32 (lim - 2 ^ 31)).
  { unfold w32. replace (lim + 2 ^ 31) with (lim - 2 ^ 31 + 1 * W) by (unfold W; lia). apply Z_mod_plus_full. }
  rewrite E. unfold w32. rewrite !time_before_spec by (unfold HALF; lia).
  destruct (Z.ltb_spec on lim); [lia|]. destruct (Z.ltb_spec (lim - 2 ^ 31) lim); [|lia].
  cbn [o_start o_stop with_entries e_state]. auto.
Qed.
Print Assumptions C14_wide_pulse_refuted.

(** In every orderly history, a turn-on edge that is planned, submitted or fired
    has its own turn-off edge, which is not earlier and is planned, submitted or fired. *)
Lemma pulses_safe : forall nd n os ps l y, idle_outputs os -> Forall2 match_out os ps ->
  run nd (start_sys n os) l y -> orderly n ps l ->
  forall i o, nth_error (y_outs y) i = Some o ->
  (e_state (o_start o) = UNSCHEDULED -> e_state (o_stop o) = UNSCHEDULED) /\
  (e_state (o_start o) <> UNSCHEDULED -> e_state (o_stop o) <> UNSCHEDULED /\
     exists ton toff, e_time (o_start o) = w32 ton /\ e_time (o_stop o) = w32 toff /\ ton <= toff /\
       (e_state (o_stop o) = FIRED -> e_state (o_start o) = FIRED) /\
       (e_state (o_stop o) = SCHEDULED -> open_from (y_n y) <= toff < open_from (y_n y) + 2 ^ 31) /\
       (e_state (o_stop o) = SUBMITTED -> y_n y <= toff / 128 <= y_n y + 1)).
Proof.
  intros nd n os ps l y [I1 I2] M0 R O.
  pose proof (start_ok n os I1 I2) as Y0.
  assert (S0 : sim (start_sys n os) n ps).
  { split; [reflexivity|]. split; auto. clear -M0 I1. simpl in *. induction M0 as [|o p os ps (Hf & [Sa _] & [Sb _]) M IH]; auto.
    inversion I1 as [|? ? (F1 & F2 & _) I1']. subst. constructor; auto. unfold edge_ok. rewrite <- Sa, <- Sb, F1, F2. auto. }
  assert (P0 : Forall pulse_safe ps).
  { clear -M0 I1. induction M0 as [|o p os ps (Hf & [Sa _] & [Sb _]) M IH]; auto.
    inversion I1 as [|? ? (F1 & F2 & _) I1']. subst. constructor; auto. unfold pulse_safe. now rewrite <- Sa, <- Sb, F1, F2. }
  destruct (run_sim _ _ _ _ R n ps Y0 S0 P0 O) as (n' & ps' & _ & (Hn & M & EO) & P & Y).
  intros i o Eo. destruct (Forall2_nth _ _ _ _ _ M Eo) as (p & Ep & Mo).
  pose proof (proj1 (Forall_forall _ _) P p (nth_error_In _ _ Ep)) as Sp.
  pose proof (proj1 (Forall_forall _ _) EO p (nth_error_In _ _ Ep)) as [_ Eb].
  destruct Mo as (_ & [Sa Ta] & [Sb Tb]). unfold pulse_safe in Sp. unfold edge_ok in Eb. rewrite <- Sa, <- Sb in Sp. rewrite <- Sb in Eb. subst n'.
  split; [intros Hu; now rewrite Hu in Sp|]. intros Hu.
  assert (e_state (o_stop o) <> UNSCHEDULED /\ g_time (p_on p) <= g_time (p_off p) /\ (e_state (o_stop o) = FIRED -> e_state (o_start o) = FIRED)) as (A1 & A2 & A3).
  { destruct (e_state (o_start o)) eqn:Es; [congruence|..]; destruct (e_state (o_stop o)) eqn:Et; intuition (try congruence; try discriminate). }
  split; auto. exists (g_time (p_on p)), (g_time (p_off p)).
  split; [exact Ta|]. split; [exact Tb|]. split; auto. split; auto. split; intros Hs; rewrite Hs in Eb; exact Eb.
Qed.

(** C15: no turn-on edge is with the hardware without its turn-off edge planned, submitted or
    fired as well; a planned turn-off is not before the first tick still open, so (C20) it
    will be submitted and played. *)
Theorem C15_turn_off_follows : forall nd n os ps l y, idle_outputs os -> Forall2 match_out os ps ->
  run nd (start_sys n os) l y -> orderly n ps l ->
  forall i o, nth_error (y_outs y) i = Some o -> e_state (o_start o) = SUBMITTED \/ e_state (o_start o) = FIRED ->
  (e_state (o_stop o) = SCHEDULED \/ e_state (o_stop o) = SUBMITTED \/ e_state (o_stop o) = FIRED) /\
  (e_state (o_stop o) = SCHEDULED -> exists toff, e_time (o_stop o) = w32 toff /\ open_from (y_n y) <= toff < open_from (y_n y) + 2 ^ 31).
Proof.
  intros nd n os ps l y I M R O i o Eo S. destruct (pulses_safe nd n os ps l y I M R O i o Eo) as [_ H].
  destruct H as (H & ton & toff & H1 & H2 & H3 & H4 & H5 & H6); [destruct S; congruence|].
  split; [destruct (e_state (o_stop o)); auto; congruence|]. intros Hs. exists toff. auto.
Qed.
Print Assumptions C15_turn_off_follows.

(** C16: the turn-off edge is not before the turn-on edge. *)
Theorem C16_order : forall nd n os ps l y, idle_outputs os -> Forall2 match_out os ps ->
  run nd (start_sys n os) l y -> orderly n ps l ->
  forall i o, nth_error (y_outs y) i = Some o -> e_state (o_start o) <> UNSCHEDULED ->
  exists ton toff, e_time (o_start o) = w32 ton /\ e_time (o_stop o) = w32 toff /\ ton <= toff /\
    (e_state (o_stop o) = FIRED -> e_state (o_start o) = FIRED).
Proof.
  intros nd n os ps l y I M R O i o Eo S. destruct (pulses_safe nd n os ps l y I M R O i o Eo) as [_ H].
  destruct H as (H & ton & toff & H1 & H2 & H3 & H4 & H5 & H6); auto. exists ton, toff. auto.
Qed.
Print Assumptions C16_order.

(** The hypotheses are met by a history with both kinds of outputs, in which a fuel pulse is
    lengthened after its start was submitted and the ignition pulse is cancelled. *)
Definition p0 : list pulse := [Pulse false (Edge UNSCHEDULED 0) (Edge UNSCHEDULED 0); Pulse true (Edge UNSCHEDULED 0) (Edge UNSCHEDULED 0)].
Definition good_history : list act :=
  [Pins 0; Commit 0 130000 134000; Pins 1; Commit 1 128300 128700; Swap 128130; Swap 128300;
   Pins 1; Commit 1 128200 129000; Deschedule 0; Deschedule 1; Swap 128400; Swap 128600].
Example good_history_ok : orderly 1000 p0 good_history /\ Forall2 match_out [coil; injector] p0 /\
  exists y o, run false y0 good_history y /\ nth_error (y_outs y) 1 = Some o /\
    e_state (o_start o) = FIRED /\ e_time (o_start o) = 128300 /\ e_state (o_stop o) = SCHEDULED /\ e_time (o_stop o) = 129100.
Proof.
  split; [|split].
  - cbn. repeat split; try lia; try (eexists; split; [reflexivity|]; unfold request_in_window, request_in_order, in_window, open_from, on_is_fixed, final; cbn; repeat split; try lia; try discriminate; try (intros; lia)).
  - repeat constructor.
  - assert (H : exists y, run_check false y0 good_history = Some y /\ exists o, nth_error (y_outs y) 1 = Some o /\
      e_state (o_start o) = FIRED /\ e_time (o_start o) = 128300 /\ e_state (o_stop o) = SCHEDULED /\ e_time (o_stop o) = 129100).
    { eexists. split; [vm_compute; reflexivity|]. eexists. split; [vm_compute; reflexivity|]. repeat split. }
    destruct H as (y & H & o & Ho). exists y, o. split; auto. now apply run_check_ok.
Qed.


(** The order requirement on requests is automatic for fuel pulses of non-negative width. *)
Theorem C16_fuel_is_orderly : forall n p on off, p_fuel p = true -> on <= off -> request_in_order n p on off.
Proof. intros n p on off Hf H. split; auto. congruence. Qed.
Print Assumptions C16_fuel_is_orderly.

(** It is necessary for ignition pulses: a legal history of three requests-worth of steps in
    which the coil is switched on (start fired at tick 130000) after its only turn-off
    edge (fired at 129000), and stays on with nothing left to turn it off. *)
Definition stuck_history : list act :=
  [Pins 0; Commit 0 130000 134000;       (* dwell 1 ms, both edges planned *)
   Swap 128130; Swap 128300; Commit 0 128300 129000;  (* engine speeds up: start too late to move, stop is moved *)
   Swap 128400; Swap 128600; Swap 128700; Swap 128800; Swap 128900; Swap 129100; Swap 129200; Swap 129300;
   Swap 129500; Swap 129600; Swap 129700; Swap 129800; Swap 129950; Swap 130100; Swap 130200].
Theorem C16_ignition_refuted : exists y o, run true y0 stuck_history y /\ nth_error (y_outs y) 0 = Some o /\
  e_state (o_start o) = FIRED /\ e_time (o_start o) = 130000 /\ e_state (o_stop o) = FIRED /\ e_time (o_stop o) = 129000.
Proof.
  assert (H : exists y, run_check true y0 stuck_history = Some y /\ exists o, nth_error (y_outs y) 0 = Some o /\
    e_state (o_start o) = FIRED /\ e_time (o_start o) = 130000 /\ e_state (o_stop o) = FIRED /\ e_time (o_stop o) = 129000).
  { eexists. split; [vm_compute; reflexivity|]. eexists. split; [vm_compute; reflexivity|]. repeat split. }
  destruct H as (y & H & o & Ho). exists y, o. split; auto. now apply run_check_ok.
Qed.
Print Assumptions C16_ignition_refuted.

(** C17: whatever a reschedule of a non-idle fuel output does, afterwards the pulse has the requested
    width, or its turn-off edge could not be changed any more. *)
Theorem C17_fuel_width : forall E o on off, o_type o = FUEL_EVENT -> event_is_unscheduled o = false ->
  0 <= e_time (o_start o) < 2 ^ 32 -> 0 <= on < 2 ^ 32 -> 0 <= off < 2 ^ 32 ->
  let o' := schedule_output_event_safely E o on off in
  (e_time (o_stop o') - e_time (o_start o')) mod 2 ^ 32 = (off - on) mod 2 ^ 32 \/
  (e_time (o_stop o') = e_time (o_stop o) /\ e_state (o_stop o') = e_state (o_stop o) /\
   (e_state (o_stop o) = SUBMITTED \/ e_state (o_stop o) = FIRED \/
    exists t, (t = off \/ t = w32 (off + w32 (e_time (o_start o) - on))) /\ time_before t E = true)).
Proof.
  intros E o on off Hf Hu Hs Hon Hoff o'. unfold o', schedule_output_event_safely, commit_times.
  assert (U' : event_is_unscheduled (set_pins o) = false) by exact Hu. rewrite U'.
  change (o_type (set_pins o)) with (o_type o). rewrite Hf.
  destruct (sched_entry_enable E (o_start (set_pins o)) on) as [ok a] eqn:Ea.
  pose proof (enable_false E (o_start (set_pins o)) on) as Ef. rewrite Ea in Ef. simpl in Ef.
  assert (Et : ok = true -> e_time a = on).
  { intros ->. unfold sched_entry_enable in Ea. destruct (_ || _); [discriminate|]. destruct (time_before on E); [discriminate|].
    now injection Ea as <-. }
  rewrite andb_true_r.
  set (t := if negb ok then w32 (off + w32 (e_time (o_start (set_pins o)) - on)) else off).
  destruct (sched_entry_enable E (o_stop (set_pins o)) t) as [ok2 b] eqn:Eb.
  cbn [o_start o_stop with_entries].
  unfold sched_entry_enable in Eb. cbn [set_pins o_stop with_entries e_state e_time e_pin e_val] in Eb.
  destruct (sstate_eqb_spec (e_state (o_stop o)) SUBMITTED); cbn [orb] in Eb; [injection Eb as _ <-; right; simpl; auto|].
  destruct (sstate_eqb_spec (e_state (o_stop o)) FIRED); cbn [orb] in Eb; [injection Eb as _ <-; right; simpl; auto|].
  destruct (time_before t E) eqn:Et2.
  - injection Eb as _ <-. right. cbn [e_time e_state]. repeat split; auto. right; right. exists t. split; auto.
    unfold t. destruct ok; auto.
  - injection Eb as _ <-. left. cbn [e_time]. unfold t. destruct ok; cbn [negb].
    + now rewrite Et.
    + rewrite Ef by reflexivity. cbn [set_pins o_start with_entries e_time]. unfold w32. change (2 ^ 32) with W.
      rewrite Zplus_mod_idemp_r, Zminus_mod_idemp_l. f_equal. lia.
Qed.
Print Assumptions C17_fuel_width.
Example C17_example : (* start submitted at 1000, requested 950..1350: stop becomes 1400 *)
  let o := Output FUEL_EVENT (f_of_Z 0) 5 false (Entry 1000 5 true SUBMITTED) (Entry 1200 5 false SCHEDULED) in
  event_is_unscheduled o = false /\ e_time (o_stop (schedule_output_event_safely 1024 o 950 1350)) = 1400.
Proof. split; reflexivity. Qed.
