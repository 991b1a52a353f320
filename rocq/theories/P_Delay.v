(** C60: a pending pulse is never pushed back by more than half a turn. *)
From Coq Require Import ZArith List Bool Lia Reals Lra.
From Flocq Require Import Core.
From Verif Require Import Res Word F32 F32Flocq Outputs AngleProofs PulseProofs P_Pulses.
Import ListNotations.
Local Open Scope Z_scope.

(** Half a turn at [rpm], in ticks: 2/3 million ticks per degree and RPM, times 180; the C code rounds
    to within a tick and 2^-22. *)
Definition within_half_turn (rpm delay : Z) : Prop := (IZR delay <= 2000000 / 3 * 180 / IZR rpm * (1 + / 4194304) + 1)%R.

Lemma half_turn rpm t : 1 <= rpm <= 2 ^ 24 -> time_from_rpm_diff rpm (f_of_Z 180) = Ok t -> within_half_turn rpm t.
Proof.
  intros Hr E. destruct (f_of_Z_exact 180) as [E1 F1]; [cbn; lia|].
  destruct (time_from_rpm_accuracy rpm (f_of_Z 180)) as (t' & A1 & _ & A3); auto using vf_of_Z; [rewrite E1; lra|].
  rewrite E in A1. injection A1 as <-. cbv zeta in A3. rewrite E1 in A3. unfold within_half_turn. apply Rabs_le_inv in A3. lra.
Qed.

Lemma moves_ok d o stop : e_state (o_stop o) = SCHEDULED -> 1 <= dv_rpm d <= 2 ^ 24 -> moves_too_far d o stop = Ok false ->
  time_before (e_time (o_stop o)) stop = true -> within_half_turn (dv_rpm d) (time_diff stop (e_time (o_stop o))).
Proof.
  intros S Hr H B. unfold moves_too_far in H. rewrite S, B in H. cbn [sstate_eqb andb] in H.
  destruct (time_from_rpm_diff _ _) as [t|] eqn:E; [|discriminate]. cbn [bind] in H. injection H as H. apply Z.ltb_ge in H.
  pose proof (half_turn _ _ Hr E) as K. unfold within_half_turn in *. apply IZR_le in H. lra.
Qed.

(** The new turn-off time: the old one, the requested one, or, for a fuel pulse whose turn-on did not
    move, the old turn-on plus the requested width. *)
Lemma new_stop E o st0 st : e_state (o_stop o) = SCHEDULED -> let o' := schedule_output_event_safely E o st0 st in
  e_time (o_stop o') = e_time (o_stop o) \/ e_time (o_stop o') = st \/
  (o_type o = FUEL_EVENT /\ e_time (o_start o') = e_time (o_start o) /\ e_time (o_stop o') = w32 (st + w32 (e_time (o_start o) - st0))).
Proof.
  intros S. unfold schedule_output_event_safely, commit_times, sched_entry_enable, event_is_unscheduled. cbv zeta. cbn [set_pins with_entries o_start o_stop e_state e_time e_pin e_val o_type]. rewrite S.
  rewrite andb_false_r. cbn [sstate_eqb orb].
  destruct (sstate_eqb (e_state (o_start o)) SUBMITTED || sstate_eqb (e_state (o_start o)) FIRED); [|destruct (time_before st0 E)]; cbn [negb andb];
  destruct (o_type o); destruct (time_before _ E); cbn [with_entries o_start o_stop e_time]; auto.
Qed.

Lemma not_before_self t : time_before t t = false.
Proof. unfold time_before. rewrite Z.sub_diag. reflexivity. Qed.

(** An ignition pulse whose turn-off (the spark) is pending may be moved back by at most half a turn. *)
Theorem C60_ignition : forall nd E mf d o adv dwell r o', schedule_ignition_event nd E mf d o adv dwell = Ok (r, o') -> o_type o = IGNITION_EVENT ->
  1 <= dv_rpm d <= 2 ^ 24 -> e_state (o_stop o) = SCHEDULED -> time_before (e_time (o_stop o)) (e_time (o_stop o')) = true ->
  within_half_turn (dv_rpm d) (time_diff (e_time (o_stop o')) (e_time (o_stop o))).
Proof.
  intros nd E mf d o adv dwell r o' H Ty Hr S B. unfold schedule_ignition_event in H.
  assert (Id : o' = o -> False) by (intros ->; rewrite not_before_self in B; discriminate B).
  destruct (_ || _); [injection H as _ <-; tauto|].
  destruct (clamp_angle _ _); [|discriminate]. cbn [bind] in H. destruct (time_from_rpm_diff (dv_tooth_rpm d) _) as [t|]; [|discriminate]. cbn [bind] in H.
  destruct (time_from_us dwell) as [z|]; [|discriminate]. cbn [bind] in H.
  assert (NF : event_has_fired o = false) by (unfold event_has_fired; rewrite S; destruct (e_state (o_start o)); reflexivity).
  unfold recycle in H. rewrite NF in H. cbn [bind] in H.
  set (st := w32 (dv_last_time d + t)) in *. clearbody st.
  destruct (moves_too_far d o st) as [[]|] eqn:Mv; [cbn [bind] in H; injection H as _ <-; tauto| |discriminate]. cbn [bind] in H.
  destruct (time_from_us mf); [|discriminate]. cbn [bind] in H. destruct (_ <? _); injection H as _ <-; [tauto|].
  destruct (new_stop E o (w32 (st - z)) st S) as [Q|[Q|[Q _]]]; [rewrite Q, not_before_self in B; discriminate| |congruence].
  rewrite Q in *. now apply moves_ok.
Qed.
Print Assumptions C60_ignition.

(** So may a fuel pulse, unless its turn-on can no longer move; then the pulse only takes the new width. *)
Theorem C60_fuel : forall nd E now d o pw r o' cb, schedule_fuel_event nd E now d o pw = Ok (r, o', cb) ->
  1 <= dv_rpm d <= 2 ^ 24 -> e_state (o_stop o) = SCHEDULED -> time_before (e_time (o_stop o)) (e_time (o_stop o')) = true ->
  within_half_turn (dv_rpm d) (time_diff (e_time (o_stop o')) (e_time (o_stop o))) \/
  (e_time (o_start o') = e_time (o_start o) /\ e_time (o_stop o') = w32 (e_time (o_start o) + 4 * pw)).
Proof.
  intros nd E now d o pw r o' cb H Hr S B. unfold schedule_fuel_event in H.
  assert (Id : o' = o -> False) by (intros ->; rewrite not_before_self in B; discriminate B).
  destruct (_ || _); [injection H as _ <- _; tauto|].
  destruct (clamp_angle _ _); [|discriminate]. cbn [bind] in H. destruct (time_from_rpm_diff (dv_tooth_rpm d) _) as [t|]; [|discriminate]. cbn [bind] in H.
  assert (NF : event_has_fired o = false) by (unfold event_has_fired; rewrite S; destruct (e_state (o_start o)); reflexivity).
  unfold recycle in H. rewrite NF in H. cbn [bind] in H.
  set (st := w32 (dv_last_time d + t)) in *. clearbody st.
  destruct (moves_too_far d o st) as [[]|] eqn:Mv; [cbn [bind] in H; injection H as _ <- _; tauto| |discriminate]. cbn [bind] in H.
  pose proof (new_stop E o (w32 (st - w32 (4 * pw))) st S) as N. cbv zeta in N. set (o2 := schedule_output_event_safely E o _ st) in *. clearbody o2. injection H as _ <- _.
  destruct N as [Q|[Q|(_ & Q1 & Q2)]]; [rewrite Q, not_before_self in B; discriminate|left; rewrite Q in *; now apply moves_ok|].
  right. split; [exact Q1|]. rewrite Q2. unfold w32. rewrite Zplus_mod_idemp_r.
  replace (st + (e_time (o_start o) - (st - (4 * pw) mod W) mod W)) with (st + e_time (o_start o) - (st - (4 * pw) mod W) mod W) by ring.
  rewrite Zminus_mod_idemp_r. replace (st + e_time (o_start o) - (st - (4 * pw) mod W)) with (e_time (o_start o) + (4 * pw) mod W) by ring. apply Zplus_mod_idemp_r.
Qed.
Print Assumptions C60_fuel.

(* At 6000 RPM half a turn is 20000 ticks: a spark pending at 200000 may move to 210000, but stays put when
   the request is a full cycle later. *)
Definition pending_coil (t : Z) : output := Output IGNITION_EVENT (f_of_Z 180) 3 false (Entry (t - 8000) 3 true SCHEDULED) (Entry t 3 false SCHEDULED).
Example C60_example : exists o1 o2,
  schedule_ignition_event true 190100 500 view1 (pending_coil 200000) (f_of_Z 30) 400 = Ok (1, o1) /\ e_time (o_stop o1) = 210000 /\ time_before 200000 210000 = true /\
  schedule_ignition_event true 180100 500 view1 (pending_coil 189000) (f_of_Z 30) 400 = Ok (0, o2) /\ e_time (o_stop o2) = 189000.
Proof. do 2 eexists. split; [vm_compute; reflexivity|]. split; [reflexivity|]. split; [reflexivity|]. split; [vm_compute; reflexivity|]. reflexivity. Qed.
