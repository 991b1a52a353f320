(** Every step of System.v is defined and keeps the settings, readings, decoder state, outputs, buffers and callbacks sensible
    (the release build: assertions are compiled out). *)
Require Import ZArith Reals List Bool Lia Lra.
From Verif Require Import Res Word F32 F32Flocq Arr AngleProofs Interval Outputs Buffers BufferProofs OutputRun PulseProofs Callbacks CallbackSafe Decoder DecoderProofs DecoderSafe DecoderAngle Calc CalcSpec CalcProofs FuelProofs
  System SystemProofs SystemRun SafeSpec SafeDec.
Import ListNotations.
Open Scope Z_scope.
Ltac Zify.zify_post_hook ::= idtac.

(** ** Outputs and buffers *)
Definition out_ok (o : output) : Prop := output_ok o /\ 0 <= e_pin (o_start o) < 32 /\ 0 <= e_pin (o_stop o) < 32.
Record outs_ok (d : dma) (os : list output) : Prop := {
  oo_len : length os = 16%nat;
  oo_each : Forall out_ok os;
  oo_cur : buf_wf (d_cur d);
  oo_next : buf_wf (d_next d) }.

Lemma out_pins os : Forall out_ok os -> pins_small os.
Proof.
  intros F e I. unfold entries in I. apply in_flat_map in I. destruct I as (o & Io & I). rewrite Forall_forall in F. destruct (F o Io) as (_ & P & Q). destruct I as [<-|[<-|[]]]; auto.
Qed.
Lemma move_ok s s' b os : Forall out_ok os -> Forall out_ok (map (move_out s s' b) os).
Proof.
  intros F. apply Forall_map. eapply Forall_impl; [|exact F]. intros o (A & P & Q). split; [exact A|]. unfold move_out, with_entries. cbn [o_start o_stop]. now rewrite !move_pin.
Qed.
Lemma swap_ok now d os : outs_ok d os -> exists d' os', stm32_buffer_swap now d os = Ok (d', os') /\ outs_ok d' os'.
Proof.
  intros [L F B1 B2]. unfold stm32_buffer_swap. cbv zeta. destruct (retire_spec os (d_cur d) B1 (out_pins os F)) as (b1 & -> & W1 & _). cbn [bind].
  match goal with |- context [populate_output_buffer ?b ?l] => destruct (populate_spec l b W1 (out_pins _ (move_ok _ _ _ _ F))) as (b2 & -> & W2 & _) end. cbn [bind].
  eexists _, _. split; [reflexivity|]. split; [now rewrite !map_length|now apply move_ok, move_ok|exact B2|exact W2].
Qed.
Lemma swaps_ok l : forall d os, outs_ok d os -> exists d' os', swaps l d os = Ok (d', os') /\ outs_ok d' os'.
Proof.
  induction l as [|now l IH]; intros d os O; cbn [swaps]; [eauto|]. destruct (swap_ok now d os O) as (d1 & os1 & -> & O1). cbn [bind]. now apply IH.
Qed.

Section Safe.
Variable env : nat -> Z * list Z.
Variable c : dcfg.
Hypothesis C : dec_ok c.
Variable sm : Z.                              (* the speed of the test wheel *)

(** ** The state *)
Record fsafe (w : fw) : Prop := {
  fs_dc : w_dc w = c;
  fs_dec : dsafe c (w_dec w);
  fs_cc : calc_ok (w_cc w);
  fs_sens : sens_in_range (w_sens w);
  fs_tip : tip_ok (w_tip w);
  fs_adv : angle_ok (cv_advance (w_vals w));
  fs_dwell : 0 <= cv_dwell (w_vals w) <= 651000000;
  fs_fuel : 0 <= cv_fueling (w_vals w) <= 651000000;
  fs_outs : outs_ok (w_dma w) (w_outs w);
  fs_cbs : exists ids, cwf 18 (w_cbs w) ids;
  fs_sim : w_simrpm w = sm }.

Lemma point_ok w : fsafe w -> exists now w', point env w = Ok (now, w') /\ fsafe w' /\ w_dec w' = w_dec w /\ w_cbs w' = w_cbs w /\ w_vals w' = w_vals w.
Proof.
  intros I. unfold point. destruct (env (w_k w)) as [now sw]. destruct (swaps_ok sw _ _ (fs_outs w I)) as (d & os & -> & O). cbn [bind].
  eexists _, _. split; [reflexivity|]. split; [|auto]. destruct I. split; auto.
Qed.

Lemma put_ok w i o : fsafe w -> 0 <= i < 16 -> out_ok o -> exists w', put_out w i o = Ok w' /\ fsafe w' /\ w_dec w' = w_dec w /\ w_cbs w' = w_cbs w /\ w_vals w' = w_vals w.
Proof.
  intros I Hi Ho. pose proof (fs_outs w I) as [L F B1 B2]. unfold put_out, put. destruct (Z.ltb_spec i 0); [lia|]. cbn [orb]. rewrite L. destruct (Z.leb_spec (Z.of_nat 16) i); [lia|]. cbn [bind].
  eexists. split; [reflexivity|]. split; [|auto]. destruct I. split; auto. cbn [set_outs w_dma w_outs]. split; auto; [now rewrite upd_nat_length|].
  apply Forall_forall. intros x Ix. apply In_nth_error in Ix. destruct Ix as [j Ej]. rewrite nth_error_upd in Ej by lia. rewrite Forall_forall in F. destruct (Nat.eqb _ _); [congruence|]. apply F. eapply nth_error_In; eauto.
Qed.
Lemma get_ok_out w i : fsafe w -> 0 <= i < 16 -> exists o, get (w_outs w) i = Ok o /\ out_ok o.
Proof.
  intros I Hi. pose proof (fs_outs w I) as [L F _ _]. destruct (get_in_range (w_outs w) i) as [o G]; [rewrite L; lia|]. exists o. split; [exact G|].
  rewrite Forall_forall in F. apply F. apply get_ok in G. destruct G as [_ G]. eapply nth_error_In; eauto.
Qed.

Lemma disable_ok e : exists b e', sched_entry_disable true e = Ok (b, e') /\ e_pin e' = e_pin e.
Proof. unfold sched_entry_disable. cbn [c_assert bind]. destruct (negb (sstate_eqb (e_state e) SCHEDULED)); eexists _, _; split; reflexivity. Qed.
Lemma invalidate_ok o : out_ok o -> exists o', invalidate_one true o = Ok o' /\ out_ok o'.
Proof.
  intros (A & P & Q). unfold invalidate_one. assert (D : exists o', deschedule_event true o = Ok o' /\ out_ok o').
  { unfold deschedule_event. destruct (disable_ok (o_start o)) as (b & e & -> & E). cbn [bind]. destruct b.
    - destruct (disable_ok (o_stop o)) as (b' & e' & -> & E'). cbn [bind]. eexists. split; [reflexivity|]. split; [exact A|]. cbn [with_entries o_start o_stop]. now rewrite E, E'.
    - eexists. split; [reflexivity|]. split; [exact A|]. cbn [with_entries o_start o_stop]. now rewrite E. }
  destruct (sstate_eqb _ _); [eexists; split; [reflexivity|split; auto]|]. destruct (o_type o); auto. eexists; split; [reflexivity|split; auto].
Qed.

Lemma cancel_from_ok n : forall i w, fsafe w -> 0 <= i -> i + Z.of_nat n <= 16 -> exists w', cancel_from env true n i w = Ok w' /\ fsafe w' /\ w_dec w' = w_dec w.
Proof.
  induction n as [|n IH]; intros i w I H0 H1; cbn [cancel_from]; [eauto|].
  destruct (point_ok w I) as (now & w1 & -> & I1 & D1 & _). cbn [bind]. destruct (get_ok_out w1 i I1 ltac:(lia)) as (o & -> & Ho). cbn [bind].
  destruct (invalidate_ok o Ho) as (o' & -> & Ho'). cbn [bind]. destruct (put_ok w1 i o' I1 ltac:(lia) Ho') as (w2 & -> & I2 & D2 & _). cbn [bind].
  destruct (IH (i + 1) w2 I2 ltac:(lia) ltac:(lia)) as (w3 & -> & I3 & D3). exists w3. split; [reflexivity|]. split; [exact I3|congruence].
Qed.
Lemma cancel_ok w : fsafe w -> exists w', cancel_outputs env true w = Ok w' /\ fsafe w' /\ w_dec w' = w_dec w.
Proof. intros I. apply cancel_from_ok; auto; unfold MAX_EVENTS; lia. Qed.

(** ** Scheduling *)
Lemma alive w : fsafe w -> dd_valid (w_dec w) <> 0 -> 1 <= dd_rpm (w_dec w) < 2 ^ 32 /\ 1 <= dd_tooth_rpm (w_dec w) < 2 ^ 32.
Proof.
  intros I V. pose proof (fs_dec w I) as [Di _ _ _ R Tr Tu]. pose proof (proj2 (di_valid _ _ Di) V) as S.
  assert (1 <= dd_rpm (w_dec w) /\ 1 <= dd_tooth_rpm (w_dec w)) by (apply Tu; destruct (missing c); congruence). lia.
Qed.
Lemma cycle_angle x : in_cycle x -> angle_ok x.
Proof. intros (V & F & B). split; [exact V|]. split; [exact F|]. apply Rabs_le. lra. Qed.

Lemma recycle_ok d o t : 1 <= dv_rpm d < 2 ^ 32 -> out_ok o -> exists r, recycle true d o t = Ok r /\ (forall o', r = Some o' -> out_ok o').
Proof.
  intros R (A & P & Q). unfold recycle. destruct (event_has_fired o); [|eexists; split; [reflexivity|]; intros o' E; injection E as <-; split; auto].
  destruct (time_ok (dv_rpm d) (f_of_Z 90) R) as (x & -> & _). { eapply iv_weak; [apply (iv_Z 90); lia|lra|lra]. } cbn [bind].
  destruct (_ <? x); [eexists; split; [reflexivity|discriminate]|]. unfold reset_fired_event. cbn [c_assert bind]. eexists. split; [reflexivity|]. intros o' E. injection E as <-. split; [exact A|]. auto.
Qed.
Lemma far_ok d o t : 1 <= dv_rpm d < 2 ^ 32 -> exists b, moves_too_far d o t = Ok b.
Proof.
  intros R. unfold moves_too_far. destruct (_ && _); [|eauto]. destruct (time_ok (dv_rpm d) (f_of_Z 180) R) as (x & -> & _). { eapply iv_weak; [apply (iv_Z 180); lia|lra|lra]. } cbn [bind]. eauto.
Qed.

Lemma ignition_plan_safe w mf o adv dw : fsafe w -> out_ok o -> angle_ok adv -> 0 <= dw <= 651000000 -> 0 <= mf <= 651000000 ->
  exists o1 p, ignition_plan true (view w) mf o adv dw = Ok (o1, p) /\ out_ok o1.
Proof.
  intros I Ho Ha Hd Hm. unfold ignition_plan. destruct ((dv_rpm (view w) =? 0) || (dv_valid (view w) =? 0)) eqn:Z0; [eauto|].
  apply orb_false_iff in Z0. destruct Z0 as [_ V]. apply Z.eqb_neq in V. destruct (alive w I V) as [R Tr]. pose proof (fs_dec w I) as [_ _ _ Ca _ _ _].
  destruct (ignition_angle (o_angle o) adv (dv_last_angle (view w)) (dv_offset (view w))) as (g & k & -> & Vg & Fg & Bg & _).
  { apply Ho. } { exact Ha. } { now apply cycle_angle. } { cbn [view dv_offset]. rewrite (fs_dc w I). apply (do_offset c C). }
  cbn [bind]. destruct (time_ok (dv_tooth_rpm (view w)) g Tr) as (dt & -> & _). { split; [exact Vg|]. split; [exact Fg|lra]. } cbn [bind].
  destruct (time_from_us_ok dw Hd) as [x ->]. cbn [bind].
  match goal with |- context [recycle true ?d ?o ?t] => destruct (recycle_ok d o t R Ho) as (r & -> & Hr) end. cbn [bind]. destruct r as [o1|]; [|eauto]. specialize (Hr o1 eq_refl).
  match goal with |- context [moves_too_far ?d ?o ?t] => destruct (far_ok d o t R) as ([|] & ->) end; cbn [bind]; [eauto|].
  destruct (time_from_us_ok mf Hm) as [y ->]. cbn [bind]. destruct (_ <? y); eauto.
Qed.
Lemma fuel_plan_safe w o pw : fsafe w -> out_ok o -> exists o1 p, fuel_plan true (view w) o pw = Ok (o1, p) /\ out_ok o1.
Proof.
  intros I Ho. unfold fuel_plan. destruct ((dv_rpm (view w) =? 0) || (dv_valid (view w) =? 0)) eqn:Z0; [eauto|].
  apply orb_false_iff in Z0. destruct Z0 as [_ V]. apply Z.eqb_neq in V. destruct (alive w I V) as [R Tr]. pose proof (fs_dec w I) as [_ _ _ Ca _ _ _].
  destruct (fuel_angle (o_angle o) (dv_last_angle (view w)) (dv_offset (view w))) as (g & k & -> & Vg & Fg & Bg & _).
  { apply Ho. } { now apply cycle_angle. } { cbn [view dv_offset]. rewrite (fs_dc w I). apply (do_offset c C). }
  cbn [bind]. destruct (time_ok (dv_tooth_rpm (view w)) g Tr) as (dt & -> & _). { split; [exact Vg|]. split; [exact Fg|lra]. } cbn [bind].
  match goal with |- context [recycle true ?d ?o ?t] => destruct (recycle_ok d o t R Ho) as (r & -> & Hr) end. cbn [bind]. destruct r as [o1|]; [|eauto]. specialize (Hr o1 eq_refl).
  match goal with |- context [moves_too_far ?d ?o ?t] => destruct (far_ok d o t R) as ([|] & ->) end; cbn [bind]; eauto.
Qed.

Lemma enable_pin E e t : e_pin (snd (sched_entry_enable E e t)) = e_pin e.
Proof. unfold sched_entry_enable. destruct (_ || _); [reflexivity|]. destruct (time_before _ _); reflexivity. Qed.
Lemma commit_times_ok E o a b : out_ok o -> out_ok (commit_times E o a b).
Proof.
  intros (A & P & Q). unfold commit_times. cbv zeta. pose proof (enable_pin E (o_start o) a) as K1. destruct (sched_entry_enable E (o_start o) a) as [ok e]. cbn [snd] in K1.
  destruct (event_is_unscheduled o).
  - destruct ok.
    + pose proof (enable_pin E (o_stop o) b) as K2. destruct (sched_entry_enable E (o_stop o) b) as [ok2 e2]. cbn [snd] in K2. split; [exact A|]. cbn [with_entries o_start o_stop]. rewrite K1, K2. auto.
    + split; [exact A|]. cbn [with_entries o_start o_stop]. rewrite K1. auto.
  - match goal with |- context [sched_entry_enable E (o_stop o) ?x] => pose proof (enable_pin E (o_stop o) x) as K2; destruct (sched_entry_enable E (o_stop o) x) as [ok2 e2] end. cbn [snd] in K2.
    split; [exact A|]. cbn [with_entries o_start o_stop]. rewrite K1, K2. auto.
Qed.
Lemma set_pins_ok o : out_ok o -> out_ok (set_pins o).
Proof. intros (A & P & Q). split; [exact A|]. unfold set_pins, with_entries. cbn [o_start o_stop e_pin]. destruct A. auto. Qed.

Lemma commit_ok w i a b : fsafe w -> 0 <= i < 16 -> exists w', commit_output env w i a b = Ok w' /\ fsafe w' /\ w_dec w' = w_dec w.
Proof.
  intros I Hi. unfold commit_output. destruct (point_ok w I) as (n1 & w1 & -> & I1 & D1 & _). cbn [bind]. destruct (get_ok_out w1 i I1 Hi) as (o & -> & Ho). cbn [bind].
  destruct (put_ok w1 i (set_pins o) I1 Hi (set_pins_ok o Ho)) as (w2 & -> & I2 & D2 & _). cbn [bind]. destruct (point_ok w2 I2) as (n3 & w3 & -> & I3 & D3 & _). cbn [bind].
  destruct (get_ok_out w3 i I3 Hi) as (o3 & -> & Ho3). cbn [bind]. destruct (put_ok w3 i _ I3 Hi (commit_times_ok (earliest_schedulable (w_dma w3)) o3 a b Ho3)) as (w4 & -> & I4 & D4 & _).
  exists w4. split; [reflexivity|]. split; [exact I4|congruence].
Qed.

Lemma ignition_ok w i : fsafe w -> 0 <= i < 16 -> exists w', schedule_ignition env true w i = Ok w' /\ fsafe w' /\ w_dec w' = w_dec w.
Proof.
  intros I Hi. unfold schedule_ignition. destruct (point_ok w I) as (n1 & w1 & -> & I1 & D1 & _). cbn [bind]. destruct (get_ok_out w1 i I1 Hi) as (o & -> & Ho). cbn [bind].
  destruct (ignition_plan_safe w1 (k_min_fire (w_cc w1)) o (cv_advance (w_vals w1)) (cv_dwell (w_vals w1)) I1 Ho (fs_adv _ I1) (fs_dwell _ I1) (co_rest _ (fs_cc _ I1))) as (o1 & p & -> & Ho1). cbn [bind].
  destruct (put_ok w1 i o1 I1 Hi Ho1) as (w2 & -> & I2 & D2 & _). cbn [bind]. destruct p as [[a b]|]; [|exists w2; split; [reflexivity|split; [exact I2|congruence]]].
  destruct (commit_ok w2 i a b I2 Hi) as (w3 & -> & I3 & D3). exists w3. split; [reflexivity|]. split; [exact I3|congruence].
Qed.

Lemma set_cbs_ok w k ids : fsafe w -> cwf 18 k ids -> fsafe (set_cbs w k).
Proof. intros I K. destruct I. split; auto. cbn [set_cbs w_cbs]. eauto. Qed.
Lemma callback_ok w i t : fsafe w -> 0 <= i < 18 -> exists k, schedule_callback true (w_cbs w) i t = Ok k /\ fsafe (set_cbs w k).
Proof.
  intros I Hi. destruct (fs_cbs w I) as [ids K]. destruct (cwf_schedule true 18 _ ids i t ltac:(lia) K Hi) as (k & l & E & K' & _). exists k. split; [exact E|]. eapply set_cbs_ok; eauto.
Qed.

Lemma fuel_ok w i : fsafe w -> 0 <= i < 16 -> exists w', schedule_fuel env true w i = Ok w' /\ fsafe w' /\ w_dec w' = w_dec w.
Proof.
  intros I Hi. unfold schedule_fuel. destruct (point_ok w I) as (n1 & w1 & -> & I1 & D1 & _). cbn [bind]. destruct (get_ok_out w1 i I1 Hi) as (o & -> & Ho). cbn [bind].
  destruct (fuel_plan_safe w1 o (cv_fueling (w_vals w1)) I1 Ho) as (o1 & p & -> & Ho1). cbn [bind].
  destruct (put_ok w1 i o1 I1 Hi Ho1) as (w2 & -> & I2 & D2 & _). cbn [bind]. destruct p as [[a b]|]; [|exists w2; split; [reflexivity|split; [exact I2|congruence]]].
  destruct (commit_ok w2 i a b I2 Hi) as (w3 & -> & I3 & D3). cbn [bind]. destruct (point_ok w3 I3) as (n4 & w4 & -> & I4 & D4 & _). cbn [bind]. destruct (get_ok_out w4 i I4 Hi) as (o4 & -> & Ho4). cbn [bind].
  destruct (_ && _); [|exists w4; split; [reflexivity|split; [exact I4|congruence]]].
  destruct (callback_ok w4 i (e_time (o_stop o4)) I4 ltac:(lia)) as (k & -> & Ik). cbn [bind]. eexists. split; [reflexivity|]. split; [exact Ik|]. cbn [set_cbs w_dec]. congruence.
Qed.

Lemma cuts_ok w v : fsafe w -> cuts_only (w_vals w) v -> fsafe (set_vals w v (w_tip w)).
Proof. intros I (r & b & o & ->). destruct I. split; auto. Qed.

Lemma event_ok w i : fsafe w -> 0 <= i < 16 -> 1 <= dd_rpm (w_dec w) -> exists w', schedule_event env true w i = Ok w' /\ fsafe w' /\ w_dec w' = w_dec w.
Proof.
  intros I Hi Hr. unfold schedule_event. destruct (get_ok_out w i I Hi) as (o & -> & Ho). cbn [bind].
  assert (Cut : exists b v, ignition_cut (w_cc w) (dd_rpm (w_dec w)) (w_sens w) (w_vals w) = Ok (b, v) /\ fsafe (set_vals w v (w_tip w))).
  { destruct (cut_any (w_cc w) (dd_rpm (w_dec w)) (w_sens w) (w_vals w)) as (b & v & E).
    - pose proof (ds_rpm _ _ (fs_dec w I)). lia.
    - apply (in_inj _ (co_range _ (fs_cc w I))).
    - apply (fs_fuel w I).
    - exists b, v. split; [exact E|]. apply cuts_ok; auto. eapply ignition_cut_cuts; eauto. }
  destruct Cut as (b & v & E & I1). unfold fuel_cut. destruct (o_type o); [exists w; auto|rewrite E..]; cbn [bind]; (destruct (b || _); [destruct (cancel_ok _ I1) as (w' & -> & I' & D')|]).
  - exists w'. auto.
  - destruct (fuel_ok _ i I1 Hi) as (w' & -> & I' & D'). exists w'. auto.
  - exists w'. auto.
  - destruct (ignition_ok _ i I1 Hi) as (w' & -> & I' & D'). exists w'. auto.
Qed.
Lemma from_ok n : forall i w, fsafe w -> 0 <= i -> i + Z.of_nat n <= 16 -> 1 <= dd_rpm (w_dec w) -> exists w', schedule_from env true n i w = Ok w' /\ fsafe w' /\ w_dec w' = w_dec w.
Proof.
  induction n as [|n IH]; intros i w I H0 H1 R; cbn [schedule_from]; [eauto|]. destruct (event_ok w i I ltac:(lia) R) as (w1 & -> & I1 & D1). cbn [bind].
  destruct (IH (i + 1) w1 I1 ltac:(lia) ltac:(lia) ltac:(congruence)) as (w2 & -> & I2 & D2). exists w2. split; [reflexivity|]. split; [exact I2|congruence].
Qed.

(** ** The steps *)
Lemma effects_ok fx : forall w, fsafe w -> exists w', effects env true fx w = Ok w' /\ fsafe w' /\ w_dec w' = w_dec w.
Proof.
  induction fx as [|[t|] fx IH]; intros w I; cbn [effects]; [eauto|..].
  - destruct (callback_ok w EXPIRE_CB t I ltac:(unfold EXPIRE_CB; lia)) as (k & -> & I1). cbn [bind]. destruct (IH _ I1) as (w' & -> & I' & D'). exists w'. auto.
  - destruct (cancel_ok w I) as (w1 & -> & I1 & D1). cbn [bind]. destruct (IH _ I1) as (w' & -> & I' & D'). exists w'. split; [reflexivity|]. split; [exact I'|congruence].
Qed.
Lemma set_dec_ok w d : fsafe w -> dsafe c d -> fsafe (set_dec w d).
Proof. intros I D. destruct I. split; auto. Qed.
Lemma fueling_keeps nd k now rpm s v t v' t' : calculate_fueling nd k now rpm s v t = Ok (v', t') -> cv_advance v' = cv_advance v /\ cv_dwell v' = cv_dwell v.
Proof. unfold calculate_fueling. intros E. do 4 inv_bind E. inv_bind E. destruct a3 as [tip c1]. inv_bind E. inv_bind E. injection E as <- <-. auto. Qed.

Lemma trigger_ok w n t : fsafe w -> pulse_may w n t -> exists w', decoder_update_scheduling env true w n t = Ok w' /\ fsafe w'.
Proof.
  intros I [P Tu]. unfold decoder_update_scheduling. rewrite (fs_dc w I) in *. destruct (trigger_safe c C (w_dec w) n t (fs_dec w I) P) as (d & fx & E & D). specialize (D (Tu _ _ E)). rewrite E. cbn [bind].
  destruct (effects_ok fx _ (set_dec_ok w d I D)) as (w1 & -> & I1 & D1). cbn [bind]. destruct (Z.eqb_spec (dd_valid (w_dec w1)) 0) as [V|V]; [eauto|]. destruct (alive w1 I1 V) as [R1 _].
  destruct (ignition_any true (w_cc w1) (dd_rpm (w_dec w1)) (w_sens w1) (w_vals w1) (fs_cc w1 I1) (fs_sens w1 I1) R1) as (v & -> & F1 & F2 & F3). cbn [bind].
  destruct (point_ok w1 I1) as (now & w2 & -> & I2 & D2 & _). cbn [bind].
  destruct (fueling_range true (w_cc w2) now (dd_rpm (w_dec w2)) (w_sens w2) v (w_tip w2) (co_range _ (fs_cc w2 I2)) (fs_sens w2 I2) (ds_rpm _ _ (fs_dec w2 I2)) (fs_tip w2 I2)) as (v2 & t2 & E2 & T2 & B2).
  rewrite E2. cbn [bind]. destruct (fueling_keeps _ _ _ _ _ _ _ _ _ E2) as [K1 K2].
  destruct (from_ok MAX_EVENTS 0 (set_vals w2 v2 t2)) as (w3 & -> & I3 & _); [|lia|unfold MAX_EVENTS; lia|cbn [set_vals w_dec]; rewrite D2; lia|eauto].
  destruct I2. split; auto; cbn [set_vals w_vals]; [now rewrite K1|now rewrite K2].
Qed.

Lemma lose_ok w d : fsafe w -> dsafe c d -> exists w', lose_position env true w d = Ok w' /\ fsafe w'.
Proof. intros I D. unfold lose_position. destruct (cancel_ok _ (set_dec_ok w d I D)) as (w' & E & I' & _). eauto. Qed.
Lemma lost_safe d l : dsafe c d -> dsafe c (invalidate_decoder (set_loss d l)).
Proof. intros [Di Wd Nw A R Tr Tu]. apply invalidate_safe; auto. apply (di_len _ _ Di). Qed.

Lemma point_tooth w now w' : point env w = Ok (now, w') -> w_tooth w' = w_tooth w.
Proof. intros E. apply point_quiet in E. destruct E as ((_ & _ & _ & _ & _ & _ & T) & _). exact T. Qed.
Lemma test_degrees n tooth : 2 <= n <= 36000 -> iv (fst (fst (test_wheel_next n tooth))) 0 720.
Proof.
  intros N. unfold test_wheel_next. cbv zeta. assert (Z2 : (4 <= IZR (2 * n) <= 72000)%R) by (split; [apply (IZR_le 4)|apply (IZR_le _ 72000)]; lia).
  assert (A : iv (fdiv (f_of_Z 720) (f_of_Z (2 * n))) 0 180).
  { eapply (iv_div _ _ 720 720 (IZR (2 * n)) (IZR (2 * n)) 0 180); [apply (iv_Z 720); lia|apply (iv_Z (2 * n)); lia|apply (rep_Z 0); lia|apply (rep_Z 180); lia|lra|lra|lra|lra|lra]. }
  destruct (tooth =? 1); [|destruct (tooth =? 36)]; cbn [fst snd]; try (eapply iv_weak; [exact A|lra|lra]).
  eapply (iv_mul _ _ 2 2 0 180 0 720); [apply (iv_Z 2); lia|exact A|apply (rep_Z 0); lia|apply (rep_Z 720); lia|lra|lra|lra|lra].
Qed.
Hypothesis Hsm : 0 <= sm < 2 ^ 32.
Lemma test_ok w : fsafe w -> (w_simrpm w <> 0 -> dc_num c <= 36000 /\ forall t, get (cb_time (w_cbs w)) TEST_CB = Ok t -> pulse_may w (test_input w) t) -> exists w', execute_test_trigger env true w = Ok w' /\ fsafe w'.
Proof.
  intros I P. unfold execute_test_trigger. destruct (Z.eqb_spec (w_simrpm w) 0) as [R0|R0]; [eauto|]. destruct (P R0) as [Nu Q]. clear P. destruct (fs_cbs w I) as [ids K].
  destruct (get_in_range (cb_time (w_cbs w)) TEST_CB) as [t G]; [rewrite (cw_time _ _ _ K); unfold TEST_CB; lia|]. rewrite G. cbn [bind]. specialize (Q t G). unfold test_input in Q.
  pose proof (su_num c (do_supported c C)) as N2. rewrite (fs_dc w I) in *. assert (Es : s32 (dc_num c) = dc_num c) by (unfold s32, W, HALF; destruct (Z.ltb_spec (dc_num c) 2147483648); lia). rewrite Es in *.
  pose proof (test_degrees (dc_num c) (w_tooth w) ltac:(lia)) as Dg. destruct (test_wheel_next (dc_num c) (w_tooth w)) as [[deg tr] tooth]. cbn [fst snd] in Q, Dg.
  destruct (trigger_ok (set_sim w (w_simrpm w) tooth) tr t) as (w1 & -> & I1).
  { destruct I. split; auto. }
  { unfold pulse_may. cbn [set_sim w_dc w_dec]. exact Q. }
  cbn [bind]. rewrite (fs_sim _ I1). rewrite (fs_sim _ I) in R0. destruct (time_ok sm deg ltac:(lia) Dg) as (x & -> & _). cbn [bind]. destruct (callback_ok w1 TEST_CB (w32 (t + x)) I1 ltac:(unfold TEST_CB; lia)) as (k & -> & Ik). cbn [bind]. eauto.
Qed.

Lemma timer_ok w : fsafe w -> may w FTimer -> exists w', timer_interrupt env true w = Ok w' /\ fsafe w'.
Proof.
  intros I (N & R & T). unfold timer_interrupt. cbn [c_assert bind]. destruct (fs_cbs w I) as [ids K]. destruct (cw_arr _ _ _ K) as (rest & _ & L32).
  destruct (get_in_range (cb_arr (w_cbs w)) 0) as [cb G]; [rewrite L32; lia|]. rewrite G. cbn [bind]. pose proof (head_pending _ _ _ _ K N G) as Hh. pose proof (cw_range _ _ _ K _ Hh) as Rc. specialize (R cb G).
  pose proof (point_tooth w) as T1. destruct (point_ok w I) as (now & w1 & Ep & I1 & D1 & C1 & _). specialize (T1 _ _ Ep). rewrite Ep. cbn [bind]. rewrite C1. destruct (cwf_remove true 18 _ ids cb K Hh) as (k & l1 & l2 & -> & _ & K1 & Kt & _). cbn [bind].
  pose proof (set_cbs_ok w1 k _ I1 K1) as I2.
  assert (X : exists w', callback env true (set_cbs w1 k) cb = Ok w' /\ fsafe w').
  { unfold callback. destruct (Z.eqb_spec cb EXPIRE_CB) as [->|N1]; [apply lose_ok; [exact I2|apply lost_safe, (fs_dec _ I2)]|]. destruct (Z.eqb_spec cb TEST_CB) as [->|N2].
    - apply test_ok; [exact I2|]. rewrite (fs_sim _ I2), <- (fs_sim _ I). intros R0. destruct (T G R0) as [Nu P]. rewrite (fs_dc _ I) in Nu. split; [exact Nu|]. unfold pulse_may, test_input in *. cbn [set_cbs w_cbs w_dc w_dec w_tooth].
      rewrite D1, T1, (fs_dc _ I1), Kt. rewrite (fs_dc _ I) in P. exact P.
    - unfold EXPIRE_CB, TEST_CB in *. destruct (event_ok (set_cbs w1 k) cb I2) as (w' & -> & I' & _); [lia|cbn [set_cbs w_dec]; rewrite D1; apply R; lia|eauto]. }
  destruct X as (w3 & -> & I3). cbn [bind]. destruct (Z.ltb_spec 0 (cb_n (w_cbs w3))) as [N3|N3]; [|eauto]. destruct (fs_cbs _ I3) as [ids3 K3].
  destruct (cwf_arm 18 _ ids3 K3) as (k4 & -> & K4 & _); [intros ->; rewrite (cw_n _ _ _ K3) in N3; simpl in N3; lia|]. cbn [bind]. eexists. split; [reflexivity|]. eapply set_cbs_ok; eauto.
Qed.

Lemma new_wheel d c' : dsafe c d -> same_wheel c c' \/ dd_state d = NOSYNC /\ dd_cur d = 0 -> dsafe c' d.
Proof.
  intros [[L Cu Si Va Sy Ev Rp] Wd Nw A Rr Tr Tu] [(E1 & E2 & E3)|[S0 C0]].
  - assert (Em : missing c' = missing c) by (unfold missing; now rewrite E1). split; rewrite ?Em; auto. split; rewrite ?Em, ?E1, ?E2, ?E3; auto.
  - split; auto; try lia; [split; auto; try congruence; rewrite C0; destruct (missing c'); lia|]. rewrite S0. destruct (missing c'); congruence.
Qed.
End Safe.

(** Sensible settings and a sensible state. *)
Definition safe (w : fw) : Prop := exists c r, dec_ok c /\ 0 <= r < 2 ^ 32 /\ fsafe c r w.
Lemma step_ok env w e : safe w -> may w e -> exists w', fstep env true w e = Ok w' /\ safe w'.
Proof.
  intros (c & r & C & Hr & I) M. assert (K : forall w', fsafe c r w' -> safe w') by (intros w' I'; exists c, r; auto). destruct e; cbn [fstep].
  - destruct (trigger_ok env c C r w n t I M) as (w' & E & I'). eauto.
  - destruct (timer_ok env c C r Hr w I M) as (w' & E & I'). eauto.
  - destruct (lose_ok env c r w (invalidate_decoder (set_loss (w_dec w) OVERFLOW)) I) as (w' & E & I'); [apply lost_safe; [exact C|apply (fs_dec _ _ _ I)]|]. eauto.
  - destruct (point_ok env c r w I) as (now & w1 & -> & I1 & _). cbn [bind]. eauto.
  - eexists. split; [reflexivity|]. cbn [may] in M. apply K. destruct I. split; auto.
  - eexists. split; [reflexivity|]. cbn [may] in M. destruct M as [D S]. exists c0, r. split; [exact D|]. split; [exact Hr|]. destruct I. split; auto. cbn [w_dec]. apply (new_wheel c); auto. now rewrite fs_dc0 in S.
  - eexists. split; [reflexivity|]. cbn [may] in M. apply K. destruct I. split; auto.
  - cbn [may] in M. destruct M as (Hi & Ha & Hp). destruct (get_ok_out c r w i I Hi) as (o & -> & Ho). cbn [bind]. destruct (put_ok c r w i (Output ty angle pin inv (o_start o) (o_stop o)) I Hi) as (w' & -> & I' & _); [|eauto].
    destruct Ho as (_ & P & Q). split; [split; auto|auto].
  - cbn [may] in M. destruct (point_ok env c r w I) as (now & w1 & -> & I1 & _). cbn [bind]. destruct (callback_ok c r w1 TEST_CB (w32 (now + 10000)) I1 ltac:(unfold TEST_CB; lia)) as (k & -> & Ik). cbn [bind].
    eexists. split; [reflexivity|]. exists c, rpm. split; [exact C|]. split; [exact M|]. destruct Ik. split; auto.
  - destruct (cancel_ok env c r w I) as (w' & E & I' & _). eauto.
Qed.
Lemma run_ok env l : forall w, safe w -> sound env true w l -> exists w', frun env true w l = Ok w' /\ safe w'.
Proof.
  induction l as [|e l IH]; intros w I S; cbn [frun]; [eauto|]. cbn [sound] in S. destruct S as [M S]. destruct (step_ok env w e I M) as (w1 & E & I1). rewrite E in S |- *. cbn [bind]. now apply IH.
Qed.
