(** C90: whatever happens, the running firmware executes nothing undefined. *)
Require Import ZArith Reals List Bool Lia Lra.
From Verif Require Import Res Word F32 F32Flocq Arr Interval Outputs Buffers BufferProofs OutputRun PulseProofs Callbacks CallbackSafe Decoder DecoderProofs DecoderSafe DecoderAngle Calc CalcSpec FuelProofs DefaultConfig P_Calc
  System SystemProofs SystemRun SafeSpec SafeDec FwSafe.
Import ListNotations.
Open Scope Z_scope.
Ltac Zify.zify_post_hook ::= idtac.

(** decoder_init replaces a tolerance of 0 by one half. *)
Lemma init_ok c : dec_ok c -> dec_ok (fst (decoder_init c dec_init)).
Proof.
  intros [[S1 S2 S3] [V F B N] T Wi Mi O]. unfold decoder_init. cbn [fst]. split; cbn [dc_required dc_window dc_num dc_dpt dc_min_rpm dc_offset dc_max_change]; auto; [split; auto|split; auto|].
  destruct (feq _ _); [|exact T]. assert (R12 : rep (1 / 2)) by (replace (1 / 2)%R with (/ IZR (2 ^ 1))%R by (simpl; lra); apply rep_n; lia).
  eapply iv_weak; [unfold flit; eapply (iv_divc _ _ 1 1 2 (1 / 2) (1 / 2)); [apply (iv_Z 1); lia|apply (iv_Z 2); lia|exact R12|exact R12|lra|lra|lra]|lra|lra].
Qed.
Lemma start_ok dc cc s os : dec_ok dc -> calc_ok cc -> sens_in_range s -> length os = 16%nat -> Forall output_ok os -> Forall fresh os ->
  fsafe (fst (decoder_init dc dec_init)) 0 (fw_init dc cc s os).
Proof.
  intros D K S L O F. split; cbn [fw_init decoder_init w_dc w_dec w_cc w_sens w_tip w_vals w_outs w_dma w_cbs w_simrpm]; auto.
  - split; cbn [dd_times dd_cur dd_since dd_state dd_last_angle dd_rpm dd_tooth_rpm]; try lia; try discriminate.
    + split; cbn [dd_times dd_cur dd_since dd_state dd_valid]; try lia; try discriminate; [reflexivity|destruct (missing _); lia|split; cbn [dd_valid dd_state]; [auto|congruence]].
    + intros x I. cbn [dec_init dd_times] in I. apply repeat_spec in I. lia.
    + apply in_cycle_zero.
    + destruct (missing _); congruence.
  - split; [reflexivity|]. split; [reflexivity|]. cbn [tipin_init tp_amount]. rewrite R_f_zero. lra.
  - split; [reflexivity|]. split; [reflexivity|]. cbn [cvals_init cv_advance]. rewrite R_f_zero, Rabs_R0. lra.
  - cbn [cvals_init cv_dwell]. lia.
  - cbn [cvals_init cv_fueling]. lia.
  - split; [exact L| |reflexivity|reflexivity]. apply Forall_forall. intros o Io. rewrite Forall_forall in O, F. split; [apply O; auto|]. destruct (F o Io) as (_ & _ & _ & _ & P & Q). auto.
  - exists []. exact (cwf_init 18 ltac:(lia)).
Qed.

Lemma start_safe dc cc s os : dec_ok dc -> calc_ok cc -> sens_in_range s -> length os = 16%nat -> Forall output_ok os -> Forall fresh os -> safe (fw_init dc cc s os).
Proof. intros D K S L O F. exists (fst (decoder_init dc dec_init)), 0. split; [now apply init_ok|]. split; [lia|now apply start_ok]. Qed.

(** Start the release build (NDEBUG: targets/stm32f4.mk 13, targets/gd32f4.mk 68) with sensible settings and let it run in any
    world: any pulses on any trigger, timer interrupts at any time, buffer swaps at any time and anywhere, readings and settings
    changing, the wheel described anew, the test wheel running, captures lost, outputs shut down. As long as each event is one that may happen (SafeSpec.v), every step is
    defined: no division by zero, no conversion of a float that does not fit, no access outside an array, no endless loop. *)
Theorem C90_defined : forall env dc cc s os l, dec_ok dc -> calc_ok cc -> sens_in_range s -> length os = 16%nat -> Forall output_ok os -> Forall fresh os ->
  sound env true (fw_init dc cc s os) l -> exists w, frun env true (fw_init dc cc s os) l = Ok w.
Proof.
  intros env dc cc s os l D K S L O F Sn. destruct (run_ok env l _ (start_safe dc cc s os D K S L O F) Sn) as (w & E & _). eauto.
Qed.
Print Assumptions C90_defined.

(** In every state of such a run the commands are sensible: advance within a cycle, dwell and pulse width below 651 s, the
    reference angle within the cycle, at most 18 callbacks pending. *)
Theorem C90_commands : forall env dc cc s os l w, dec_ok dc -> calc_ok cc -> sens_in_range s -> length os = 16%nat -> Forall output_ok os -> Forall fresh os ->
  sound env true (fw_init dc cc s os) l -> frun env true (fw_init dc cc s os) l = Ok w ->
  (Rabs (R_ (cv_advance (w_vals w))) <= 720)%R /\ 0 <= cv_dwell (w_vals w) <= 651000000 /\ 0 <= cv_fueling (w_vals w) <= 651000000 /\
  (0 <= R_ (dd_last_angle (w_dec w)) < 720)%R /\ (dd_valid (w_dec w) <> 0 -> 1 <= dd_rpm (w_dec w)) /\ 0 <= cb_n (w_cbs w) <= 18 /\ length (w_outs w) = 16%nat.
Proof.
  intros env dc cc s os l w D K S L O F Sn E. destruct (run_ok env l _ (start_safe dc cc s os D K S L O F) Sn) as (w' & E' & c & r & _ & _ & I). assert (w' = w) by congruence. subst w'.
  destruct (fs_adv _ _ _ I) as (_ & _ & A). destruct (ds_angle _ _ (fs_dec _ _ _ I)) as (_ & _ & B). destruct (fs_cbs _ _ _ I) as [ids Q]. pose proof (cwf_count _ _ _ Q).
  repeat split; try apply A; try apply (fs_dwell _ _ _ I); try apply (fs_fuel _ _ _ I); try apply B; try lia; [|apply (oo_len _ _ (fs_outs _ _ _ I))]. intros V. destruct (alive _ _ w I V). lia.
Qed.
Print Assumptions C90_commands.

(** ** An engine *)
(* A 4-1 wheel at 6000 RPM, a coil and an injector, the default tables. *)
Definition entry_s : entry := Entry 0 0 false UNSCHEDULED.
Definition wheel_s (ty : dtype) : dcfg := DCfg ty f_zero (flit 7 20) 80 2 4 (f_of_Z 90) 4.
Definition os_s : list output :=
  Output IGNITION_EVENT (f_of_Z 180) 3 false entry_s entry_s :: Output FUEL_EVENT (f_of_Z 300) 5 false entry_s entry_s :: repeat (Output DISABLED_EVENT f_zero 0 false entry_s entry_s) 14.
Definition start_s (ty : dtype) : fw := fw_init (wheel_s ty) default_calc ex_sens os_s.
Definition slots_s (t0 p : Z) (l : list Z) : list fev := map (fun k => FTrigger 0 (t0 + p * k)) l.
Definition spun : list fev := slots_s 1000000 10000 [0; 1; 2; 4; 5; 6; 8].
(* The clock advances 2000 ticks from point to point; a buffer swap at every third. *)
Definition world_s (k : nat) : Z * list Z := (Z.of_nat (k * 2000), if (k mod 3 =? 0)%nat then [Z.of_nat (k * 2000)] else []).
Definition long : list fev :=
  [FSensors ex_sens; FCalcConfig default_calc; FOutputConfig 2 FUEL_EVENT (f_of_Z 420) 6 true; FIdle] ++ spun ++ [FTimer] ++ slots_s 1000000 10000 [9; 10; 12; 13] ++ [FOverflow] ++
  slots_s 1000000 10000 [14; 16; 17; 18; 20; 21] ++ [FTrigger 1 1210100; FShutdown; FTimer].

Lemma wheel_s_ok ty : dec_ok (wheel_s ty).
Proof.
  destruct (f_of_Z_exact 90) as [E F]; [cbn; lia|]. split; cbn [wheel_s dc_dpt dc_num dc_max_change dc_window dc_min_rpm dc_offset dc_required]; try lia.
  - split; cbn; lia.
  - split; cbn [wheel_s dc_dpt dc_num]; auto using vf_of_Z; rewrite E; lra.
  - rewrite <- (R_flit_int 0), <- (R_flit_int 4) by lia. apply ivb_ok. vm_compute. reflexivity.
  - rewrite E. lra.
  - split; [reflexivity|]. split; [reflexivity|]. rewrite R_f_zero, Rabs_R0. lra.
Qed.
Lemma default_ok : calc_ok default_calc.
Proof.
  split; [exact C34_default_cfg| |cbn; lia]. exists timing_vs_rpm_and_map. split; [reflexivity|]. rewrite <- (R_flit_int 360), <- (R_flit_int (-360)) by lia. apply usable2b_ok. vm_compute. reflexivity.
Qed.
Lemma os_s_ok : length os_s = 16%nat /\ Forall output_ok os_s /\ Forall fresh os_s.
Proof.
  split; [reflexivity|]. assert (A : forall z, 0 <= z <= 720 -> angle_ok (f_of_Z z)).
  { intros z Hz. destruct (f_of_Z_exact z) as [E F]; [lia|]. split; [apply vf_of_Z|]. split; [exact F|]. rewrite E. apply Rabs_le. split; [|apply (IZR_le _ 720); lia]. apply Rle_trans with 0%R; [lra|apply (IZR_le 0); lia]. }
  split.
  - apply Forall_forall. intros o I. destruct I as [<-|[<-|I]]; [split; [apply A; lia|cbn; lia]|split; [apply A; lia|cbn; lia]|].
    apply repeat_spec in I. subst o. split; [apply (A 0); lia|cbn; lia].
  - apply Forall_forall. intros o I. destruct I as [<-|[<-|I]]; [| |apply repeat_spec in I; subst o]; repeat split; cbn; unfold W; lia.
Qed.

(* Checks [sound]. *)
Definition turnsb (c : dcfg) (d : dec) : bool := negb (missing c) || negb (is_sync (dd_state d)) || (1 <=? dd_rpm d) && (1 <=? dd_tooth_rpm d).
Definition pulseb (c : dcfg) (d : dec) (n t : Z) : bool :=
  (0 <=? t) && (t <? 2 ^ 32) && (negb (is_tooth c n) || negb (existsb (Z.eqb t) (dd_times d)) && (missing c || match get (dd_times d) 0 with Ok u => (t - u) mod 2 ^ 32 <=? 2 ^ 31 | Err _ => true end)).
Definition pulse_mayb (w : fw) (n t : Z) : bool :=
  pulseb (w_dc w) (w_dec w) n t && match decoder_trigger (w_dc w) (w_dec w) n t with Ok (d, _) => turnsb (w_dc w) d | Err _ => true end.
Definition testb (p : Z -> Z -> bool) (w : fw) : bool :=
  match get (cb_arr (w_cbs w)) 0 with
  | Ok i => negb (i =? TEST_CB) || (w_simrpm w =? 0) || (dc_num (w_dc w) <=? 36000) && match get (cb_time (w_cbs w)) TEST_CB with Ok t => p (test_input w) t | Err _ => true end
  | Err _ => true
  end.
Definition same_type (a b : dtype) : bool :=
  match a, b with EVEN_NOSYNC, EVEN_NOSYNC | EVEN_CAMSYNC, EVEN_CAMSYNC | MISSING_NOSYNC, MISSING_NOSYNC | MISSING_CAMSYNC, MISSING_CAMSYNC => true | _, _ => false end.
Definition new_wheelb (w : fw) (c : dcfg) : bool :=
  same_type (dc_type c) (dc_type (w_dc w)) && (dc_required c =? dc_required (w_dc w)) && (dc_num c =? dc_num (w_dc w)) || is_nosync (dd_state (w_dec w)) && (dd_cur (w_dec w) =? 0).
Definition mayb (w : fw) (e : fev) : bool :=
  match e with
  | FTrigger n t => pulse_mayb w n t
  | FTimer => (0 <? cb_n (w_cbs w)) && (match get (cb_arr (w_cbs w)) 0 with Ok i => 16 <=? i | Err _ => true end || (1 <=? dd_rpm (w_dec w))) && testb (pulse_mayb w) w
  | FDecoderConfig c => new_wheelb w c
  | FTestRpm rpm => (0 <=? rpm) && (rpm <? 2 ^ 32)
  | _ => true
  end.
Fixpoint soundb (env : nat -> Z * list Z) (w : fw) (l : list fev) : bool :=
  match l with [] => true | e :: r => mayb w e && match fstep env true w e with Ok w' => soundb env w' r | Err _ => true end end.
Definition side (e : fev) : Prop :=
  match e with FSensors s => sens_in_range s | FDecoderConfig c => dec_ok c | FCalcConfig k => calc_ok k | FOutputConfig i _ angle pin _ => 0 <= i < 16 /\ angle_ok angle /\ 0 <= pin mod 256 < 32 | _ => True end.
Lemma pulseb_ok c d n t : pulseb c d n t = true -> pulse_ok c d n t.
Proof.
  intros P. unfold pulseb in P. apply andb_prop in P. destruct P as [P Q]. apply andb_prop in P. destruct P as [P1 P2]. apply Z.leb_le in P1. apply Z.ltb_lt in P2. split; [lia|].
  assert (X : is_tooth c n = true -> ~ In t (dd_times d) /\ (missing c = false -> forall u, get (dd_times d) 0 = Ok u -> (t - u) mod 2 ^ 32 <= 2 ^ 31)).
  { intros Y. rewrite Y in Q. cbn [negb orb] in Q. apply andb_prop in Q. destruct Q as [Q1 Q2]. split.
    - intros Ht. apply negb_true_iff in Q1. rewrite <- not_true_iff_false in Q1. apply Q1. apply existsb_exists. exists t. split; [exact Ht|apply Z.eqb_refl].
    - intros M u G. rewrite M, G in Q2. now apply Z.leb_le. }
  split; [apply X|]. intros Y M _. now apply X.
Qed.
Lemma pulse_mayb_ok w n t : pulse_mayb w n t = true -> pulse_may w n t.
Proof.
  intros B. apply andb_prop in B. destruct B as [P T]. split; [now apply pulseb_ok|]. intros d fx E. rewrite E in T. intros M S. unfold turnsb in T. rewrite M, S in T. cbn [negb is_sync orb] in T.
  apply andb_prop in T. destruct T as [T1 T2]. apply Z.leb_le in T1. apply Z.leb_le in T2. auto.
Qed.
Lemma testb_ok (p : Z -> Z -> bool) (P : Z -> Z -> Prop) w : (forall n t, p n t = true -> P n t) -> testb p w = true ->
  get (cb_arr (w_cbs w)) 0 = Ok TEST_CB -> w_simrpm w <> 0 -> dc_num (w_dc w) <= 36000 /\ forall t, get (cb_time (w_cbs w)) TEST_CB = Ok t -> P (test_input w) t.
Proof.
  intros H B G R. unfold testb in B. rewrite G in B. replace (w_simrpm w =? 0) with false in B by (symmetry; now apply Z.eqb_neq). rewrite Z.eqb_refl in B. cbn [negb orb] in B. apply andb_prop in B. destruct B as [B1 B2]. apply Z.leb_le in B1. split; [exact B1|].
  intros t Gt. rewrite Gt in B2. now apply H.
Qed.
Lemma new_wheelb_ok w c : new_wheelb w c = true -> same_wheel (w_dc w) c \/ dd_state (w_dec w) = NOSYNC /\ dd_cur (w_dec w) = 0.
Proof.
  unfold new_wheelb. intros B. apply orb_prop in B. destruct B as [B|B]; [left|right].
  - apply andb_prop in B. destruct B as [B B3]. apply andb_prop in B. destruct B as [B1 B2]. apply Z.eqb_eq in B2, B3. split; [|auto]. destruct (dc_type c), (dc_type (w_dc w)); (reflexivity || discriminate B1).
  - apply andb_prop in B. destruct B as [B1 B2]. apply Z.eqb_eq in B2. split; [|exact B2]. destruct (dd_state (w_dec w)); (reflexivity || discriminate B1).
Qed.
Lemma soundb_ok env l : forall w, Forall side l -> soundb env w l = true -> sound env true w l.
Proof.
  induction l as [|e l IH]; intros w F B; [exact Logic.I|]. cbn [soundb] in B. apply andb_prop in B. destruct B as [B1 B2]. inversion F as [|? ? F1 F2]. subst. cbn [sound].
  split; [|destruct (fstep env true w e); [now apply IH|exact Logic.I]]. destruct e; cbn [mayb may side] in *; auto.
  - now apply pulse_mayb_ok.
  - apply andb_prop in B1. destruct B1 as [P T]. apply andb_prop in P. destruct P as [P Q]. apply Z.ltb_lt in P. split; [exact P|]. split; [intros i G Hi; rewrite G in Q; apply orb_prop in Q; destruct Q as [Q|Q]; apply Z.leb_le in Q; lia|]. apply (testb_ok (pulse_mayb w)); [|exact T]. intros n t. apply pulse_mayb_ok.
  - split; [exact F1|now apply new_wheelb_ok].
  - apply andb_prop in B1. destruct B1 as [P Q]. apply Z.leb_le in P. apply Z.ltb_lt in Q. lia.
Qed.

Definition seen (r : res fw) : option (Z * Z * Z * Z) := match r with Ok w => Some (dd_valid (w_dec w), dd_rpm (w_dec w), cb_n (w_cbs w), cv_fueling (w_vals w)) | Err _ => None end.
Lemma long_seen : seen (frun world_s true (start_s MISSING_NOSYNC) long) = Some (1, 6000, 3, 5405).
Proof. vm_cast_no_check (eq_refl (Some (1, 6000, 3, 5405))). Qed.
Lemma long_sound : soundb world_s (start_s MISSING_NOSYNC) long = true.
Proof. vm_cast_no_check (eq_refl true). Qed.
(* Settings and readings arrive, the wheel turns, the injector's callback runs, a capture is lost, the position is found
   again, the outputs are shut down and a callback runs; in the end the engine turns at 6000 RPM. *)
Example C90_example : dec_ok (wheel_s MISSING_NOSYNC) /\ calc_ok default_calc /\ sens_in_range ex_sens /\ length os_s = 16%nat /\ Forall output_ok os_s /\ Forall fresh os_s /\
  sound world_s true (start_s MISSING_NOSYNC) long /\
  exists w, frun world_s true (start_s MISSING_NOSYNC) long = Ok w /\ dd_valid (w_dec w) = 1 /\ dd_rpm (w_dec w) = 6000 /\ cb_n (w_cbs w) = 3 /\ cv_fueling (w_vals w) = 5405.
Proof.
  split; [apply wheel_s_ok|]. split; [apply default_ok|]. split; [apply C34_ex_sens|]. split; [apply os_s_ok|]. split; [apply os_s_ok|]. split; [apply os_s_ok|]. split.
  - apply soundb_ok; [|exact long_sound]. unfold long, spun, slots_s. cbn [map app]. repeat apply Forall_cons; try exact Logic.I; try apply Forall_nil; cbn [side].
    + apply C34_ex_sens.
    + apply default_ok.
    + split; [lia|]. destruct (f_of_Z_exact 420) as [E F]; [lia|]. split; [|cbn; lia]. split; [apply vf_of_Z|]. split; [exact F|]. rewrite E. apply Rabs_le. lra.
  - assert (X := long_seen).
    destruct (frun world_s true (start_s MISSING_NOSYNC) long) as [w|]; [|discriminate X]. exists w. cbn [seen] in X. split; [reflexivity|]. repeat split; congruence.
Qed.

(* On the bench: the test wheel turns at 3000 RPM, evenly spaced teeth; while the position is known the offset is changed to
   10 degrees; the test wheel is switched off, its last callback and an injector's run. *)
Definition wheel_t : dcfg := DCfg EVEN_NOSYNC (f_of_Z 10) (flit 7 20) 80 2 4 (f_of_Z 90) 4.
Definition bench : list fev := [FTestRpm 3000] ++ repeat FTimer 6 ++ [FDecoderConfig wheel_t; FTimer; FTimer; FTestRpm 0; FTimer; FTimer].
Lemma bench_seen : seen (frun world_s true (start_s EVEN_NOSYNC) bench) = Some (1, 3000, 1, 5575).
Proof. vm_cast_no_check (eq_refl (Some (1, 3000, 1, 5575))). Qed.
Lemma bench_sound : soundb world_s (start_s EVEN_NOSYNC) bench = true.
Proof. vm_cast_no_check (eq_refl true). Qed.
Example C90_bench_example : dec_ok (wheel_s EVEN_NOSYNC) /\ sound world_s true (start_s EVEN_NOSYNC) bench /\
  exists w, frun world_s true (start_s EVEN_NOSYNC) bench = Ok w /\ dd_valid (w_dec w) = 1 /\ dd_rpm (w_dec w) = 3000.
Proof.
  split; [apply wheel_s_ok|]. split.
  - apply soundb_ok; [|exact bench_sound]. unfold bench. cbn [repeat app]. repeat apply Forall_cons; try exact Logic.I; try apply Forall_nil. cbn [side].
    destruct (wheel_s_ok EVEN_NOSYNC) as [A B T Wi Mi O]. destruct (f_of_Z_exact 10) as [E F]; [lia|]. destruct A, B. split; auto; [split; auto|split; auto|].
    cbn [wheel_t dc_offset]. split; [apply vf_of_Z|]. split; [exact F|]. rewrite E. apply Rabs_le. lra.
  - assert (X := bench_seen). destruct (frun world_s true (start_s EVEN_NOSYNC) bench) as [w|]; [|discriminate X]. exists w. cbn [seen] in X. split; [reflexivity|]. split; congruence.
Qed.

(** ** Without these conditions *)
Definition still (k : nat) : Z * list Z := (0, []).
(* An engine turned at 0.6 RPM (25 s from slot to slot), four teeth, with a missing tooth: when the gap is seen the speed is
   reported as 0 while the position is reported as known, and a division by that speed is converted to an integer. *)
Theorem C90_slow_refuted : exists env dc cc s os l, dec_ok dc /\ calc_ok cc /\ sens_in_range s /\ Forall output_ok os /\ length os = 16%nat /\
  (forall n t, In (FTrigger n t) l -> n = 0 /\ exists k, t = 1000000 + 100000000 * k /\ 0 <= k <= 4) /\ frun env true (fw_init dc cc s os) l = Err FloatToInt.
Proof.
  exists still, (wheel_s MISSING_NOSYNC), default_calc, ex_sens, os_s, (slots_s 1000000 100000000 [0; 1; 2; 4]).
  split; [apply wheel_s_ok|]. split; [apply default_ok|]. split; [apply C34_ex_sens|]. split; [apply os_s_ok|]. split; [apply os_s_ok|]. split.
  - intros n t I. unfold slots_s in I. apply in_map_iff in I. destruct I as (k & E & I). assert (n = 0) by congruence. assert (Ht : t = 1000000 + 100000000 * k) by congruence. split; [assumption|]. exists k. split; [exact Ht|]. clear E Ht. cbn [In] in I. lia.
  - vm_compute. reflexivity.
Qed.
Print Assumptions C90_slow_refuted.
(* Two teeth at the same tick, evenly spaced teeth. *)
Theorem C90_same_tick_refuted : frun still true (start_s EVEN_NOSYNC) (slots_s 1000 10000 [0; 1; 2; 3; 4; 5]) <> Err FloatToInt /\
  frun still true (start_s EVEN_NOSYNC) (slots_s 1000 10000 [0; 1; 2; 3; 4; 5; 5]) = Err FloatToInt.
Proof. split; [vm_compute; discriminate|vm_compute; reflexivity]. Qed.
Print Assumptions C90_same_tick_refuted.
(* The engine stops for 12 minutes with evenly spaced teeth and the expiry callback does not run. *)
Theorem C90_stop_refuted : frun still true (start_s EVEN_NOSYNC) (slots_s 1000 10000 [0; 1; 2; 3; 4; 5] ++ [FTrigger 0 3000000000]) = Err FloatToInt.
Proof. vm_compute. reflexivity. Qed.
Print Assumptions C90_stop_refuted.
Definition pending (r : res fw) : option (Z * res Z) := match r with Ok w => Some (dd_valid (w_dec w), get (cb_arr (w_cbs w)) 0) | Err _ => None end.
Lemma late_seen : pending (frun still true (start_s MISSING_NOSYNC) (spun ++ [FOverflow] ++ slots_s 200000000 100000000 [0; 1; 2; 3])) = Some (0, Ok 1).
Proof. vm_cast_no_check (eq_refl (Some (0, Ok 1 : res Z))). Qed.
(* A capture is lost while an injection is scheduled, the engine is turned on at 0.6 RPM, then the injector's callback runs. *)
Theorem C90_callback_refuted : (exists w, frun still true (start_s MISSING_NOSYNC) (spun ++ [FOverflow] ++ slots_s 200000000 100000000 [0; 1; 2; 3]) = Ok w /\ dd_valid (w_dec w) = 0 /\ get (cb_arr (w_cbs w)) 0 = Ok 1) /\
  frun still true (start_s MISSING_NOSYNC) (spun ++ [FOverflow] ++ slots_s 200000000 100000000 [0; 1; 2; 3] ++ [FTimer]) = Err FloatToInt.
Proof.
  split; [|vm_compute; reflexivity].
  assert (X := late_seen).
  destruct (frun _ _ _ _) as [w|]; [|discriminate X]. exists w. cbn [pending] in X. split; [reflexivity|]. split; congruence.
Qed.
Print Assumptions C90_callback_refuted.
(* The test wheel is told to turn at one billion RPM: two of its teeth come at the same tick. *)
Theorem C90_test_speed_refuted : (exists w, frun still true (start_s EVEN_NOSYNC) [FTestRpm 1000000000; FTimer] = Ok w) /\
  frun still true (start_s EVEN_NOSYNC) [FTestRpm 1000000000; FTimer; FTimer] = Err FloatToInt /\
  frun still true (start_s MISSING_NOSYNC) (FTestRpm 1000000000 :: repeat FTimer 5) = Err FloatToInt.
Proof.
  split; [|split; vm_compute; reflexivity]. assert (X : seen (frun still true (start_s EVEN_NOSYNC) [FTestRpm 1000000000; FTimer]) <> None) by (vm_compute; discriminate).
  destruct (frun _ _ _ _) as [w|]; [eauto|now destruct X].
Qed.
Print Assumptions C90_test_speed_refuted.
