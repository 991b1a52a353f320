(** C89: the whole firmware, from the trigger pulses to the output pins. *)
Require Import ZArith Reals List Bool Lia Lra SpecFloat.
From Flocq Require Import Core.
From Verif Require Import Res Word F32 F32Flocq TimeProofs AngleProofs PulseProofs Arr Callbacks CallbackSafe Decoder DecoderRun Wheel WheelCam WheelCamProofs P_Wheel P_WheelCam DecoderProofs Calc System SystemProofs SystemRun SystemOutputs P_SystemOutputs
  Table DefaultConfig Outputs Buffers OutputSpec OutputRun P_Outputs P_Pulses CrankSpec P_Crank Spark SparkSpec SparkAim VarySpec SteerSpec P_Spark SteerRun WaveProofs P_Vary P_Steer FwSpec FwLink FwRun.
Import ListNotations.
Open Scope Z_scope.
Ltac Zify.zify_post_hook ::= idtac.

(** ** The pulses of a wheel with a cam *)
Lemma wheel_cam_succ num x f ct s n : wheel_cam num x f ct s (S n) = wheel_cam num x f ct s n ++ tooth_pulse num f (s + Z.of_nat n) :: cam_pulse num x ct (s + Z.of_nat n).
Proof. unfold wheel_cam. rewrite seq_S, flat_map_app. cbn [flat_map plus]. now rewrite app_nil_r. Qed.
Lemma prefix_app {A} (h r a b : list A) : h ++ r = a ++ b -> (exists r', a = h ++ r') \/ (exists b', h = a ++ b' /\ b' ++ r = b).
Proof.
  revert a. induction h as [|x h IH]; intros a E; [left; now exists a|]. destruct a as [|y a]; cbn [app] in E.
  - right. exists (x :: h). auto.
  - injection E as <- E. destruct (IH a E) as [(r' & ->)|(b' & -> & E')]; [left; now exists r'|right; now exists b'].
Qed.
(** Whatever the decoder has seen so far: some teeth with their cam pulses, or one tooth more. *)
Lemma cam_prefix num x f ct s N : forall h r, h ++ r = wheel_cam num x f ct s N ->
  exists n, h = wheel_cam num x f ct s n \/ h = wheel_cam num x f ct s n ++ [tooth_pulse num f (s + Z.of_nat n)].
Proof.
  induction N as [|N IH]; intros h r E.
  - exists 0%nat. left. cbn in E. apply app_eq_nil in E. apply E.
  - rewrite wheel_cam_succ in E. destruct (prefix_app _ _ _ _ E) as [(r' & E')|(b & -> & E')]; [exact (IH h r' (eq_sym E'))|].
    destruct b as [|p b]; [exists N; left; now rewrite app_nil_r|]. cbn [app] in E'. injection E' as -> E'. unfold cam_pulse in E'.
    destruct (cam_after num x (s + Z.of_nat N)) eqn:C.
    + destruct b as [|p b]; [exists N; right; reflexivity|]. cbn [app] in E'. injection E' as -> E'. apply app_eq_nil in E'. destruct E' as [-> _].
      exists (S N). left. rewrite wheel_cam_succ. unfold cam_pulse. now rewrite C.
    + apply app_eq_nil in E'. destruct E' as [-> _]. exists N. right. reflexivity.
Qed.
Lemma teeth_wheel num x f ct s n : teeth_in (wheel_cam num x f ct s n) = Z.of_nat n.
Proof.
  induction n as [|n IH]; [reflexivity|]. rewrite wheel_cam_succ, teeth_in_app, IH. cbn [teeth_in tooth_pulse]. unfold cam_pulse. destruct (cam_after _ _ _); cbn [teeth_in Z.eqb]; lia.
Qed.

(** ** The start *)
Lemma no_bits t j p v : slot_bit (empty_buffer t) j p v = false.
Proof.
  unfold slot_bit, empty_buffer. cbn [b_slots]. destruct (Res.get (repeat (Slot 0 0) 128) j) as [b|] eqn:E; [|reflexivity]. apply get_ok in E. destruct E as [_ E]. apply nth_error_In, repeat_spec in E. subst b.
  destruct v; cbn [s_on s_off]; now rewrite Z.bits_0.
Qed.
Lemma no_writes t n p : pin_writes (empty_buffer t) n p = [].
Proof. unfold pin_writes. induction (map Z.of_nat (seq 0 128)) as [|j l IH]; [reflexivity|]. cbn [flat_map]. rewrite !no_bits, IH. reflexivity. Qed.
Lemma swap_cur now d os d' os' : stm32_buffer_swap now d os = Ok (d', os') -> d_cur d' = d_next d.
Proof. unfold stm32_buffer_swap. intros H. apply bind_ok in H. destruct H as ([b1 o1] & _ & H). apply bind_ok in H. destruct H as ([b2 o2] & _ & H). injection H as <- <-. reflexivity. Qed.

Lemma fw_start env m nd c cc sens os w1 pin i : punctual env m -> length (snd (env 0%nat)) = 2%nat -> idle_outputs os -> fstep env nd (fw_init c cc sens os) FIdle = Ok w1 ->
  stw env m pin w1 None i Waiting = St (start_sys (m + 1) os) None i Waiting [].
Proof.
  intros P L I H. cbn [fstep] in H. apply bind_ok in H. destruct H as ([now w] & E & H). injection H as ->.
  assert (En : now = fst (env 0%nat)). { unfold point in E. replace (w_k (fw_init c cc sens os)) with 0%nat in E by reflexivity. destruct (env 0%nat). apply bind_ok in E. destruct E as ([? ?] & _ & E). now injection E as <- _. }
  rewrite En in E. unfold stw. rewrite (execution_start env m c cc sens os w1 P L I E). f_equal. unfold point in E. replace (w_k (fw_init c cc sens os)) with 0%nat in E by reflexivity.
  destruct (env 0%nat) as [t sw]. cbn [snd] in L. destruct sw as [|a [|b [|]]]; try discriminate. apply bind_ok in E. destruct E as ([d os'] & E1 & E2). injection E2 as <-. unfold pin_log. cbn [w_played].
  replace (w_played (fw_init c cc sens os)) with (@nil buffer) by reflexivity. replace (w_dma (fw_init c cc sens os)) with dma_init in * by reflexivity. cbn [app].
  cbn [swaps] in E1. apply bind_ok in E1. destruct E1 as ([d1 os1] & E1 & E2). replace (w_outs (fw_init c cc sens os)) with os in E1 by (unfold fw_init; destruct (decoder_init c dec_init); reflexivity). cbn [played]. rewrite E1. pose proof (swap_cur _ _ _ _ _ E1) as C1. cbn [writes_from]. rewrite C1. unfold dma_init. cbn [d_cur d_next]. rewrite !no_writes. 
  destruct (stm32_buffer_swap b d1 os1) as [[d2 os2]|]; reflexivity.
Qed.

Lemma good_start c cc sens os : (0 < R_ (dc_max_change c))%R -> length os = 16%nat -> idle_outputs os -> good c (k_min_fire cc) [] (fw_init c cc sens os).
Proof.
  intros Hm L I. assert (F : feq (dc_max_change c) f_zero = false).
  { destruct (feq (dc_max_change c) f_zero) eqn:E; [|reflexivity]. exfalso. destruct (dc_max_change c) as [b|b| |b n e]; try discriminate; cbn in *; try lra. destruct b; cbn in *; discriminate. }
  split.
  - apply finv_init; [exact L|]. intros o J. destruct I as [I _]. rewrite Forall_forall in I. apply (I o J).
  - unfold fw_init, decoder_init. rewrite F. cbn [w_dc]. destruct c; reflexivity.
  - exists []. split; [reflexivity|intros []].
  - reflexivity.
  - reflexivity.
  - intros _. exists []. split; [exact (cwf_init 18 ltac:(lia))|intros j []].
Qed.

(** ** The cam wheel *)
Section Cam.
Variables (c : dcfg) (f ct : Z -> Z) (s x g c0 : Z).
Hypothesis Tu : turning c f s.
Hypothesis Ty : dc_type c = MISSING_CAMSYNC.
Hypothesis G : is_first_gap (dc_num c) (dc_required c) s g.
Hypothesis C : is_first_cam (dc_num c) x g c0.
Let Wh := wheel_cam (dc_num c) x f ct s.

Lemma cam_keeps h : (exists N r, h ++ r = Wh N) -> keeps c h.
Proof.
  intros (N & r & E) h1 h2 ->. rewrite <- app_assoc in E. destruct (cam_prefix _ _ _ _ _ _ _ _ E) as (n & [->| ->]).
  - destruct (C75_sync c f ct s x g c0 n Tu Ty G C) as (d & fx & D & _ & Nc & _). eauto.
  - destruct (C75_sync_before_cam c f ct s x g c0 n Tu Ty G C) as (d & fx & D & _ & Nc). eauto.
Qed.

(** The run of the firmware as a run of one output, with what the decoder shows to each call. *)
Lemma cam_link env m nd cc sens os l w i pin kind o tooth late dec : punctual env m -> length (snd (env 0%nat)) = 2%nat -> length os = 16%nat -> output_alone kind pin i os o -> kind <> DISABLED_EVENT ->
  let w0 := fw_init c cc sens os in let tt k := tooth_time (dc_num c) f (tooth k) in
  frun env nd w0 (FIdle :: l) = Ok w -> (exists N r, pulses_of l ++ r = Wh N) -> g < c0 -> c0 <= tooth 0 -> calls_follow tooth ->
  smooth env nd m (Z.of_nat i) tt late (k_min_fire cc) 0 w0 (FIdle :: l) ->
  (forall k T v, nth_error (calls env nd (Z.of_nat i) 0 w0 (FIdle :: l)) k = Some (T, v) -> tooth (Z.of_nat k) = s + T - 1 /\ forall d o, dec (Z.of_nat k) d o = told nd kind (k_min_fire cc) (w_vals v) d o) ->
  open_from (m + 1) <= tt 0 + late /\ exists vw, (forall k, 0 <= k -> exists h d fx, cam_history (dc_num c) x f ct s c0 (Z.to_nat (tooth k - s + 1)) h /\ drun c dec_init h = Ok (d, fx) /\ vw k = seen c d) /\
    exists acts k', exec nd dec vw tt i pin late (St (start_sys (m + 1) os) None 0 Waiting []) acts (stw env m pin w None k' Waiting).
Proof.
  intros P L Lo (Hp & Eo & Fr & Ps & Al & To) Nd w0 tt H Pu Hg H0 Cf S K. assert (I : idle_outputs os) by (split; auto).
  assert (Hi : (i < 16)%nat) by (rewrite <- Lo; apply nth_error_Some; congruence). assert (N3 : 3 <= dc_num c) by (destruct Tu; lia).
  cbn [frun smooth] in H, S. destruct (fstep env nd w0 FIdle) as [w1|] eqn:E; cbn [bind] in H; [|discriminate]. destruct S as (_ & NC & O & _ & S). cbn [call_made] in S.
  assert (B1 : block_of env m w1 = m + 1).
  { cbn [fstep] in E. apply bind_ok in E. destruct E as ([now w2] & E & X). injection X as ->. unfold point in E. replace (w_k w0) with 0%nat in E by reflexivity. destruct (env 0%nat) as [t sw] eqn:Ee. apply bind_ok in E. destruct E as ([d1 os1] & _ & E). injection E as _ <-.
    unfold block_of. cbn [w_k swaps_before]. rewrite Ee. cbn [snd] in L |- *. lia. }
  rewrite B1 in O. split; [exact O|].
  assert (G0 : good c (k_min_fire cc) [] w0) by (apply good_start; auto; apply Tu).
  assert (Kp : keeps c (pulses_of l)) by (apply cam_keeps; exact Pu).
  destruct (step_good env nd c (k_min_fire cc) [] w0 FIdle w1 G0 E Logic.I) as [G1 _]; [exists dec_init, []; split; [reflexivity|intros []]|]. cbn [app pulse_of] in G1.
  assert (Ty1 : typed i kind w1 /\ in_step env w1).
  { cbn [fstep] in E. apply bind_ok in E. destruct E as ([now w2] & E & X). injection X as ->. split.
    - destruct (point_quiet _ _ _ _ E) as (_ & Q & _). eapply leq_typed; [exact 0|exact dec|exact (fun _ => DView 0 0 0 0 f_zero f_zero)|exact Q|]. exists o. split; auto.
    - unfold point in E. replace (w_k w0) with 0%nat in E by reflexivity. destruct (env 0%nat) as [t sw] eqn:Ee. apply bind_ok in E. destruct E as ([d1 os1] & E1 & E). injection E as _ <-.
      unfold in_step. cbn [w_k w_played swaps_before]. pose proof (played_length _ _ _ _ _ E1) as Pl. rewrite Ee. cbn [snd]. replace (w_outs w0) with os in * by reflexivity. cbn [app] in *. change (w_dma w0) with dma_init in Pl. lia. }
  destruct Ty1 as [T1 I1].
  assert (Cs : calls env nd (Z.of_nat i) 0 w0 (FIdle :: l) = calls env nd (Z.of_nat i) 0 w1 l) by (cbn [calls]; rewrite E; reflexivity). rewrite Cs in K.
  set (cs := calls env nd (Z.of_nat i) 0 w1 l) in *.
  assert (Up : forall k, 0 <= k -> c0 <= tooth k).
  { intros k Hk. replace k with (Z.of_nat (Z.to_nat k)) by lia. induction (Z.to_nat k) as [|n IH]; [exact H0|]. destruct (Cf (Z.of_nat n) ltac:(lia)) as [X|X]; rewrite Nat2Z.inj_succ; unfold Z.succ; lia. }
  set (vw k := match nth_error cs (Z.to_nat k) with Some (_, v) => view v | None => match drun c dec_init (Wh (Z.to_nat (tooth k - s + 1))) with Ok (d, _) => seen c d | Err _ => DView 0 0 0 0 f_zero f_zero end end).
  exists vw. split.
  - intros k Hk. unfold vw. destruct (nth_error cs (Z.to_nat k)) as [[T v]|] eqn:J.
    + destruct (K (Z.to_nat k) T v J) as [Kt _]. rewrite Z2Nat.id in Kt by lia.
      destruct (calls_good env nd c (k_min_fire cc) m i tt late Hi l w1 [] 0 0 w _ T v G1 H Kp S J) as (h1 & h2 & E1 & -> & [_ Gc (fx & Gd & _) _ _ _] & V). cbn [app] in Gd.
      exists h1, (w_dec v), fx. split; [|split; [exact Gd|unfold view, seen; now rewrite Gc]].
      destruct Pu as (N & r & Pu). rewrite E1, <- app_assoc in Pu. destruct (cam_prefix _ _ _ _ _ _ _ _ Pu) as (n & [->| ->]).
      * left. f_equal. rewrite teeth_wheel in Kt. lia.
      * right. exists n. destruct (C75_sync_before_cam c f ct s x g c0 n Tu Ty G C) as (d & fx' & D & Va & _). rewrite D in Gd. injection Gd as -> ->. destruct (Z.ltb_spec c0 (s + Z.of_nat n)); [|lia].
        rewrite teeth_in_app, teeth_wheel in Kt. cbn [teeth_in tooth_pulse Z.eqb] in Kt. split; [lia|]. split; [lia|reflexivity].
    + destruct (C75_sync c f ct s x g c0 (Z.to_nat (tooth k - s + 1)) Tu Ty G C) as (d & fx & D & _). exists (Wh (Z.to_nat (tooth k - s + 1))), d, fx. unfold Wh in *. rewrite D. split; [left; reflexivity|auto].
  - rewrite <- (fw_start env m nd c cc sens os w1 pin 0 P L I E). apply (run_linked env nd c (k_min_fire cc) m i tt late Hi P pin kind Nd dec vw) with (h := []) (T := 0) (l := l); auto; try lia.
    + intros k Hk. unfold tt. destruct (Cf k Hk) as [-> | ->]; [|lia]. unfold tooth_time. pose proof (Up k Hk) as Uk.
      assert (Sl : Wheel.slot (dc_num c) s <= Wheel.slot (dc_num c) (tooth k)) by (replace (tooth k) with (s + (tooth k - s)) by ring; apply WheelProofs.slot_mono; [exact N3|]; destruct G as (_ & ? & _); destruct Tu; lia).
      rewrite (WheelProofs.slot_succ _ N3). set (z := Wheel.slot (dc_num c) (tooth k)) in *. pose proof (tn_steady _ _ _ Tu) as St.
      destruct (St z) as (a & b & Ba & Bb). pose proof (Bb z Sl ltac:(lia)). pose proof (Bb (z + 1) ltac:(lia) ltac:(lia)) as B2. replace (z + 1 + 1) with (z + 2) in B2 by ring. destruct Ba as [Ba _ _ _]. destruct (_ =? 0); lia.
    + intros j T v J. rewrite Z.add_0_l. destruct (K j T v J) as [_ Kd]. split; [|exact Kd]. unfold vw. rewrite Nat2Z.id. fold cs in J. now rewrite J.
Qed.
End Cam.

(** ** C89 *)
(** C88 for the whole firmware of System.v. It is switched on, with two swap interrupts before anything else
    (as on the hardware, see P_SystemOutputs.v). What goes in are the pulses of a wheel with a cam,
    from the first tooth on; sensor values and calculation settings may change; the timer and swap interrupts come
    whenever they do. The commands are the values the firmware itself has calculated when it makes the call. What
    comes out is what the hardware writes to the pin while it plays the output buffers. [calls] and [smooth] are in
    FwSpec.v, [sparks_told] in SteerRun.v. Every cycle gets exactly one spark. *)
Theorem C89_sparks : forall c f p ct q1 q2 delta s x g c0, turning c f s -> dc_type c = MISSING_CAMSYNC -> is_first_gap (dc_num c) (dc_required c) s g -> is_first_cam (dc_num c) x g c0 ->
  0 <= x < 2 * (dc_num c - 1) -> (exists z, R_ (dc_dpt c) = IZR z / 8192)%R -> (IZR (dc_num c) * R_ (dc_dpt c) = 360)%R -> moves f p (R_ (dc_dpt c)) q1 q2 delta -> angle_ok (dc_offset c) ->
  forall tooth, g < c0 -> c0 <= tooth 0 -> calls_follow tooth ->
  let idx k := Wheel.slot (dc_num c) (tooth k) in let tt k := tooth_time (dc_num c) f (tooth k) in let zero := Wheel.slot (dc_num c) (turn_start (dc_num c) x) in
  forall adv dwell about alpha len1 len2 late pin i os o cc sens, (forall k, 0 <= k -> angle_ok (adv k)) -> angle_ok (o_angle o) -> length os = 16%nat -> coil_alone pin i os o ->
  let target k := (R_ (o_angle o) - R_ (adv k) + R_ (dc_offset c))%R in
  sregime (R_ (dc_dpt c)) q1 q2 delta alpha late len1 len2 0 (k_min_fire cc) -> steers (R_ (dc_dpt c)) zero idx target dwell about alpha len1 len2 0 false -> retards_slowly (R_ (dc_dpt c)) idx adv ->
  forall env m nd l w, punctual env m -> length (snd (env 0%nat)) = 2%nat ->
  let w0 := fw_init c cc sens os in frun env nd w0 (FIdle :: l) = Ok w ->
  (exists N r, pulses_of l ++ r = wheel_cam (dc_num c) x f ct s N) ->
  smooth env nd m (Z.of_nat i) tt late (k_min_fire cc) 0 w0 (FIdle :: l) ->
  (forall k T v, nth_error (calls env nd (Z.of_nat i) 0 w0 (FIdle :: l)) k = Some (T, v) ->
     tooth (Z.of_nat k) = s + T - 1 /\ adv (Z.of_nat k) = cv_advance (w_vals v) /\ dwell (Z.of_nat k) = cv_dwell (w_vals v)) ->
  sparks_told p (R_ (dc_dpt c)) q1 q2 delta alpha zero idx tt target dwell about late len2 o (128 * block_of env m w) (pin_log m w pin).
Proof.
  intros c f p ct q1 q2 delta s x g c0 Tu Ty G C Hx D N Mv Ao tooth Hg H0 Cf idx tt zero adv dwell about alpha len1 len2 late pin i os o cc sens Aa Ang Lo Co target Rg Sr Re env m nd l w P L w0 H Pu S K.
  destruct (cam_link c f ct s x g c0 Tu Ty G C env m nd cc sens os l w i pin IGNITION_EVENT o tooth late (fun k d o => decide nd (k_min_fire cc) d o (adv k) (dwell k)) P L Lo Co ltac:(discriminate) H Pu Hg H0 Cf S)
    as (Op & vw & Vw & acts & k' & Ex).
  { intros k T v J. destruct (K k T v J) as (Kt & Ka & Kd). split; [exact Kt|]. intros d o'. unfold told. now rewrite Ka, Kd. }
  destruct (C88_sparks c f p ct q1 q2 delta s x g c0 Tu Ty G C Hx D N Mv Ao tooth vw H0 ltac:(lia) Cf Vw nd (k_min_fire cc) adv dwell about alpha len1 len2 late pin i (m + 1) os o Aa Ang Co Op Rg Sr Re acts _ Ex) as [X _]. exact X.
Qed.
Print Assumptions C89_sparks.

(** Every cycle gets exactly one injection. *)
Theorem C89_injections : forall c f p ct q1 q2 delta s x g c0, turning c f s -> dc_type c = MISSING_CAMSYNC -> is_first_gap (dc_num c) (dc_required c) s g -> is_first_cam (dc_num c) x g c0 ->
  0 <= x < 2 * (dc_num c - 1) -> (exists z, R_ (dc_dpt c) = IZR z / 8192)%R -> (IZR (dc_num c) * R_ (dc_dpt c) = 360)%R -> moves f p (R_ (dc_dpt c)) q1 q2 delta -> angle_ok (dc_offset c) ->
  forall tooth, g < c0 -> c0 <= tooth 0 -> calls_follow tooth ->
  let idx k := Wheel.slot (dc_num c) (tooth k) in let tt k := tooth_time (dc_num c) f (tooth k) in let zero := Wheel.slot (dc_num c) (turn_start (dc_num c) x) in
  forall pw len1 len2 dv late pin i os o cc sens, angle_ok (o_angle o) -> length os = 16%nat -> injector_alone pin i os o ->
  let target := (R_ (o_angle o) + R_ (dc_offset c))%R in
  sregime (R_ (dc_dpt c)) q1 q2 delta 0 late len1 len2 dv 0 -> steers (R_ (dc_dpt c)) zero idx (fun _ => target) pw (fun _ => target) 0 len1 len2 dv true ->
  forall env m nd l w, punctual env m -> length (snd (env 0%nat)) = 2%nat ->
  let w0 := fw_init c cc sens os in frun env nd w0 (FIdle :: l) = Ok w ->
  (exists N r, pulses_of l ++ r = wheel_cam (dc_num c) x f ct s N) ->
  smooth env nd m (Z.of_nat i) tt late (k_min_fire cc) 0 w0 (FIdle :: l) ->
  (forall k T v, nth_error (calls env nd (Z.of_nat i) 0 w0 (FIdle :: l)) k = Some (T, v) -> tooth (Z.of_nat k) = s + T - 1 /\ pw (Z.of_nat k) = cv_fueling (w_vals v)) ->
  injections_told p (R_ (dc_dpt c)) q1 q2 delta zero idx tt target pw late len2 dv o (128 * block_of env m w) (pin_log m w pin).
Proof.
  intros c f p ct q1 q2 delta s x g c0 Tu Ty G C Hx D N Mv Ao tooth Hg H0 Cf idx tt zero pw len1 len2 dv late pin i os o cc sens Ang Lo Co target Rg Sr env m nd l w P L w0 H Pu S K.
  destruct (cam_link c f ct s x g c0 Tu Ty G C env m nd cc sens os l w i pin FUEL_EVENT o tooth late (fun k d o => decide_fuel nd d o (pw k)) P L Lo Co ltac:(discriminate) H Pu Hg H0 Cf S)
    as (Op & vw & Vw & acts & k' & Ex).
  { intros k T v J. destruct (K k T v J) as (Kt & Kd). split; [exact Kt|]. intros d o'. unfold told. now rewrite Kd. }
  destruct (C88_injections c f p ct q1 q2 delta s x g c0 Tu Ty G C Hx D N Mv Ao tooth vw H0 ltac:(lia) Cf Vw nd pw len1 len2 dv late pin i (m + 1) os o Ang Co Op Rg Sr acts _ Ex) as [X _]. exact X.
Qed.
Print Assumptions C89_injections.

(** ** An engine *)
(* A 4-1 wheel at 60000 RPM, 1000 ticks per slot, with a cam pulse behind tooth 4 of every 6; a coil and an injector.
   The spark timing comes from the default table (40 degrees), the pulse width (326 us) from the default tables with
   another injector. *)
Definition wheel9 : dcfg := DCfg MISSING_CAMSYNC f_zero (flit 7 20) 80 2 4 (f_of_Z 90) 0.
Definition f9 (k : Z) : Z := 10000 + 1000 * k.
Definition p9 (x : R) : R := (10000 + 1000 * x)%R.
Definition ct9 (m : Z) : Z := 10200 + 1000 * Wheel.slot 4 m.
Definition cc9 : ccfg :=
  CCfg (Some timing_vs_rpm_and_map) (Some ve_vs_rpm_and_map) (Some lambda_vs_rpm_and_map) (Some (Table1 (Axis 2 [f_of_Z 8; f_of_Z 16]) [flit 2 10; flit 2 10])) None None None None None
    (Fueling (f_of_Z 2000) (f_of_Z 500) (flit 147 10) 1 0 (f_of_Z 400) (f_of_Z 20) (flit 25 10) (flit 12922 10000000) (flit 755 1000)) FIXED_TIME (f_of_Z 200) 100 (f_of_Z 260) 70000 65000.
Definition sens9 : sens := Sens (f_of_Z 30) (f_of_Z 20) (f_of_Z 80) (f_of_Z 12) (f_of_Z 10) f_zero (f_of_Z 15) f_zero.
Definition coil9 : output := Output IGNITION_EVENT (f_of_Z 180) 3 false entry0 entry0.
Definition inj9 : output := Output FUEL_EVENT (f_of_Z 300) 5 false entry0 entry0.
Definition off9 : output := Output DISABLED_EVENT f_zero 0 false entry0 entry0.
Definition os9 : list output := coil9 :: inj9 :: repeat off9 14.
Definition start9 : fw := fw_init wheel9 cc9 sens9 os9.

(* The world: [n + 1] points at tick [t], for each [(n, t)]; the swap interrupts that are due by then come at the first. *)
Definition due_by (blk t : Z) : nat := Z.to_nat (t / 128 + 1 - blk).
Fixpoint env_of (segs : list (nat * Z)) (blk : Z) (k : nat) : Z * list Z :=
  match segs with
  | [] => (0, [])
  | (n, t) :: r =>
    match k with
    | O => (w32 t, map (fun j => w32 (128 * (blk + Z.of_nat j))) (seq 0 (due_by blk t)))
    | S _ => if (k <=? n)%nat then (w32 t, []) else env_of r (blk + Z.of_nat (due_by blk t)) (k - S n)
    end
  end.
Lemma swaps_shift env n k : swaps_before env (n + k) = swaps_before env n + swaps_before (fun j => env (n + j)%nat) k.
Proof. induction k as [|k IH]; [rewrite Nat.add_0_r; cbn [swaps_before]; lia|]. rewrite Nat.add_succ_r. cbn [swaps_before]. lia. Qed.
Lemma swaps_ext env env' k : (forall j, (j < k)%nat -> env j = env' j) -> swaps_before env k = swaps_before env' k.
Proof. induction k as [|k IH]; intros H; [reflexivity|]. cbn [swaps_before]. rewrite IH, H; auto. Qed.
Lemma env_of_blocks segs : forall blk k, exists len, snd (env_of segs blk k) = map (fun j => w32 (128 * (blk + swaps_before (env_of segs blk) k + Z.of_nat j))) (seq 0 len).
Proof.
  induction segs as [|[n t] r IH]; intros blk k; [exists 0%nat; reflexivity|]. destruct k as [|k].
  - exists (due_by blk t). cbn [env_of snd swaps_before]. apply map_ext. intros j. now rewrite Z.add_0_r.
  - destruct (Nat.leb_spec (S k) n) as [Hk|Hk].
    + exists 0%nat. cbn [env_of]. apply Nat.leb_le in Hk. rewrite Hk. reflexivity.
    + assert (X : forall j, env_of ((n, t) :: r) blk (S n + j)%nat = env_of r (blk + Z.of_nat (due_by blk t)) j).
      { intros j. cbn [env_of plus]. destruct (Nat.leb_spec (S (n + j)) n); [lia|]. f_equal. lia. }
      assert (Y : forall i, (i <= n)%nat -> swaps_before (env_of ((n, t) :: r) blk) (S i) = Z.of_nat (due_by blk t)).
      { induction i as [|i IHi]; intros Hi; [cbn [swaps_before env_of snd]; rewrite map_length, seq_length; lia|].
        change (swaps_before (env_of ((n, t) :: r) blk) (S (S i))) with (swaps_before (env_of ((n, t) :: r) blk) (S i) + Z.of_nat (length (snd (env_of ((n, t) :: r) blk (S i))))).
        rewrite IHi by lia. cbn [env_of]. destruct (Nat.leb_spec (S i) n); [cbn [snd length]; lia|lia]. }
      replace (S k) with (S n + (k - n))%nat by lia. rewrite X, swaps_shift, Y by lia. rewrite (swaps_ext _ (env_of r (blk + Z.of_nat (due_by blk t)))) by (intros; apply X).
      destruct (IH (blk + Z.of_nat (due_by blk t)) (k - n)%nat) as [len E]. exists len. rewrite E. apply map_ext. intros j. f_equal. f_equal. lia.
Qed.
Lemma env_of_punctual segs blk : punctual (env_of segs blk) blk.
Proof.
  intros k i t H. destruct (env_of_blocks segs blk k) as [len E]. rewrite E in H. apply nth_error_In in H as J. apply in_map_iff in J. destruct J as (j & Et & _).
  rewrite nth_error_map in H. destruct (nth_error (seq 0 len) i) as [j'|] eqn:Ej; [|discriminate]. cbn [option_map] in H. assert (t = w32 (128 * (blk + swaps_before (env_of segs blk) k + Z.of_nat j'))) by congruence.
  assert (j' = i). { assert (L : (i < len)%nat) by (rewrite <- (seq_length len 0); apply nth_error_Some; congruence). apply nth_error_nth with (d := 0%nat) in Ej. rewrite seq_nth in Ej by exact L. lia. }
  subst j'. eexists. split; [eassumption|]. rewrite Z.mul_comm, Z.div_mul by lia. reflexivity.
Qed.

Definition at9 (n : nat) (t : Z) : nat * Z := ((n - 1)%nat, t).
(* While the trigger of tooth 5 is handled, at tick 16060, a swap interrupt comes before the coil's times are written. *)
Definition world9 : nat -> Z * list Z := env_of (map (fun '(n, t) => at9 n t)
  [(1%nat, 9138); (1%nat, 10050); (1%nat, 11050); (1%nat, 12050); (1%nat, 14050); (1%nat, 15050); (1%nat, 15250); (8%nat, 15260); (1%nat, 16050); (3%nat, 16060); (5%nat, 16130);
   (1%nat, 17350); (5%nat, 17360); (1%nat, 18050); (8%nat, 18060); (1%nat, 19050); (8%nat, 19060); (1%nat, 20050); (8%nat, 20060); (1%nat, 22050); (8%nat, 22060);
   (1%nat, 23050); (8%nat, 23060); (1%nat, 23250); (8%nat, 23260); (1%nat, 24050); (8%nat, 24060); (1%nat, 25350); (2%nat, 25360); (1%nat, 26050); (8%nat, 26060);
   (1%nat, 27050); (8%nat, 27060); (1%nat, 28050); (8%nat, 28060); (1%nat, 30050); (8%nat, 30060); (1%nat, 31050); (8%nat, 31060); (1%nat, 31250); (8%nat, 31260);
   (1%nat, 32050); (8%nat, 32060); (1%nat, 33350); (5%nat, 33360); (1%nat, 34400)]) 70.
(* Each pulse is handled some time after it came; behind tooth 5 of every 6 the injector's own callback is due. *)
Definition tooth9 (j : Z) : fev := FTrigger 0 (w32 (tooth_time 4 f9 j)).
Definition around9 (j : Z) : list fev :=
  [FIdle; tooth9 j] ++ (if cam_after 4 4 j then [FIdle; FTrigger 1 (w32 (ct9 j))] else []) ++ (if cam_after 4 5 j then [FIdle; FTimer] else []).
Definition run9 : list fev := flat_map around9 (map Z.of_nat (seq 0 18)) ++ [FIdle].

(* Checks what [smooth] and the last hypothesis of the theorems ask for, for two outputs at once. *)
Section Check.
Variables (env : nat -> Z * list Z) (nd : bool) (m rest : Z) (i1 i2 : Z) (tt1 tt2 : Z -> Z) (late1 late2 : Z) (ok1 ok2 : Z -> Z -> fw -> bool).
Definition plainb (w : fw) (e : fev) : bool :=
  match e with FTrigger _ _ | FIdle => true | FTimer => match Res.get (cb_arr (w_cbs w)) 0 with Ok cb => negb (cb =? EXPIRE_CB) | Err _ => true end | _ => false end.
Definition no_cutb (v : cvals) : bool := (cv_rpm_cut v =? 0) && (cv_boost_cut v =? 0) && (cv_over_cut v =? 0).
Definition oneb (i : Z) (tt : Z -> Z) (late : Z) (ok : Z -> Z -> fw -> bool) (k T b b' : Z) (w : fw) (e : fev) (w' : fw) : bool :=
  (open_from b' <=? tt k + late) && (if call_made i w e w' then (tt k <? open_from b) && ok k T w' else true).
Definition next (i k : Z) (w : fw) (e : fev) (w' : fw) : Z := if call_made i w e w' then k + 1 else k.
Fixpoint check (k1 k2 T : Z) (w : fw) (l : list fev) : option fw :=
  match l with
  | [] => Some w
  | e :: r =>
    match fstep env nd w e with
    | Err _ => None
    | Ok w' =>
      let T' := T + teeth_of e in let b := block_of env m w in let b' := block_of env m w' in
      if plainb w e && no_cutb (w_vals w') && oneb i1 tt1 late1 ok1 k1 T' b b' w e w' && oneb i2 tt2 late2 ok2 k2 T' b b' w e w'
      then check (next i1 k1 w e w') (next i2 k2 w e w') T' w' r else None
    end
  end.
Definition all_ok (i : Z) (ok : Z -> Z -> fw -> bool) (k T : Z) (w : fw) (l : list fev) : Prop :=
  forall j T1 v, nth_error (calls env nd i T w l) j = Some (T1, v) -> ok (k + Z.of_nat j) T1 v = true.

Lemma one_ok i tt late ok k T w e w' r : fstep env nd w e = Ok w' -> plain rest w e -> no_cut (w_vals w') -> oneb i tt late ok k (T + teeth_of e) (block_of env m w) (block_of env m w') w e w' = true ->
  smooth env nd m i tt late rest (next i k w e w') w' r -> all_ok i ok (next i k w e w') (T + teeth_of e) w' r ->
  smooth env nd m i tt late rest k w (e :: r) /\ all_ok i ok k T w (e :: r).
Proof.
  intros E P N O Sm A. unfold oneb in O. apply andb_prop in O. destruct O as [O1 O2]. apply Z.leb_le in O1. unfold next in *. split.
  - cbn [smooth]. rewrite E. split; [exact P|]. split; [exact N|]. split; [exact O1|]. split; [|exact Sm]. intros C. rewrite C in O2. apply andb_prop in O2. destruct O2 as [O2 _]. now apply Z.ltb_lt.
  - intros j T1 v. cbn [calls]. rewrite E. destruct (call_made i w e w'); cbn [app]; [|apply A]. apply andb_prop in O2. destruct O2 as [_ O2].
    destruct j as [|j]; cbn [nth_error]; [intros [= <- <-]; now rewrite Z.add_0_r|]. intros J. replace (k + Z.of_nat (S j)) with (k + 1 + Z.of_nat j) by lia. exact (A j T1 v J).
Qed.
Lemma check_ok l : forall k1 k2 T w w', check k1 k2 T w l = Some w' ->
  frun env nd w l = Ok w' /\ (smooth env nd m i1 tt1 late1 rest k1 w l /\ all_ok i1 ok1 k1 T w l) /\ (smooth env nd m i2 tt2 late2 rest k2 w l /\ all_ok i2 ok2 k2 T w l).
Proof.
  induction l as [|e l IH]; intros k1 k2 T w w' H; cbn [check] in H.
  - injection H as <-. split; [reflexivity|]. split; (split; [exact Logic.I|intros [|j] T1 v J; discriminate]).
  - destruct (fstep env nd w e) as [w1|] eqn:E; [|discriminate]. cbv zeta in H. destruct (plainb w e && no_cutb (w_vals w1) && _ && _) eqn:B; [|discriminate].
    apply andb_prop in B. destruct B as [B B2]. apply andb_prop in B. destruct B as [B B1]. apply andb_prop in B. destruct B as [P N].
    assert (P' : plain rest w e). { destruct e; try discriminate; cbn [plain plainb] in *; auto. intros X. rewrite X in P. rewrite Z.eqb_refl in P. discriminate. }
    assert (N' : no_cut (w_vals w1)). { unfold no_cutb in N. apply andb_prop in N. destruct N as [N N3]. apply andb_prop in N. destruct N as [N1 N2]. split; [|split]; now apply Z.eqb_eq. }
    destruct (IH _ _ _ _ _ H) as (F & [S1 A1] & [S2 A2]). split; [cbn [frun]; rewrite E; exact F|].
    split; eapply one_ok; eauto.
Qed.
End Check.

Definition coil_tooth (k : Z) : Z := 4 + k - k / 7.
Definition inj_tooth (k : Z) : Z := 4 + k - k / 8 - (k + 6) / 8.
Definition same_float (a b : f32) : bool :=
  match a, b with S754_finite s m e, S754_finite s' m' e' => Bool.eqb s s' && (m =? m')%positive && (e =? e') | _, _ => false end.
Definition coil_ok (k T : Z) (v : fw) : bool := (coil_tooth k =? 0 + T - 1) && same_float (cv_advance (w_vals v)) (f_of_Z 40) && (cv_dwell (w_vals v) =? 200).
Definition inj_ok (k T : Z) (v : fw) : bool := (inj_tooth k =? 0 + T - 1) && (cv_fueling (w_vals v) =? 326).
Local Notation check9 := (check world9 false 70 0 1 (fun k => tooth_time 4 f9 (coil_tooth k)) (fun k => tooth_time 4 f9 (inj_tooth k)) 600 2500 coil_ok inj_ok 0 0 0 start9 (FIdle :: run9)).

Lemma same_float_ok a b : same_float a b = true -> a = b.
Proof.
  destruct a as [| | |s m e], b as [| | |s' m' e']; cbn [same_float]; try discriminate. intros H. apply andb_prop in H. destruct H as [H H3]. apply andb_prop in H. destruct H as [H1 H2].
  apply eqb_prop in H1. apply Pos.eqb_eq in H2. apply Z.eqb_eq in H3. now subst.
Qed.
Lemma dpt9 : R_ (dc_dpt wheel9) = 90%R.
Proof. cbn [wheel9 dc_dpt]. destruct (f_of_Z_exact 90) as [E _]; [cbn; lia|exact E]. Qed.
Lemma turning9 : turning wheel9 f9 0.
Proof.
  unfold f9. destruct tol35 as (V & F & B). destruct (f_of_Z_exact 90) as [E Fe]; [cbn; lia|].
  apply constant_turning; cbn [wheel9 dc_required dc_num dc_window dc_max_change dc_dpt]; auto; try lia; try lra; try (vm_compute; congruence).
  - split; cbn [wheel9 dc_dpt dc_num]; auto using vf_of_Z; rewrite E; lra.
Qed.
Lemma moves9 : moves f9 p9 (R_ (dc_dpt wheel9)) 1000 1000 0.
Proof.
  split.
  - intros i. unfold f9, p9. rewrite plus_IZR, mult_IZR. replace (10000 + 1000 * IZR i - (10000 + 1000 * IZR i))%R with 0%R by ring. rewrite Rabs_R0. lra.
  - intros x. exists 1000%R. split; [lra|]. intros y z _ _ _. unfold p9. lra.
Qed.
Lemma sregime9 : sregime (R_ (dc_dpt wheel9)) 1000 1000 0 0 600 200 200 0 100 /\ sregime (R_ (dc_dpt wheel9)) 1000 1000 0 0 2500 326 326 0 0.
Proof. rewrite dpt9. split; split; unfold slook, splan, wander, vplan, vmiss, cycle_most, cycle_least, cycle_ticks, speed_of; intros; try lra; lia. Qed.
Lemma angle9 z : 0 <= z <= 720 -> angle_ok (f_of_Z z) /\ R_ (f_of_Z z) = IZR z.
Proof. intros Hz. destruct (f_of_Z_exact z) as [E F]; [cbn; lia|]. split; [|exact E]. split; [apply vf_of_Z|]. split; [exact F|]. rewrite E. rewrite Rabs_pos_eq; [apply IZR_le; lia|apply IZR_le; lia]. Qed.
Lemma teeth9 : calls_follow coil_tooth /\ calls_follow inj_tooth.
Proof.
  split; intros k Hk; unfold coil_tooth, inj_tooth.
  - pose proof (Z.div_mod k 7 ltac:(lia)). pose proof (Z.mod_pos_bound k 7 ltac:(lia)). pose proof (Z.div_mod (k + 1) 7 ltac:(lia)). pose proof (Z.mod_pos_bound (k + 1) 7 ltac:(lia)). lia.
  - pose proof (Z.div_mod k 8 ltac:(lia)). pose proof (Z.mod_pos_bound k 8 ltac:(lia)). pose proof (Z.div_mod (k + 1) 8 ltac:(lia)). pose proof (Z.mod_pos_bound (k + 1) 8 ltac:(lia)).
    pose proof (Z.div_mod (k + 6) 8 ltac:(lia)). pose proof (Z.mod_pos_bound (k + 6) 8 ltac:(lia)). pose proof (Z.div_mod (k + 1 + 6) 8 ltac:(lia)). pose proof (Z.mod_pos_bound (k + 1 + 6) 8 ltac:(lia)). lia.
Qed.
Lemma steers9 dpt zero idx t len st : steers dpt zero idx (fun _ => t) (fun _ => len) (fun _ => t) 0 len len 0 st.
Proof. split; intros; try lia; rewrite Rminus_diag_eq by reflexivity; rewrite Rabs_R0; lra. Qed.
Lemma outs9 : coil_alone 3 0 os9 coil9 /\ injector_alone 5 1 os9 inj9.
Proof.
  assert (A : forall p i, p = 3 /\ i = 0%nat \/ p = 5 /\ i = 1%nat -> alone p i os9).
  { intros p i H m o E. assert (D : (m < 16)%nat) by (apply (nth_error_Some os9); congruence).
    do 16 (destruct m as [|m]; [cbn in E; injection E as <-; cbn; lia|]). lia. }
  assert (F : Forall fresh os9) by (repeat constructor; cbn; unfold W; try reflexivity; lia).
  assert (P : Forall (fun o => 0 <= o_pin o mod 256 < 32) os9) by (repeat constructor; cbn; lia).
  split; (split; [lia|]; split; [reflexivity|]; split; [exact F|]; split; [exact P|]; split; [apply A; auto|reflexivity]).
Qed.

Lemma run9_ok : exists w, frun world9 false start9 (FIdle :: run9) = Ok w /\ block_of world9 70 w = 268 /\
  pin_log 70 w 3 = [(22755, true); (23555, false); (30755, true); (31555, false)] /\
  pin_log 70 w 5 = [(16029, true); (17333, false); (24029, true); (25333, false); (32029, true); (33333, false)] /\
  smooth world9 false 70 0 (fun k => tooth_time 4 f9 (coil_tooth k)) 600 100 0 start9 (FIdle :: run9) /\ smooth world9 false 70 1 (fun k => tooth_time 4 f9 (inj_tooth k)) 2500 100 0 start9 (FIdle :: run9) /\
  all_ok world9 false 0 coil_ok 0 0 start9 (FIdle :: run9) /\ all_ok world9 false 1 inj_ok 0 0 start9 (FIdle :: run9).
Proof.
  assert (X : option_map (fun w => (pin_log 70 w 3, pin_log 70 w 5, block_of world9 70 w)) check9 =
    Some ([(22755, true); (23555, false); (30755, true); (31555, false)], [(16029, true); (17333, false); (24029, true); (25333, false); (32029, true); (33333, false)], 268)) by (vm_compute; reflexivity).
  destruct check9 as [w|] eqn:Ec; cbn [option_map] in X; [|discriminate]. exists w.
  apply (check_ok world9 false 70 100) in Ec. destruct Ec as (H & [S1 A1] & [S2 A2]). split; [exact H|].
  assert (X' : (pin_log 70 w 3, pin_log 70 w 5, block_of world9 70 w) = ([(22755, true); (23555, false); (30755, true); (31555, false)], [(16029, true); (17333, false); (24029, true); (25333, false); (32029, true); (33333, false)], 268)) by congruence. clear X.
  apply pair_equal_spec in X'. destruct X' as [X' X3]. apply pair_equal_spec in X'. destruct X' as [X1 X2]. auto 10.
Qed.
Lemma pulses9 : exists N r, pulses_of run9 ++ r = wheel_cam 4 4 f9 ct9 0 N.
Proof. exists 18%nat, []. vm_compute. reflexivity. Qed.
Lemma fits9 : is_first_gap 4 2 0 3 /\ is_first_cam 4 4 3 4 /\ (exists z, R_ (dc_dpt wheel9) = IZR z / 8192)%R /\ (IZR (dc_num wheel9) * R_ (dc_dpt wheel9) = 360)%R /\ angle_ok (dc_offset wheel9).
Proof.
  split. { split; [reflexivity|]. split; [lia|]. intros m H1 H2. apply Z.mod_divide in H2; [|lia]. destruct H2 as [k ->]. lia. }
  split; [apply (first_cam_ok 4 4 3 0); lia|]. split; [exists 737280; rewrite dpt9; lra|]. split; [rewrite dpt9; cbn [wheel9 dc_num]; lra|].
  cbn [wheel9 dc_offset]. split; [reflexivity|]. split; [reflexivity|]. unfold R_, f_zero. cbn. rewrite Rabs_R0. lra.
Qed.
Lemma sparks9 w : frun world9 false start9 (FIdle :: run9) = Ok w -> smooth world9 false 70 0 (fun k => tooth_time 4 f9 (coil_tooth k)) 600 100 0 start9 (FIdle :: run9) -> all_ok world9 false 0 coil_ok 0 0 start9 (FIdle :: run9) ->
  sparks_told p9 90 1000 1000 0 0 4 (fun k => Wheel.slot 4 (coil_tooth k)) (fun k => tooth_time 4 f9 (coil_tooth k)) (fun _ => 180 - 40 + 0)%R (fun _ => 200) (fun _ => 180 - 40 + 0)%R 600 200 coil9 (128 * block_of world9 70 w) (pin_log 70 w 3).
Proof.
  intros H Sm A1. destruct fits9 as (G & C & D & N & Ao). destruct (angle9 180 ltac:(lia)) as [Ac Rc]. destruct (angle9 40 ltac:(lia)) as [Aa Ra]. destruct sregime9 as [Rg _]. destruct teeth9 as [Cf _]. destruct outs9 as [Oc _].
  pose proof (C89_sparks wheel9 f9 p9 ct9 1000 1000 0 0 4 3 4 turning9 eq_refl G C ltac:(cbn; lia) D N moves9 Ao coil_tooth ltac:(lia) ltac:(vm_compute; congruence) Cf
      (fun _ => f_of_Z 40) (fun _ => 200) (fun _ => 180 - 40 + 0)%R 0 200 200 600 3 0%nat os9 coil9 cc9 sens9 (fun _ _ => Aa) Ac eq_refl Oc) as T. cbv zeta in T.
  rewrite dpt9 in Rg, T. change (o_angle coil9) with (f_of_Z 180) in T. rewrite Rc, Ra in T. change (R_ (dc_offset wheel9)) with 0%R in T.
  refine (T Rg (steers9 _ _ _ _ _ _) _ world9 70 false run9 w (env_of_punctual _ _) eq_refl H pulses9 Sm _).
  - intros k _. left. reflexivity.
  - intros k T1 v J. specialize (A1 k T1 v J). rewrite Z.add_0_l in A1. unfold coil_ok in A1. apply andb_prop in A1. destruct A1 as [A1 K3]. apply andb_prop in A1. destruct A1 as [K1 K2].
    apply Z.eqb_eq in K1, K3. apply same_float_ok in K2. auto.
Qed.
Lemma injections9 w : frun world9 false start9 (FIdle :: run9) = Ok w -> smooth world9 false 70 1 (fun k => tooth_time 4 f9 (inj_tooth k)) 2500 100 0 start9 (FIdle :: run9) -> all_ok world9 false 1 inj_ok 0 0 start9 (FIdle :: run9) ->
  injections_told p9 90 1000 1000 0 4 (fun k => Wheel.slot 4 (inj_tooth k)) (fun k => tooth_time 4 f9 (inj_tooth k)) (300 + 0)%R (fun _ => 326) 2500 326 0 inj9 (128 * block_of world9 70 w) (pin_log 70 w 5).
Proof.
  intros H Sm A2. destruct fits9 as (G & C & D & N & Ao). destruct (angle9 300 ltac:(lia)) as [Ai Ri]. destruct sregime9 as [_ Rg]. destruct teeth9 as [_ Cf]. destruct outs9 as [_ Oi].
  pose proof (C89_injections wheel9 f9 p9 ct9 1000 1000 0 0 4 3 4 turning9 eq_refl G C ltac:(cbn; lia) D N moves9 Ao inj_tooth ltac:(lia) ltac:(vm_compute; congruence) Cf
      (fun _ => 326) 326 326 0 2500 5 1%nat os9 inj9 cc9 sens9 Ai eq_refl Oi) as T. cbv zeta in T.
  rewrite dpt9 in Rg, T. change (o_angle inj9) with (f_of_Z 300) in T. rewrite Ri in T. change (R_ (dc_offset wheel9)) with 0%R in T.
  refine (T Rg (steers9 _ _ _ _ _ _) world9 70 false run9 w (env_of_punctual _ _) eq_refl H pulses9 Sm _).
  intros k T1 v J. specialize (A2 k T1 v J). rewrite Z.add_0_l in A2. unfold inj_ok in A2. apply andb_prop in A2. destruct A2 as [K1 K2]. apply Z.eqb_eq in K1, K2. auto.
Qed.

(* The run is 18 teeth long. The first spark is due at 140 degrees of the first whole cycle after sync, tick 23555; the
   injections end at 300 degrees. The hypotheses of both theorems hold. *)
Example C89_example : exists w, frun world9 false start9 (FIdle :: run9) = Ok w /\ block_of world9 70 w = 268 /\
  pin_log 70 w 3 = [(22755, true); (23555, false); (30755, true); (31555, false)] /\
  pin_log 70 w 5 = [(16029, true); (17333, false); (24029, true); (25333, false); (32029, true); (33333, false)] /\
  sparks_told p9 90 1000 1000 0 0 4 (fun k => Wheel.slot 4 (coil_tooth k)) (fun k => tooth_time 4 f9 (coil_tooth k)) (fun _ => 180 - 40 + 0)%R (fun _ => 200) (fun _ => 180 - 40 + 0)%R 600 200 coil9 (128 * block_of world9 70 w) (pin_log 70 w 3) /\
  injections_told p9 90 1000 1000 0 4 (fun k => Wheel.slot 4 (inj_tooth k)) (fun k => tooth_time 4 f9 (inj_tooth k)) (300 + 0)%R (fun _ => 326) 2500 326 0 inj9 (128 * block_of world9 70 w) (pin_log 70 w 5).
Proof.
  destruct run9_ok as (w & H & B & L3 & L5 & S1 & S2 & A1 & A2). exists w. split; [exact H|]. split; [exact B|]. split; [exact L3|]. split; [exact L5|].
  split; [exact (sparks9 w H S1 A1)|exact (injections9 w H S2 A2)].
Qed.
