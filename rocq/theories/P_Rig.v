(** C92: from raw readings to the pins: the firmware with its sensors executes nothing undefined. *)
Require Import ZArith Reals List Bool Lia Lra.
From Verif Require Import Res Word F32 F32Flocq Arr Interval Outputs OutputRun PulseProofs Callbacks Decoder DecoderSafe Calc CalcSpec System SystemRun Sensors SensorSpec SensorProofs Freq
  SafeSpec SafeDec FwSafe Rig RigSpec RigProofs Factory FuelProofs DefaultConfig P_Calc P_Safe.
Import ListNotations.
Open Scope Z_scope.
Ltac Zify.zify_post_hook ::= idtac.

Lemma start_rig pulses logf dc cc os l : dec_ok dc -> calc_ok cc -> length os = 16%nat -> Forall output_ok os -> Forall fresh os -> sensors_start pulses logf l ->
  exists r, rig_init dc cc os l = Ok r /\ rsafe pulses logf r.
Proof.
  intros D K L O F [Sl Se].
  assert (I : sensors_inv pulses logf 0 l).
  { intros j [c s] E. rewrite Z.add_0_l. destruct (Se (Z.of_nat j) c s (get_of_nat _ _ _ E)) as (P & Ok' & (A1 & A2 & A3 & A4 & A5) & V). split; [exact P|]. split; [exact Ok'|]. cbn [snd]. split.
    - rewrite A4. split; [reflexivity|]. split; [reflexivity|]. rewrite R_f_zero. lra.
    - intros lo hi B. split; rewrite ?A1, ?A2, ?A5; [now apply V|split; reflexivity|lia|]. rewrite !Rmult_0_l. split; [reflexivity|]. split; [reflexivity|]. rewrite R_f_zero. lra. }
  destruct (readings_ok pulses logf l Sl I) as (s & Es & Hs). unfold rig_init. rewrite Es. cbn [bind]. eexists. split; [reflexivity|]. split; cbn [r_fw r_sensors]; auto. now apply start_safe.
Qed.

(** Start the release build with sensible settings and sensors whose readings within their fault limits convert to possible
    values (RigSpec.v). Whatever voltages, frequencies and pulse widths the sensors deliver, valid or not, between whatever engine
    events may happen (C90), and however the console changes the sensors to other sensible ones, every step is defined: the
    conversions, and the calculations made from their results. *)
Theorem C92_defined : forall pulses env logf rate dc cc os l es, dec_ok dc -> calc_ok cc -> length os = 16%nat -> Forall output_ok os -> Forall fresh os ->
  sensors_start pulses logf l -> 1 <= rate <= 1000000 ->
  exists r, rig_init dc cc os l = Ok r /\ (rsound pulses env true logf rate r es -> exists r', rrun env true logf rate r es = Ok r').
Proof.
  intros pulses env logf rate dc cc os l es D K L O F S R. destruct (start_rig pulses logf dc cc os l D K L O F S) as (r & E & I). exists r. split; [exact E|]. intros Sn.
  destruct (rrun_ok pulses env logf rate es R r I Sn) as (r' & E' & _). eauto.
Qed.
Print Assumptions C92_defined.

Lemma readings_reads l s : readings l = Ok s -> reads l s.
Proof.
  destruct l as [|x0 [|x1 [|x2 [|x3 [|x4 [|x5 [|x6 [|x7 l]]]]]]]]; intros E; try discriminate E.
  assert (X : readings (x0 :: x1 :: x2 :: x3 :: x4 :: x5 :: x6 :: x7 :: l) =
    Ok (Sens (a_value (snd x0)) (a_value (snd x1)) (a_value (snd x2)) (a_value (snd x3)) (a_value (snd x4)) (a_deriv (snd x4)) (a_value (snd x6)) (a_value (snd x7)))) by reflexivity.
  rewrite X in E. assert (Y := f_equal (fun r => match r with Ok y => y | Err _ => s end) E). cbv beta iota in Y. rewrite <- Y.
  exists x0, x1, x2, x3, x4, x5, x6, x7, l. repeat split.
Qed.

(** At every moment the value of each sensor the calculations read is in its box, the rate of change of the throttle is a number,
    and the calculations use exactly these values. *)
Theorem C92_values : forall pulses env logf rate dc cc os l es r r', dec_ok dc -> calc_ok cc -> length os = 16%nat -> Forall output_ok os -> Forall fresh os ->
  sensors_start pulses logf l -> 1 <= rate <= 1000000 -> rig_init dc cc os l = Ok r -> rsound pulses env true logf rate r es -> rrun env true logf rate r es = Ok r' ->
  (forall i c s lo hi, get (r_sensors r') i = Ok (c, s) -> box i = Some (lo, hi) -> number (a_deriv s) /\ iv (a_value s) (IZR lo) (IZR hi)) /\
  reads (r_sensors r') (w_sens (r_fw r')).
Proof.
  intros pulses env logf rate dc cc os l es r r' D K L O F S R Ei Sn E. destruct (start_rig pulses logf dc cc os l D K L O F S) as (r0 & E0 & I). assert (r0 = r) as -> by congruence.
  destruct (rrun_ok pulses env logf rate es R r I Sn) as (r1 & E1 & [_ _ Iv Sn1]). assert (r1 = r') as -> by congruence. split; [|now apply readings_reads].
  intros i c s lo hi G B. apply get_ok in G. destruct G as [Hi G]. destruct (Iv _ _ G) as (_ & _ & _ & X). rewrite Z.add_0_l, Z2Nat.id in X by lia. destruct (X lo hi B) as [X1 X2 _ _]. auto.
Qed.
Print Assumptions C92_values.

(** The built-in sensors are of this kind if the C library's logarithm is roughly right and the fuel temperature sensor, which
    has no fault limits, sends pulses within its range of 1 to 5 ms only. With fault limits it may send any. *)
Theorem C92_factory : forall env logf rate dc cc os es, dec_ok dc -> calc_ok cc -> length os = 16%nat -> Forall output_ok os -> Forall fresh os ->
  log_sane logf -> 1 <= rate <= 1000000 ->
  (exists r, rig_init dc cc os factory = Ok r /\ (rsound ms1_to_5 env true logf rate r es -> exists r', rrun env true logf rate r es = Ok r')) /\
  (exists r, rig_init dc cc os factory_limited = Ok r /\ (rsound (0, 1)%R env true logf rate r es -> exists r', rrun env true logf rate r es = Ok r')).
Proof.
  intros. split.
  - apply (C92_defined ms1_to_5 env logf rate dc cc os factory es); auto. now apply factory_start_in_range.
  - apply (C92_defined (0, 1)%R env logf rate dc cc os factory_limited es); auto. now apply factory_start.
Qed.
Print Assumptions C92_factory.

(** ** An engine with its sensors *)
Definition log8 (x : f32) : f32 := f_of_Z 8.
Lemma log8_sane : log_sane log8.
Proof. intros x _. eapply iv_weak; [apply (iv_Z 8); lia|lra|lra]. Qed.
Definition still_s (k : nat) : Z * list Z := (0, []).
Definition volts (t : Z) (ok : bool) (map : f32) : rev := RAdc t (AdcUpdate t ok [f_zero; f_zero; f_of_Z 3; map; flit 25 10; flit 1 2; f_of_Z 1; f_of_Z 2; f_zero; f_zero; f_zero; f_zero; f_zero; f_zero; f_zero; f_of_Z 5]).
Definition turn (ks : list Z) : list rev := map (fun k => REngine (FTrigger 0 (1000000 + 10000 * k))) ks.
(* The wheel turns; the sensors are read, with a valid and an invalid reading and one outside the fault limits; a fuel
   temperature pulse of 2.5 ms, another of 25 ms; the console fixes the throttle's value and changes the fuel sensor's lag. *)
Definition frt_lag : scfg := SCfg 3 SRC_PULSEWIDTH LINEAR (f_of_Z (-40)) (f_of_Z 125) (flit 1 1000) (flit 5 1000) f_zero f_zero f_zero f_zero (f_of_Z 50) (flit 1 1000) (flit 5 1000) (f_of_Z 20) 0 0 0.
Definition drive : list rev :=
  [volts 1000 true (f_of_Z 1)] ++ turn [0; 1; 2; 4; 5] ++ [volts 1051000 true (f_of_Z 1); volts 1051800 true (f_of_Z 2)] ++ turn [6] ++ [volts 1061000 true (f_of_Z 3); volts 1062000 false (f_of_Z 3); volts 1063000 true (flit 1 100)] ++
  [RFreq 1064000 (pw_of_capture 1064000 164 655)] ++ turn [8; 9] ++ [RFreq 1090500 (pw_of_capture 1090500 1638 3276); RFixed 4 (f_of_Z 30); RSettings 6 frt_lag; RFreq 1091000 (pw_of_capture 1091000 164 655)] ++ turn [10] ++
  [volts 1101000 true (f_of_Z 2); volts 1107000 true (f_of_Z 4)] ++ turn [12] ++ [volts 1121000 true (f_of_Z 2)].
Definition rmayb (r : rig) (e : rev) : bool :=
  let reads now := let d := w_dec (r_fw r) in (dd_rpm d <=? 2 ^ 24) && ((now - dd_last_time d) mod 2 ^ 32 * dd_rpm d <=? 600000000000) && forallb (fun x => a_samples (snd x) <? 2 ^ 24) (r_sensors r) in
  match e with
  | REngine (FSensors _) => false
  | REngine e => mayb (r_fw r) e
  | RAdc now u => reads now && Nat.eqb (length (d_values u)) 16 && forallb (fun x => ivb x (f_of_Z 0) (f_of_Z 5)) (d_values u)
  | RFreq now u => reads now && ivb (f_frequency u) (f_of_Z 0) (f_of_Z 4000000) && ivb (f_pulsewidth u) (f_of_Z 0) (f_of_Z 1)
  | RSettings _ _ | RFixed _ _ => true
  end.
Fixpoint rsoundb (r : rig) (l : list rev) : bool :=
  match l with [] => true | e :: l => rmayb r e && match rstep still_s true log8 5000 r e with Ok r => rsoundb r l | Err _ => true end end.
Definition rside (e : rev) : Prop :=
  match e with
  | REngine (FTrigger _ _) | RAdc _ _ | RFreq _ _ => True
  | REngine _ => False
  | RSettings i c => 0 <= i < 10 /\ 0 <= c_pin c /\ sensor_ok (0, 1)%R log8 i c
  | RFixed i v => 0 <= i < 10 /\ forall lo hi, box i = Some (lo, hi) -> iv v (IZR lo) (IZR hi)
  end.
Lemma ivb_int x a b : Z.abs a <= 2 ^ 24 -> Z.abs b <= 2 ^ 24 -> ivb x (f_of_Z a) (f_of_Z b) = true -> iv x (IZR a) (IZR b).
Proof. intros Ha Hb H. apply ivb_ok in H. now rewrite !R_flit_int in H by lia. Qed.
Lemma rsoundb_ok l : forall r, Forall rside l -> rsoundb r l = true -> rsound (0, 1)%R still_s true log8 5000 r l.
Proof.
  induction l as [|e l IH]; intros r F B; [exact Logic.I|]. cbn [rsoundb] in B. apply andb_prop in B. destruct B as [B1 B2]. inversion F as [|? ? F1 F2]. subst. cbn [rsound].
  split; [|destruct (rstep still_s true log8 5000 r e); [now apply IH|exact Logic.I]].
  assert (Rd : forall now, (dd_rpm (w_dec (r_fw r)) <=? 2 ^ 24) && ((now - dd_last_time (w_dec (r_fw r))) mod 2 ^ 32 * dd_rpm (w_dec (r_fw r)) <=? 600000000000) && forallb (fun x => a_samples (snd x) <? 2 ^ 24) (r_sensors r) = true -> may_read r now).
  { intros now Q. apply andb_prop in Q. destruct Q as [Q Q3]. apply andb_prop in Q. destruct Q as [Q1 Q2]. apply Z.leb_le in Q1, Q2. split; [exact Q1|]. split; [exact Q2|].
    apply Forall_forall. intros x Ix. rewrite forallb_forall in Q3. now apply Z.ltb_lt, Q3. }
  destruct e as [e|now u|now u|i c|i v]; cbn [rmay rside] in *; auto.
  - destruct e; try contradiction. apply pulse_mayb_ok. exact B1.
  - cbn [rmayb] in B1. apply andb_prop in B1. destruct B1 as [B1 B4]. apply andb_prop in B1. destruct B1 as [B1 B3]. apply Nat.eqb_eq in B3. split; [now apply Rd|]. split; [exact B3|].
    intros _. apply Forall_forall. intros x Ix. rewrite forallb_forall in B4. apply (ivb_int x 0 5); try lia. now apply B4.
  - cbn [rmayb] in B1. apply andb_prop in B1. destruct B1 as [B1 B4]. apply andb_prop in B1. destruct B1 as [B1 B3]. split; [now apply Rd|]. intros _. split; [apply (ivb_int _ 0 4000000)|apply (ivb_int _ 0 1)]; auto; lia.
Qed.
Definition rseen (r : res rig) : option (Z * Z * Z * list (option Z)) :=
  match r with Ok r => Some (dd_valid (w_dec (r_fw r)), dd_rpm (w_dec (r_fw r)), cv_fueling (w_vals (r_fw r)), map (fun x => f_trunc (a_value (snd x))) (r_sensors r)) | Err _ => None end.
Definition go (l : list sensor) (es : list rev) : res rig := r <- rig_init (wheel_s MISSING_NOSYNC) default_calc os_s l ;; rrun still_s true log8 5000 r es.
Lemma go_seen l es x : rseen (go l es) = Some x -> exists r r', rig_init (wheel_s MISSING_NOSYNC) default_calc os_s l = Ok r /\ rrun still_s true log8 5000 r es = Ok r' /\ rseen (Ok r') = Some x.
Proof.
  unfold go. destruct (rig_init _ _ _ l) as [r|]; [|intros X; discriminate X]. cbn [bind]. destruct (rrun _ _ _ _ r es) as [r'|] eqn:E; [|intros X; discriminate X]. intros X.
  exists r, r'. split; [reflexivity|]. split; [exact E|exact X].
Qed.
Lemma go_sound l es r : match rig_init (wheel_s MISSING_NOSYNC) default_calc os_s l with Ok r => rsoundb r es | Err _ => false end = true -> Forall rside es ->
  rig_init (wheel_s MISSING_NOSYNC) default_calc os_s l = Ok r -> rsound (0, 1)%R still_s true log8 5000 r es.
Proof. intros Y Sd E. rewrite E in Y. apply rsoundb_ok; assumption. Qed.
Lemma go_err l es r e : go l es = Err e -> rig_init (wheel_s MISSING_NOSYNC) default_calc os_s l = Ok r -> rrun still_s true log8 5000 r es = Err e.
Proof. unfold go. intros X E. rewrite E in X. exact X. Qed.
Lemma drive_seen : rseen (go factory_limited drive) = Some (1, 6000, 9741, [Some 256; Some 22; Some 15; Some 14; Some 16; Some 102; Some 20; Some 0; Some 100; Some 50]).
Proof. vm_cast_no_check (eq_refl (Some (1, 6000, 9741, [Some 256; Some 22; Some 15; Some 14; Some 16; Some 102; Some 20; Some 0; Some 100; Some 50]))). Qed.
Lemma drive_sound : match rig_init (wheel_s MISSING_NOSYNC) default_calc os_s factory_limited with Ok r => rsoundb r drive | Err _ => false end = true.
Proof. vm_cast_no_check (eq_refl true). Qed.
Lemma lag_ok : sensor_ok (0, 1)%R log8 6 frt_lag.
Proof.
  split; [intros E; discriminate E|]. intros lo hi B. assert (lo = -64 /\ hi = 128) as [-> ->] by (split; cbn in B; congruence).
  destruct (frt_box (0, 1)%R log8) as [X1 X2 _ X4]. split; [exact X1|exact X2|exists 50; split; [lia|reflexivity]|exact X4].
Qed.
Example C92_example : log_sane log8 /\ sensors_start (0, 1)%R log8 factory_limited /\
  exists r r', rig_init (wheel_s MISSING_NOSYNC) default_calc os_s factory_limited = Ok r /\ rsound (0, 1)%R still_s true log8 5000 r drive /\ rrun still_s true log8 5000 r drive = Ok r' /\
  dd_valid (w_dec (r_fw r')) = 1 /\ dd_rpm (w_dec (r_fw r')) = 6000 /\ map (fun x => f_trunc (a_value (snd x))) (firstn 5 (r_sensors r')) = [Some 256; Some 22; Some 15; Some 14; Some 16].
Proof.
  split; [exact log8_sane|]. split; [apply factory_start, log8_sane|].
  assert (Sd : Forall rside drive).
  { unfold drive, turn, volts. cbn [map app]. repeat (apply Forall_cons; [try exact Logic.I|]); try apply Forall_nil.
    - split; [lia|]. intros lo hi B. assert (lo = -131072 /\ hi = 131072) as [-> ->] by (split; cbn in B; congruence). eapply iv_weak; [apply (iv_Z 30); lia|lra|lra].
    - split; [lia|]. split; [cbn; lia|exact lag_ok]. }
  destruct (go_seen factory_limited drive _ drive_seen) as (r & r' & Ei & E & X). assert (Y := go_sound factory_limited drive r drive_sound Sd Ei). cbn [rseen] in X. exists r, r'.
  assert (Q : dd_valid (w_dec (r_fw r')) = 1 /\ dd_rpm (w_dec (r_fw r')) = 6000 /\ map (fun x => f_trunc (a_value (snd x))) (r_sensors r') = [Some 256; Some 22; Some 15; Some 14; Some 16; Some 102; Some 20; Some 0; Some 100; Some 50]) by (split; [congruence|split; congruence]).
  destruct Q as (Q1 & Q2 & Q3). split; [exact Ei|]. split; [exact Y|]. split; [exact E|]. split; [exact Q1|]. split; [exact Q2|]. apply (f_equal (firstn 5)) in Q3. rewrite (firstn_map (fun x => f_trunc (a_value (snd x)))) in Q3. exact Q3.
Qed.

(** ** Without fault limits *)
(* The built-in configuration as it is: the fuel temperature sensor sends a pulse of 25 ms, 20 times a second (a valid reading;
   its range is 1 to 5 ms). Fuel is then taken to be at 949 Celsius, its density to be negative, and at the next tooth the
   negative pulse width is converted to an unsigned number. Every event but the sensor's settings is one that may happen. *)
Definition hot : list rev := [volts 1000 true (f_of_Z 1)] ++ turn [0; 1; 2; 4; 5; 6] ++ [RFreq 1064000 (pw_of_capture 1064000 1638 3276)].
Lemma hot_seen : rseen (go factory hot) = Some (1, 6000, 6920, [Some 93; Some 22; Some 15; Some 2; Some 14; Some 102; Some 949; Some 0; Some 100; Some (-29)]).
Proof. vm_cast_no_check (eq_refl (Some (1, 6000, 6920, [Some 93; Some 22; Some 15; Some 2; Some 14; Some 102; Some 949; Some 0; Some 100; Some (-29)]))). Qed.
Lemma hot_sound : match rig_init (wheel_s MISSING_NOSYNC) default_calc os_s factory with Ok r => rsoundb r (hot ++ turn [8]) | Err _ => false end = true.
Proof. vm_cast_no_check (eq_refl true). Qed.
Lemma hot_fails : go factory (hot ++ turn [8]) = Err FloatToInt.
Proof. vm_cast_no_check (eq_refl (Err FloatToInt : res rig)). Qed.
Theorem C92_fuel_temperature_refuted : exists r r', rig_init (wheel_s MISSING_NOSYNC) default_calc os_s factory = Ok r /\ rsound (0, 1)%R still_s true log8 5000 r (hot ++ turn [8]) /\
  rrun still_s true log8 5000 r hot = Ok r' /\ (exists x, get (r_sensors r') FRT_ = Ok x /\ f_trunc (a_value (snd x)) = Some 949) /\
  rrun still_s true log8 5000 r (hot ++ turn [8]) = Err FloatToInt.
Proof.
  assert (Sd : Forall rside (hot ++ turn [8])) by (unfold hot, turn, volts; cbn [map app]; repeat (apply Forall_cons; [exact Logic.I|]); apply Forall_nil).
  destruct (go_seen factory hot _ hot_seen) as (r & r' & Ei & E & X). exists r, r'. split; [exact Ei|]. split; [exact (go_sound factory (hot ++ turn [8]) r hot_sound Sd Ei)|]. split; [exact E|]. split; [|exact (go_err factory (hot ++ turn [8]) r FloatToInt hot_fails Ei)].
  cbn [rseen] in X. destruct (r_sensors r') as [|x0 [|x1 [|x2 [|x3 [|x4 [|x5 [|x6 l]]]]]]]; cbn [map] in X; try discriminate X. exists x6. split; [reflexivity|congruence].
Qed.
Print Assumptions C92_fuel_temperature_refuted.
