(** C93: the firmware as it is shipped executes nothing undefined, from raw readings and paced pulses. *)
Require Import ZArith Reals List Bool Lia Lra.
From Verif Require Import Res Word F32 F32Flocq Arr Interval Outputs OutputRun PulseProofs Callbacks Decoder DecoderSafe Calc CalcSpec CalcProofs System SystemRun Sensors SensorSpec SensorProofs Freq
  SafeSpec SafeDec FwSafe PaceSpec Rig RigSpec RigProofs Factory FuelProofs DefaultConfig P_Calc P_Safe Pace P_Pace P_Rig.
Import ListNotations.
Open Scope Z_scope.
Ltac Zify.zify_post_hook ::= idtac.

Section Ship.
Variables (pulses : R * R) (env : nat -> Z * list Z) (logf : f32 -> f32) (rate : Z).
Hypothesis Rt : 1 <= rate <= 1000000.

Lemma rmay_of r e : going (r_fw r) -> rmay_paced pulses logf r e -> rmay pulses logf r e.
Proof. intros Gw M. destruct e as [e| | | |]; try exact M. destruct e; try (destruct M; fail); apply (going_may (r_fw r)); auto. Qed.
Lemma with_going w l r' : going w -> length l = 10%nat -> sensors_inv pulses logf 0 l -> with_sensors env true w l = Ok r' -> going (r_fw r').
Proof.
  intros Gw L I E. destruct (readings_ok pulses logf l L I) as (s & Es & Hs). unfold with_sensors in E. rewrite Es in E. cbn [bind] in E. apply bind_ok in E. destruct E as (w' & E & H).
  assert (r' = Rig w' l) as -> by congruence. apply (step_going env w (FSensors s)); auto.
Qed.
Lemma with_sensors_eq w l r' : with_sensors env true w l = Ok r' -> r_sensors r' = l.
Proof. unfold with_sensors. intros E. apply bind_ok in E. destruct E as (s & _ & E). apply bind_ok in E. destruct E as (w' & _ & E). assert (r' = Rig w' l) as -> by congruence. reflexivity. Qed.
Lemma rstep_going r e r' : rsafe pulses logf r -> going (r_fw r) -> rmay_paced pulses logf r e -> rstep env true logf rate r e = Ok r' -> going (r_fw r').
Proof.
  intros I Gw M E. destruct (rstep_ok pulses env logf rate r e Rt I (rmay_of r e Gw M)) as (r1 & E1 & [_ L Is _]). assert (r1 = r') as -> by congruence. clear E1.
  unfold rstep in E. destruct e as [e|now u|now u|i c|i v].
  - apply bind_ok in E. destruct E as (w' & E & H). assert (r' = Rig w' (r_sensors r)) as -> by congruence. apply (step_going env (r_fw r) e); auto. destruct e; try exact M. destruct M.
  - apply bind_ok in E. destruct E as (l & _ & E). pose proof (with_sensors_eq _ _ _ E) as El. rewrite El in L, Is. apply (with_going (r_fw r) l); auto.
  - apply bind_ok in E. destruct E as (l & _ & E). pose proof (with_sensors_eq _ _ _ E) as El. rewrite El in L, Is. apply (with_going (r_fw r) l); auto.
  - apply bind_ok in E. destruct E as (x & _ & E). apply bind_ok in E. destruct E as (l & _ & E). pose proof (with_sensors_eq _ _ _ E) as El. rewrite El in L, Is. apply (with_going (r_fw r) l); auto.
  - apply bind_ok in E. destruct E as (x & _ & E). apply bind_ok in E. destruct E as (l & _ & E). pose proof (with_sensors_eq _ _ _ E) as El. rewrite El in L, Is. apply (with_going (r_fw r) l); auto.
Qed.
Lemma rrun_going l : forall r, rsafe pulses logf r -> going (r_fw r) -> rsound_paced pulses env true logf rate r l ->
  exists r', rrun env true logf rate r l = Ok r' /\ rsafe pulses logf r' /\ going (r_fw r').
Proof.
  induction l as [|e l IH]; intros r I Gw S; [exists r; split; [reflexivity|auto]|]. cbn [rsound_paced] in S. destruct S as [M S]. destruct (rstep_ok pulses env logf rate r e Rt I (rmay_of r e Gw M)) as (r1 & E1 & I1).
  pose proof (rstep_going r e r1 I Gw M E1) as G1. rewrite E1 in S. destruct (IH r1 I1 G1 S) as (r' & E & X). exists r'. split; [|exact X]. cbn [rrun]. rewrite E1. exact E.
Qed.
End Ship.

Lemma start_rig_going pulses logf dc cc os l : dec_ok dc -> missing dc = true -> calc_ok cc -> length os = 16%nat -> Forall output_ok os -> Forall fresh os -> sensors_start pulses logf l ->
  exists r, rig_init dc cc os l = Ok r /\ rsafe pulses logf r /\ going (r_fw r).
Proof.
  intros D M K L O F S. destruct (start_rig pulses logf dc cc os l D K L O F S) as (r & E & I). exists r. split; [exact E|]. split; [exact I|].
  destruct (readings_ok pulses logf (r_sensors r) (rs_len _ _ _ I) (rs_inv _ _ _ I)) as (s & Es & Hs). unfold rig_init in E. apply bind_ok in E. destruct E as (s' & Es' & E).
  assert (r = Rig (fw_init dc cc s' os) l) as -> by congruence. cbn [r_sensors r_fw] in *. assert (s' = s) as -> by congruence. now apply start_going.
Qed.

(** With a wheel that has a gap nothing need be known about the speeds the firmware calculates: if each tooth comes within 150 ms
    per degree of tooth spacing after the one before (PaceSpec.v), then with any raw readings, engine events, and changes of
    settings every step is defined. *)
Theorem C93_defined : forall pulses env logf rate dc cc os l es, dec_ok dc -> missing dc = true -> calc_ok cc -> length os = 16%nat -> Forall output_ok os -> Forall fresh os ->
  sensors_start pulses logf l -> 1 <= rate <= 1000000 ->
  exists r, rig_init dc cc os l = Ok r /\ (rsound_paced pulses env true logf rate r es -> exists r', rrun env true logf rate r es = Ok r').
Proof.
  intros pulses env logf rate dc cc os l es D M K L O F S R. destruct (start_rig_going pulses logf dc cc os l D M K L O F S) as (r & E & I & Gw). exists r. split; [exact E|]. intros Sn.
  destruct (rrun_going pulses env logf rate R es r I Gw Sn) as (r' & E' & _). eauto.
Qed.
Print Assumptions C93_defined.

(** The built-in configuration of src/config.c (a 36-1 wheel with a cam sensor, six coils on three pins, three injectors, ten
    sensors, all tables): this is the firmware as it is flashed. *)
Theorem C93_shipped : forall env logf rate es, log_sane logf -> 1 <= rate <= 1000000 ->
  exists r, rig_init factory_decoder default_calc factory_outputs factory = Ok r /\
    (rsound_paced ms1_to_5 env true logf rate r es -> exists r', rrun env true logf rate r es = Ok r').
Proof.
  intros env logf rate es LG R. destruct factory_outputs_ok as (L & O & F).
  apply (C93_defined ms1_to_5 env logf rate factory_decoder default_calc factory_outputs factory es); auto using factory_decoder_ok, default_ok, factory_start_in_range.
Qed.
Print Assumptions C93_shipped.

(** And whenever its decoder knows the position, the calculated speeds are not 0. *)
Theorem C93_speed : forall env logf rate es r r', log_sane logf -> 1 <= rate <= 1000000 -> rig_init factory_decoder default_calc factory_outputs factory = Ok r ->
  rsound_paced ms1_to_5 env true logf rate r es -> rrun env true logf rate r es = Ok r' -> dd_valid (w_dec (r_fw r')) <> 0 -> 1 <= dd_rpm (w_dec (r_fw r')) /\ 1 <= dd_tooth_rpm (w_dec (r_fw r')).
Proof.
  intros env logf rate es r r' LG R Ei Sn E V. destruct factory_outputs_ok as (L & O & F).
  destruct (start_rig_going ms1_to_5 logf factory_decoder default_calc factory_outputs factory factory_decoder_ok eq_refl default_ok L O F (factory_start_in_range logf LG)) as (r0 & E0 & I & Gw).
  assert (r0 = r) as -> by congruence. destruct (rrun_going ms1_to_5 env logf rate R es r I Gw Sn) as (r1 & E1 & _ & G1). assert (r1 = r') as -> by congruence.
  destruct G1 as (c & rp & _ & _ & _ & [I1 _ _]). destruct (alive c rp _ I1 V). lia.
Qed.
Print Assumptions C93_speed.

(** ** Starting the shipped firmware *)
Definition teeth36 (ks : list Z) : list rev := map (fun k => REngine (FTrigger 0 (1000000 + 2000 * k))) ks.
(* 3333 RPM: teeth up to the gap (slot 35), a revolution with a cam pulse in it, readings in between. *)
Definition cranked : list rev :=
  [volts 1000 true (f_of_Z 1)] ++ teeth36 (map Z.of_nat (seq 29 6)) ++ teeth36 [36; 37] ++ [REngine (FTrigger 1 1075000)] ++ teeth36 (map Z.of_nat (seq 38 33)) ++ [volts 1141000 true (f_of_Z 2); RFreq 1141500 (pw_of_capture 1141500 164 655)] ++
  teeth36 [72; 73; 74] ++ [volts 1148500 false (f_of_Z 3); volts 1149000 true (f_of_Z 2)] ++ teeth36 [75].
Definition started (l : list sensor) (es : list rev) : res rig := r <- rig_init factory_decoder default_calc factory_outputs l ;; rrun still_s true log8 5000 r es.
Definition busy (o : output) : bool := match e_state (o_start o) with SCHEDULED | SUBMITTED => true | _ => false end.
Definition sstart (r : res rig) : option (Z * Z * Z * list (option Z) * list bool) :=
  match rseen r, r with Some x, Ok r => Some (x, map busy (firstn 9 (w_outs (r_fw r)))) | _, _ => None end.
Definition is10 (x : f32) : bool := match x, f_of_Z 10 with SpecFloat.S754_finite s m e, SpecFloat.S754_finite s' m' e' => Bool.eqb s s' && Pos.eqb m m' && (e =? e') | _, _ => false end.
Definition pacedb10 (w : fw) (n t : Z) : bool :=
  pulseb (w_dc w) (w_dec w) n t && is10 (dc_dpt (w_dc w)) && (negb (is_tooth (w_dc w) n) || negb (0 <? dd_cur (w_dec w)) || match get (dd_times (w_dec w)) 0 with Ok u => (t - u) mod 2 ^ 32 <=? 600000 * 10 | Err _ => true end).
(* Checks [rsound_paced], for teeth 10 degrees apart. *)
Definition smayb (r : rig) (e : rev) : bool :=
  let reads now := let d := w_dec (r_fw r) in (dd_rpm d <=? 2 ^ 24) && ((now - dd_last_time d) mod 2 ^ 32 * dd_rpm d <=? 600000000000) && forallb (fun x => a_samples (snd x) <? 2 ^ 24) (r_sensors r) in
  match e with
  | REngine (FTrigger n t) => pacedb10 (r_fw r) n t
  | RAdc now u => reads now && Nat.eqb (length (d_values u)) 16 && forallb (fun x => ivb x (f_of_Z 0) (f_of_Z 5)) (d_values u)
  | RFreq now u => reads now && ivb (f_frequency u) (f_of_Z 0) (f_of_Z 4000000) && ivb (f_pulsewidth u) (flit 1 1000) (flit 5 1000)
  | _ => false
  end.
Fixpoint ssoundb (r : rig) (l : list rev) : bool :=
  match l with [] => true | e :: l => smayb r e && match rstep still_s true log8 5000 r e with Ok r => ssoundb r l | Err _ => true end end.
Lemma is10_ok x : is10 x = true -> x = f_of_Z 10.
Proof.
  unfold is10. intros B. destruct x; try discriminate B. destruct (f_of_Z 10); try discriminate B. apply andb_prop in B. destruct B as [B B3]. apply andb_prop in B. destruct B as [B1 B2]. apply eqb_prop in B1. apply Pos.eqb_eq in B2. apply Z.eqb_eq in B3. congruence.
Qed.
Lemma pacedb10_ok w n t : pacedb10 w n t = true -> pulse_paced w n t.
Proof.
  intros B. apply andb_prop in B. destruct B as [B T]. apply andb_prop in B. destruct B as [P N]. split; [now apply pulseb_ok|]. apply is10_ok in N.
  intros Y K u G. rewrite Y, G in T. apply Z.ltb_lt in K. rewrite K in T. cbn [negb orb] in T. apply Z.leb_le in T. rewrite N. destruct (f_of_Z_exact 10) as [-> _]; [cbn; lia|]. rewrite <- (mult_IZR 600000 10). now apply IZR_le.
Qed.
Lemma ssoundb_ok l : forall r, ssoundb r l = true -> rsound_paced ms1_to_5 still_s true log8 5000 r l.
Proof.
  induction l as [|e l IH]; intros r B; [exact Logic.I|]. cbn [ssoundb] in B. apply andb_prop in B. destruct B as [B1 B2]. cbn [rsound_paced].
  split; [|destruct (rstep still_s true log8 5000 r e); [now apply IH|exact Logic.I]].
  assert (Rd : forall now, (dd_rpm (w_dec (r_fw r)) <=? 2 ^ 24) && ((now - dd_last_time (w_dec (r_fw r))) mod 2 ^ 32 * dd_rpm (w_dec (r_fw r)) <=? 600000000000) && forallb (fun x => a_samples (snd x) <? 2 ^ 24) (r_sensors r) = true -> may_read r now).
  { intros now Q. apply andb_prop in Q. destruct Q as [Q Q3]. apply andb_prop in Q. destruct Q as [Q1 Q2]. apply Z.leb_le in Q1, Q2. split; [exact Q1|]. split; [exact Q2|].
    apply Forall_forall. intros x Ix. rewrite forallb_forall in Q3. now apply Z.ltb_lt, Q3. }
  destruct e as [e|now u|now u|i c|i v]; cbn [rmay_paced rmay smayb] in *; try discriminate B1.
  - destruct e; try discriminate B1. apply pacedb10_ok. exact B1.
  - apply andb_prop in B1. destruct B1 as [B1 B4]. apply andb_prop in B1. destruct B1 as [B1 B3]. apply Nat.eqb_eq in B3. split; [now apply Rd|]. split; [exact B3|].
    intros _. apply Forall_forall. intros x Ix. rewrite forallb_forall in B4. apply (ivb_int x 0 5); try lia. now apply B4.
  - apply andb_prop in B1. destruct B1 as [B1 B4]. apply andb_prop in B1. destruct B1 as [B1 B3]. split; [now apply Rd|]. intros _. split; [apply (ivb_int _ 0 4000000)|apply ivb_ok]; auto; lia.
Qed.
Lemma started_seen : sstart (started factory cranked) = Some (1, 3333, 3785, [Some 50; Some 22; Some 15; Some 13; Some 17; Some 102; Some 21; Some 0; Some 100; Some 50], [true; true; true; true; true; true; true; true; true]).
Proof. vm_cast_no_check (eq_refl (Some (1, 3333, 3785, [Some 50; Some 22; Some 15; Some 13; Some 17; Some 102; Some 21; Some 0; Some 100; Some 50], [true; true; true; true; true; true; true; true; true]))). Qed.
Lemma started_sound : match rig_init factory_decoder default_calc factory_outputs factory with Ok r => ssoundb r cranked | Err _ => false end = true.
Proof. vm_cast_no_check (eq_refl true). Qed.
Lemma started_split l es x : sstart (started l es) = Some x ->
  exists r r', rig_init factory_decoder default_calc factory_outputs l = Ok r /\ rrun still_s true log8 5000 r es = Ok r' /\ sstart (Ok r') = Some x.
Proof.
  unfold started. destruct (rig_init _ _ _ l) as [r|]; [|intros X; discriminate X]. cbn [bind]. destruct (rrun _ _ _ _ r es) as [r'|] eqn:E; [|intros X; discriminate X]. intros X.
  exists r, r'. split; [reflexivity|]. split; [exact E|exact X].
Qed.
Lemma split_sound l es r : match rig_init factory_decoder default_calc factory_outputs l with Ok r => ssoundb r es | Err _ => false end = true ->
  rig_init factory_decoder default_calc factory_outputs l = Ok r -> rsound_paced ms1_to_5 still_s true log8 5000 r es.
Proof. intros Y E. rewrite E in Y. now apply ssoundb_ok. Qed.
(* The position is found, the speed is right, the manifold reads 50 kPa, and all nine outputs have a pulse scheduled. *)
Example C93_example : log_sane log8 /\ exists r r', rig_init factory_decoder default_calc factory_outputs factory = Ok r /\ rsound_paced ms1_to_5 still_s true log8 5000 r cranked /\
  rrun still_s true log8 5000 r cranked = Ok r' /\ dd_valid (w_dec (r_fw r')) = 1 /\ dd_rpm (w_dec (r_fw r')) = 3333 /\ map busy (firstn 9 (w_outs (r_fw r'))) = repeat true 9.
Proof.
  split; [exact log8_sane|]. destruct (started_split factory cranked _ started_seen) as (r & r' & Ei & E & X). exists r, r'. split; [exact Ei|]. split; [exact (split_sound factory cranked r started_sound Ei)|]. split; [exact E|].
  unfold sstart, rseen in X. split; [congruence|]. split; [congruence|]. change (repeat true 9) with [true; true; true; true; true; true; true; true; true]. congruence.
Qed.
