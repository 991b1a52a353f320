(** What C92 speaks about: sensors whose accepted readings convert to possible values, and events that may happen. *)
Require Import ZArith Reals List Bool.
From Verif Require Import Res Word F32 F32Flocq Interval Sensors SensorSpec SensorProofs Decoder Calc CalcSpec System SafeSpec PaceSpec Rig.
Import ListNotations.
Open Scope Z_scope.

(** The values a sensor that the calculations read may have: kPa for the manifold, Celsius for air and fuel; coolant, battery
    and throttle may read anything of a sensible size. *)
Definition box (i : Z) : option (Z * Z) :=
  if i =? MAP_ then Some (0, 512) else
  if i =? IAT_ then Some (-64, 512) else
  if i =? FRT_ then Some (-64, 128) else
  if (i =? CLT_) || (i =? BRV_) || (i =? TPS_) then Some (-131072, 131072) else None.

(** The raw readings the hardware delivers: up to 5 volts, up to 4 MHz, and pulses within [pulses] (in seconds). *)
Definition reading (pulses : R * R) (s : ssource) (raw : f32) : Prop :=
  match s with SRC_ADC => iv raw 0 5 | SRC_FREQ => iv raw 0 4000000 | SRC_PULSEWIDTH => iv raw (fst pulses) (snd pulses) | SRC_NONE | SRC_CONST => False end.
(** A reading within the sensor's fault limits; an upper limit of 0 means there are none. *)
Definition accepted (c : scfg) (raw : f32) : Prop := (R_ (c_fault_max c) = 0 \/ R_ (c_fault_min c) <= R_ raw <= R_ (c_fault_max c))%R.
Definition converted (logf : f32 -> f32) (c : scfg) (raw : f32) : f32 :=
  match c_method c with THERM => sensor_convert_thermistor logf c raw | LINEAR | LINEAR_WINDOWED => sensor_convert_linear c raw end.

Record in_box (pulses : R * R) (logf : f32 -> f32) (c : scfg) (lo hi : Z) : Prop := {
  ib_limits : number (c_fault_min c) /\ number (c_fault_max c);
  ib_fault : iv (c_fault_value c) (IZR lo) (IZR hi);
  ib_lag : exists n, 0 <= n <= 100 /\ c_lag c = f_of_Z n;               (* a whole percentage *)
  ib_conv : forall raw, reading pulses (c_source c) raw -> accepted c raw -> iv (converted logf c raw) (IZR lo) (IZR hi) }.
(** A sensor that is averaged over windows of the crank's cycle has windows. *)
Definition windows_ok (c : scfg) : Prop := c_method c = LINEAR_WINDOWED -> windowed c /\ c_offset c <= 720.
Definition sensor_ok (pulses : R * R) (logf : f32 -> f32) (i : Z) (c : scfg) : Prop :=
  windows_ok c /\ forall lo hi, box i = Some (lo, hi) -> in_box pulses logf c lo hi.

(** The crank has not turned more than 900000 degrees since the last tooth, at its last speed (an estimate of its angle much
    later may take forever, C30), and no window has 2^24 readings yet. *)
Definition may_read (r : rig) (now : Z) : Prop :=
  let d := w_dec (r_fw r) in dd_rpm d <= 2 ^ 24 /\ (now - dd_last_time d) mod 2 ^ 32 * dd_rpm d <= 600000000000 /\
  Forall (fun x => a_samples (snd x) < 2 ^ 24) (r_sensors r).
Definition rmay (pulses : R * R) (logf : f32 -> f32) (r : rig) (e : rev) : Prop :=
  match e with
  | REngine (FSensors _) => False
  | REngine e => may (r_fw r) e
  | RAdc now u => may_read r now /\ length (d_values u) = 16%nat /\ (d_valid u = true -> Forall (reading pulses SRC_ADC) (d_values u))
  | RFreq now u => may_read r now /\ (f_valid u = true -> reading pulses SRC_FREQ (f_frequency u) /\ reading pulses SRC_PULSEWIDTH (f_pulsewidth u))
  | RSettings i c => 0 <= i < 10 /\ 0 <= c_pin c /\ sensor_ok pulses logf i c
  | RFixed i v => 0 <= i < 10 /\ forall lo hi, box i = Some (lo, hi) -> iv v (IZR lo) (IZR hi)
  end.
(** The same with C91's rule on pulses in place of C90's conditions on the speeds the firmware calculates. *)
Definition rmay_paced (pulses : R * R) (logf : f32 -> f32) (r : rig) (e : rev) : Prop :=
  match e with REngine (FSensors _) => False | REngine e => may_paced (r_fw r) e | _ => rmay pulses logf r e end.
Section Sound.
Variables (pulses : R * R) (env : nat -> Z * list Z) (nd : bool) (logf : f32 -> f32) (rate : Z).
Fixpoint rsound (r : rig) (l : list rev) : Prop :=
  match l with
  | [] => True
  | e :: l => rmay pulses logf r e /\ match rstep env nd logf rate r e with Ok r => rsound r l | Err _ => True end
  end.
Fixpoint rsound_paced (r : rig) (l : list rev) : Prop :=
  match l with
  | [] => True
  | e :: l => rmay_paced pulses logf r e /\ match rstep env nd logf rate r e with Ok r => rsound_paced r l | Err _ => True end
  end.
End Sound.

(** A sensor as it is at power-on: nothing measured. *)
Definition idle_sensor (s : sdat) : Prop :=
  a_acc s = f_zero /\ a_samples s = 0 /\ a_collecting s = false /\ a_start s = f_zero /\ a_deriv s = f_zero.
Record sensors_start (pulses : R * R) (logf : f32 -> f32) (l : list sensor) : Prop := {
  sb_len : length l = 10%nat;
  sb_each : forall i c s, get l i = Ok (c, s) -> 0 <= c_pin c /\ sensor_ok pulses logf i c /\ idle_sensor s /\
    forall lo hi, box i = Some (lo, hi) -> iv (a_value s) (IZR lo) (IZR hi) }.

(** The calculations read the first eight sensors but the sixth (src/sensors.h 9-21: manifold pressure, intake air, coolant,
    battery, throttle, atmospheric pressure, fuel temperature, lambda), and the rate of change of the throttle. *)
Definition reads (l : list sensor) (s : sens) : Prop :=
  exists map iat clt brv tps aap frt ego rest,
    l = map :: iat :: clt :: brv :: tps :: aap :: frt :: ego :: rest /\
    s_map s = a_value (snd map) /\ s_iat s = a_value (snd iat) /\ s_clt s = a_value (snd clt) /\ s_brv s = a_value (snd brv) /\
    s_tps s = a_value (snd tps) /\ s_tpsrate s = a_deriv (snd tps) /\ s_frt s = a_value (snd frt) /\ s_ego s = a_value (snd ego).
