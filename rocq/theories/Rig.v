(** The firmware together with its sensors: System.v reads the sensor values from its state, Sensors.v writes them. Here the
    conversions of src/sensors.c feed the calculations of src/calculations.c, as they do through config.sensors. *)
Require Import ZArith List Bool.
From Verif Require Import Res Word F32 Sensors Decoder Calc System.
Import ListNotations.
Open Scope Z_scope.

(** src/sensors.h 9-21: the positions in config.sensors. *)
Definition MAP_ : Z := 0.
Definition IAT_ : Z := 1.
Definition CLT_ : Z := 2.
Definition BRV_ : Z := 3.
Definition TPS_ : Z := 4.
Definition AAP_ : Z := 5.
Definition FRT_ : Z := 6.
Definition EGO_ : Z := 7.
Definition FRP_ : Z := 8.
Definition ETH_ : Z := 9.

(** src/calculations.c 30, 44, 56, 139-146: what the calculations read. *)
Definition value_of (l : list sensor) (i : Z) : res f32 := x <- get l i ;; Ok (a_value (snd x)).
Definition readings (l : list sensor) : res sens :=
  map <- value_of l MAP_ ;; iat <- value_of l IAT_ ;; clt <- value_of l CLT_ ;; brv <- value_of l BRV_ ;; tps <- value_of l TPS_ ;;
  rate <- get l TPS_ ;; frt <- value_of l FRT_ ;; ego <- value_of l EGO_ ;;
  Ok (Sens map iat clt brv tps (a_deriv (snd rate)) frt ego).

Record rig : Type := Rig { r_fw : fw; r_sensors : list sensor }.

(** One engine event (System.v); the interrupts that deliver analog and frequency readings (src/sensors.c 142-175), at tick
    [now]; and the console's changes of a sensor (src/console.c 1110-1192): its settings, or its fixed value.  Simplified: the
    console changes one setting at a time, each of which is an event here. *)
Inductive rev : Type :=
| REngine (e : fev)
| RAdc (now : Z) (u : adc_update)
| RFreq (now : Z) (u : freq_update)
| RSettings (i : Z) (c : scfg)
| RFixed (i : Z) (v : f32).

Definition set_value (s : sdat) (v : f32) : sdat :=
  SDat (a_acc s) (a_samples s) (a_collecting s) (a_start s) (a_time s) (a_raw s) v (a_deriv s) (a_fault s).

Section Run.
Variables (env : nat -> Z * list Z) (nd : bool) (logf : f32 -> f32) (rate : Z).

(** src/sensors.c 118: the surroundings of a conversion at tick [now]. *)
Definition around (w : fw) (now : Z) : senv := SEnv logf rate (dd_rpm (w_dec w)) (current_angle (w_dec w) now).
(** The calculations see the new values. *)
Definition with_sensors (w : fw) (l : list sensor) : res rig :=
  s <- readings l ;; w <- fstep env nd w (FSensors s) ;; Ok (Rig w l).
Definition rstep (r : rig) (e : rev) : res rig :=
  let w := r_fw r in let l := r_sensors r in
  match e with
  | REngine e => w <- fstep env nd w e ;; Ok (Rig w l)
  | RAdc now u => l <- sensor_update_adc (around w now) u l ;; with_sensors w l
  | RFreq now u => l <- sensor_update_freq (around w now) u l ;; with_sensors w l
  | RSettings i c => x <- get l i ;; l <- put l i (c, snd x) ;; with_sensors w l
  | RFixed i v => x <- get l i ;; l <- put l i (fst x, set_value (snd x) v) ;; with_sensors w l
  end.
Fixpoint rrun (r : rig) (es : list rev) : res rig :=
  match es with
  | [] => Ok r
  | e :: es => r <- rstep r e ;; rrun r es
  end.
End Run.

(** Power-on: System.v's start, with the values the sensors hold then. *)
Definition rig_init (dc : dcfg) (cc : ccfg) (os : list Outputs.output) (l : list sensor) : res rig :=
  s <- readings l ;; Ok (Rig (fw_init dc cc s os) l).
