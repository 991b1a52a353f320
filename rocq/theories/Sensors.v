(** src/sensors.c: conversion, filtering and fault handling of the sensor inputs, and the knock filter. *)
Require Import ZArith List Bool.
From Verif Require Import Res Word F32.
Import ListNotations.
Open Scope Z_scope.

(** sensors.h 25-31, 33-37, 39-43 *)
Inductive ssource : Type := SRC_NONE | SRC_ADC | SRC_FREQ | SRC_PULSEWIDTH | SRC_CONST.
Inductive smethod : Type := LINEAR | LINEAR_WINDOWED | THERM.
Inductive sfault : Type := FAULT_NONE | FAULT_RANGE | FAULT_CONN.
Definition no_fault (f : sfault) : bool := match f with FAULT_NONE => true | _ => false end.

(** sensors.h 50-84 (struct sensor_input), the settings; the table pointer is not read by sensors.c. *)
Record scfg : Type := SCfg {
  c_pin : Z; c_source : ssource; c_method : smethod;
  c_range_min : f32; c_range_max : f32; c_raw_min : f32; c_raw_max : f32;
  c_bias : f32; c_a : f32; c_b : f32; c_c : f32;
  c_lag : f32; c_fault_min : f32; c_fault_max : f32; c_fault_value : f32;
  c_capture : Z; c_total : Z; c_offset : Z }.
(** ... and the part sensors.c writes. *)
Record sdat : Type := SDat {
  a_acc : f32; a_samples : Z; a_collecting : bool; a_start : f32;
  a_time : Z; a_raw : f32; a_value : f32; a_deriv : f32; a_fault : sfault }.

Definition set_window (s : sdat) (acc : f32) (n : Z) (col : bool) (start : f32) : sdat :=
  SDat acc n col start (a_time s) (a_raw s) (a_value s) (a_deriv s) (a_fault s).
Definition set_input (s : sdat) (raw : f32) (t : Z) : sdat :=
  SDat (a_acc s) (a_samples s) (a_collecting s) (a_start s) t raw (a_value s) (a_deriv s) (a_fault s).
Definition set_output (s : sdat) (v d : f32) : sdat :=
  SDat (a_acc s) (a_samples s) (a_collecting s) (a_start s) (a_time s) (a_raw s) v d (a_fault s).
Definition set_fault (s : sdat) (f : sfault) : sdat :=
  SDat (a_acc s) (a_samples s) (a_collecting s) (a_start s) (a_time s) (a_raw s) (a_value s) (a_deriv s) f.

(** sensors.c 8-14 *)
Definition sensor_convert_linear (c : scfg) (raw : f32) : f32 :=
  if feq (c_raw_max c) (c_raw_min c) then f_zero else
  let partial := fdiv (fsub raw (c_raw_min c)) (fsub (c_raw_max c) (c_raw_min c)) in
  fadd (c_range_min c) (fmul partial (fsub (c_range_max c) (c_range_min c))).

(** sensors.c 19-23: the for loop, [i] from 0 in steps of total_width.  With a width of at least 1 it ends
    within 720 rounds; with width 0 it never ends unless it returns. *)
Fixpoint window_loop (fuel : nat) (c : scfg) (cur : f32) (i : Z) : res bool :=
  if i <? 720 then
    if fge cur (f_of_Z i) && flt cur (f_of_Z (w32 (i + c_capture c))) then Ok true
    else match fuel with
         | O => Err Diverges
         | S n => window_loop n c cur (w32 (i + c_total c))
         end
  else Ok false.
(** sensors.c 16-25 *)
Definition current_angle_in_window (c : scfg) (angle : f32) : res bool :=
  cur <- clamp_angle (fsub angle (f_of_Z (c_offset c))) (f_of_Z 720) ;;
  window_loop 720 c cur 0.

(** sensors.c 27-63; [rpm] is config.decoder.rpm. *)
Definition sensor_convert_linear_windowed (c : scfg) (rpm : Z) (s : sdat) (angle : f32) : res (f32 * sdat) :=
  if rpm =? 0 then Ok (sensor_convert_linear c (a_raw s), s) else
  inw <- current_angle_in_window c angle ;;
  over <- (if negb inw then Ok true
           else since <- clamp_angle (fsub angle (a_start s)) (f_of_Z 720) ;; Ok (fge since (f_of_Z (c_capture c)))) ;;
  let close := over && (a_collecting s && negb (a_samples s =? 0)) in
  let result := if close then fdiv (a_acc s) (f_of_Z (a_samples s)) else a_value s in
  let s := if close then set_window s (a_acc s) (a_samples s) false (a_start s) else s in
  inw <- current_angle_in_window c angle ;;
  if inw : bool then
    let s := if a_collecting s then s else set_window s f_zero 0 (a_collecting s) angle in
    Ok (result, set_window s (fadd (a_acc s) (sensor_convert_linear c (a_raw s))) (w32 (a_samples s + 1)) true (a_start s))
  else Ok (result, s).

(** sensors.c 65-76; [logf] is the C library's. *)
Definition sensor_convert_thermistor (logf : f32 -> f32) (c : scfg) (raw : f32) : f32 :=
  if feq raw f_zero then f_zero else
  let r := fdiv (c_bias c) (fsub (fdiv (c_raw_max c) raw) (f_of_Z 1)) in
  let l := logf r in
  let t := fdiv (f_of_Z 1) (fadd (fadd (c_a c) (fmul (c_b c) l)) (fmul (fmul (fmul (c_c c) l) l) l)) in
  fsub t (flit 27315 100).

(** sensors.c 78-91 *)
Definition detect_faults (c : scfg) (s : sdat) : sfault :=
  if negb (no_fault (a_fault s)) then a_fault s else
  if negb (feq (c_fault_max c) f_zero) then
    if fgt (c_fault_min c) (a_raw s) || flt (c_fault_max c) (a_raw s) then FAULT_RANGE else FAULT_NONE
  else FAULT_NONE.

(** sensors.c 93-97; [rate] is platform_adc_samplerate(). *)
Definition process_derivative (rate : Z) (old new : f32) : res f32 :=
  if rate =? 0 then Err DivByZero else
  t <- time_from_us (1000000 / rate) ;;
  Ok (fdiv (fmul (f_of_Z TICKRATE) (fsub new old)) (f_of_Z t)).

(** sensors.c 99-105 *)
Definition process_lag_filter (lag old new : f32) : f32 :=
  if feq lag f_zero then new
  else fdiv (fadd (fmul old lag) (fmul new (fsub (f_of_Z 100) lag))) (f_of_Z 100).

(** What the surroundings provide to one conversion: the C library's logf, the sample rate,
    config.decoder.rpm and the outcome of current_angle() (Decoder.v; it may hang, see C30). *)
Record senv : Type := SEnv { v_logf : f32 -> f32; v_rate : Z; v_rpm : Z; v_angle : res f32 }.

(** sensors.c 107-140 *)
Definition sensor_convert (v : senv) (c : scfg) (s : sdat) (raw : f32) (time : Z) : res sdat :=
  let s := set_input s raw time in
  if negb (no_fault (detect_faults c s)) then Ok (set_output s (c_fault_value c) f_zero) else
  ' (new, s) <- (match c_method c with
                 | LINEAR => Ok (sensor_convert_linear c (a_raw s), s)
                 | LINEAR_WINDOWED => a <- v_angle v ;; sensor_convert_linear_windowed c (v_rpm v) s a
                 | THERM => Ok (sensor_convert_thermistor (v_logf v) c (a_raw s), s)
                 end) ;;
  let new := process_lag_filter (c_lag c) (a_value s) new in
  d <- process_derivative (v_rate v) (a_value s) new ;;
  Ok (set_output s new d).

(** sensors.h 116-123 (struct freq_update), 125-129 (struct adc_update) *)
Record freq_update : Type := FreqUpdate { f_time : Z; f_valid : bool; f_pin : Z; f_frequency : f32; f_pulsewidth : f32 }.
Record adc_update : Type := AdcUpdate { d_time : Z; d_valid : bool; d_values : list f32 }.
Definition sensor : Type := (scfg * sdat)%type.
Definition conn_fault (valid : bool) : sfault := if valid then FAULT_NONE else FAULT_CONN.

(** sensors.c 142-161 for one sensor *)
Definition sensor_freq (v : senv) (u : freq_update) (x : sensor) : res sensor :=
  let (c, s) := x in
  if negb (c_pin c =? f_pin u) then Ok x else
  match c_source c with
  | SRC_FREQ => s <- sensor_convert v c (set_fault s (conn_fault (f_valid u))) (f_frequency u) (f_time u) ;; Ok (c, s)
  | SRC_PULSEWIDTH => s <- sensor_convert v c (set_fault s (conn_fault (f_valid u))) (f_pulsewidth u) (f_time u) ;; Ok (c, s)
  | _ => Ok x
  end.
(** sensors.c 163-175 for one sensor *)
Definition sensor_adc (v : senv) (u : adc_update) (x : sensor) : res sensor :=
  let (c, s) := x in
  match c_source c with
  | SRC_ADC =>
    if 16 <=? c_pin c then Ok x else
    raw <- get (d_values u) (c_pin c) ;;
    s <- sensor_convert v c (set_fault s (conn_fault (d_valid u))) raw (d_time u) ;; Ok (c, s)
  | _ => Ok x
  end.
Fixpoint each (f : sensor -> res sensor) (l : list sensor) : res (list sensor) :=
  match l with
  | [] => Ok []
  | x :: r => y <- f x ;; r <- each f r ;; Ok (y :: r)
  end.
(** The loops over all sensors (windowed sensors read the clock anew each time; the outcome of
    current_angle() is the same for all sensors of one update here). *)
Definition sensor_update_freq (v : senv) (u : freq_update) : list sensor -> res (list sensor) := each (sensor_freq v u).
Definition sensor_update_adc (v : senv) (u : adc_update) : list sensor -> res (list sensor) := each (sensor_adc v u).

(** sensors.c 177-185; [i] is the loop counter. *)
Fixpoint fault_bits (l : list sensor) (i : Z) : Z :=
  match l with
  | [] => 0
  | (_, s) :: r => Z.lor (if no_fault (a_fault s) then 0 else Z.shiftl 1 i) (fault_bits r (i + 1))
  end.
Definition sensor_fault_status (l : list sensor) : Z := fault_bits l 0.

(** sensors.h 98-114 (struct knock_input and its state) *)
Record knock : Type := Knock {
  q_frequency : f32; q_width : Z; q_freq : Z; q_w : f32; q_cr : f32;
  q_n : Z; q_sprev : f32; q_sprev2 : f32; q_value : f32 }.

(** sensors.c 187-201; [cosf] is the C library's, [rate] is platform_knock_samplerate(). *)
Definition knock_configure (cosf : f32 -> f32) (rate : Z) (k : knock) : res knock :=
  let bucketsize := fdiv (f_of_Z rate) (f_of_Z 64) in
  bucket <- f_to_u32 (fdiv (fadd (q_frequency k) bucketsize) bucketsize) ;;
  let w := fdiv (fmul (fmul (f_of_Z 2) (flit 314159 100000)) (f_of_Z bucket)) (f_of_Z 64) in
  Ok (Knock (q_frequency k) 64 bucket w (cosf w) 0 f_zero f_zero (q_value k)).

(** sensors.c 203-221 *)
Definition knock_add_sample (k : knock) (x : f32) : knock :=
  let n := w32 (q_n k + 1) in
  let s := fsub (fadd x (fmul (fmul (q_cr k) (f_of_Z 2)) (q_sprev k))) (q_sprev2 k) in
  let s2 := q_sprev k in
  if n =? 64 then
    let value := fsub (fadd (fmul s s) (fmul s2 s2)) (fmul (fmul (fmul s s2) (q_cr k)) (f_of_Z 2)) in
    Knock (q_frequency k) (q_width k) (q_freq k) (q_w k) (q_cr k) 0 f_zero f_zero value
  else Knock (q_frequency k) (q_width k) (q_freq k) (q_w k) (q_cr k) n s s2 (q_value k).

(** sensors.c 223-230: the chosen input and the loop over the samples; samples[] has 16 elements. *)
Fixpoint knock_samples (k : knock) (l : list f32) (i : Z) (n : nat) : res knock :=
  match n with
  | O => Ok k
  | S m => x <- get l i ;; knock_samples (knock_add_sample k x) l (i + 1) m
  end.
Definition sensor_update_knock (pin n : Z) (samples : list f32) (ks : knock * knock) : res (knock * knock) :=
  let (k0, k1) := ks in
  if pin =? 0 then k <- knock_samples k0 samples 0 (Z.to_nat n) ;; Ok (k, k1)
  else k <- knock_samples k1 samples 0 (Z.to_nat n) ;; Ok (k0, k).
