(** The whole firmware: what one trigger does from capture to scheduled outputs
    (src/decoder.c 411-434, src/scheduler.c 239-264), the timer interrupt with the callbacks of this
    firmware (src/scheduler.c 322-335), the built-in trigger simulator (src/sim.c), and every other
    thing that can happen between them. *)
Require Import ZArith List Bool.
From Verif Require Import Res Word F32 Outputs Buffers Callbacks Decoder Calc.
Import ListNotations.
Open Scope Z_scope.

(** All the state: config.decoder (settings and state), the rest of config read by the calculations, the
    sensor values, calculated_values, the static variable of the tip-in calculation, config.events, the
    output buffers, the callback list, the static variables of sim.c (36 and 7), and a counter of the
    points passed so far at which the outside world can act (see [point]).  [w_played] is not part of the firmware: it
    records the output buffers the hardware has played to their ends, in order. *)
Record fw : Type := Fw {
  w_dc : dcfg; w_dec : dec; w_cc : ccfg; w_sens : sens; w_vals : cvals; w_tip : tipin;
  w_outs : list output; w_dma : dma; w_cbs : cbs; w_simrpm : Z; w_tooth : Z; w_k : nat; w_played : list buffer }.

Definition set_dec (w : fw) (d : dec) : fw :=
  Fw (w_dc w) d (w_cc w) (w_sens w) (w_vals w) (w_tip w) (w_outs w) (w_dma w) (w_cbs w) (w_simrpm w) (w_tooth w) (w_k w) (w_played w).
Definition set_vals (w : fw) (v : cvals) (t : tipin) : fw :=
  Fw (w_dc w) (w_dec w) (w_cc w) (w_sens w) v t (w_outs w) (w_dma w) (w_cbs w) (w_simrpm w) (w_tooth w) (w_k w) (w_played w).
Definition set_outs (w : fw) (os : list output) : fw :=
  Fw (w_dc w) (w_dec w) (w_cc w) (w_sens w) (w_vals w) (w_tip w) os (w_dma w) (w_cbs w) (w_simrpm w) (w_tooth w) (w_k w) (w_played w).
Definition set_cbs (w : fw) (c : cbs) : fw :=
  Fw (w_dc w) (w_dec w) (w_cc w) (w_sens w) (w_vals w) (w_tip w) (w_outs w) (w_dma w) c (w_simrpm w) (w_tooth w) (w_k w) (w_played w).
Definition set_sim (w : fw) (rpm tooth : Z) : fw :=
  Fw (w_dc w) (w_dec w) (w_cc w) (w_sens w) (w_vals w) (w_tip w) (w_outs w) (w_dma w) (w_cbs w) rpm tooth (w_k w) (w_played w).

(** src/config.h 13 *)
Definition MAX_EVENTS : nat := 16.

(** The callback objects: outputs 0-15, then decoder.expire_event (src/decoder.c 26-28) and
    test_trigger_callback (src/sim.c 6). *)
Definition EXPIRE_CB : Z := 16.
Definition TEST_CB : Z := 17.

(** Buffer swap interrupts at the given times, one after the other. *)
Fixpoint swaps (l : list Z) (d : dma) (os : list output) : res (dma * list output) :=
  match l with
  | [] => Ok (d, os)
  | now :: r => ' (d, os) <- stm32_buffer_swap now d os ;; swaps r d os
  end.

(** The buffers that have been played when these interrupts come: each interrupt comes at the end of one. *)
Fixpoint played (l : list Z) (d : dma) (os : list output) : list buffer :=
  match l with
  | [] => []
  | now :: r => d_cur d :: match stm32_buffer_swap now d os with Ok (d, os) => played r d os | Err _ => [] end
  end.

Section Env.
(** The outside world: at the [k]-th point, the tick counter's value and the swap interrupts that are
    taken there.  Swap interrupts have the highest priority and preempt everything outside critical
    sections; nothing else preempts trigger and timer interrupts and touches this state. *)
Variable env : nat -> Z * list Z.
Variable nd : bool.

Definition point (w : fw) : res (Z * fw) :=
  let '(now, sw) := env (w_k w) in
  ' (d, os) <- swaps sw (w_dma w) (w_outs w) ;;
  Ok (now, Fw (w_dc w) (w_dec w) (w_cc w) (w_sens w) (w_vals w) (w_tip w) os d (w_cbs w) (w_simrpm w) (w_tooth w) (S (w_k w)) (w_played w ++ played sw (w_dma w) (w_outs w))).

(** One output replaced. *)
Definition put_out (w : fw) (i : Z) (o : output) : res fw := os <- put (w_outs w) i o ;; Ok (set_outs w os).

(** src/scheduler.c 82-96 with a swap possible before each output (deschedule_event is a critical
    section; the look at start.state before it is merged into it: a swap in between can only turn
    SCHEDULED into SUBMITTED, which deschedule_event then leaves alone). *)
Fixpoint cancel_from (n : nat) (i : Z) (w : fw) : res fw :=
  match n with
  | O => Ok w
  | S m =>
    ' (_, w) <- point w ;;
    o <- get (w_outs w) i ;; o <- invalidate_one nd o ;; w <- put_out w i o ;;
    cancel_from m (i + 1) w
  end.
Definition cancel_outputs (w : fw) : res fw := cancel_from MAX_EVENTS 0 w.

(** What the scheduler reads of the decoder. *)
Definition view (w : fw) : dview :=
  let d := w_dec w in
  DView (dd_valid d) (dd_rpm d) (dd_tooth_rpm d) (dd_last_time d) (dd_last_angle d) (dc_offset (w_dc w)).

(** src/scheduler.c 134-178 up to the call of schedule_output_event_safely: the recycled output and the
    planned edges.  ([schedule_ignition_event] in Outputs.v is this followed by the rest without
    preemption: [ignition_plan_ok] in SystemProofs.v.) *)
Definition ignition_plan (d : dview) (min_fire_us : Z) (o : output) (advance : f32) (usecs_dwell : Z)
    : res (output * option (Z * Z)) :=
  if (dv_rpm d =? 0) || (dv_valid d =? 0) then Ok (o, None) else
  firing_angle <- clamp_angle (fadd (fsub (fsub (o_angle o) advance) (dv_last_angle d)) (dv_offset d)) (f_of_Z 720) ;;
  dt <- time_from_rpm_diff (dv_tooth_rpm d) firing_angle ;;
  let stop_time := w32 (dv_last_time d + dt) in
  dw <- time_from_us usecs_dwell ;;
  let start_time := w32 (stop_time - dw) in
  r <- recycle nd d o stop_time ;;
  match r with
  | None => Ok (o, None)
  | Some o1 =>
    far <- moves_too_far d o1 stop_time ;;
    if far : bool then Ok (o1, None) else
    mf <- time_from_us min_fire_us ;;
    if time_diff start_time (e_time (o_stop o1)) <? mf then Ok (o1, None)
    else Ok (o1, Some (start_time, stop_time))
  end.

(** src/scheduler.c 184-223 likewise. *)
Definition fuel_plan (d : dview) (o : output) (usecs_pw : Z) : res (output * option (Z * Z)) :=
  if (dv_rpm d =? 0) || (dv_valid d =? 0) then Ok (o, None) else
  firing_angle <- clamp_angle (fadd (fsub (o_angle o) (dv_last_angle d)) (dv_offset d)) (f_of_Z 720) ;;
  dt <- time_from_rpm_diff (dv_tooth_rpm d) firing_angle ;;
  let stop_time := w32 (dv_last_time d + dt) in
  let start_time := w32 (stop_time - w32 (4 * usecs_pw)) in
  r <- recycle nd d o stop_time ;;
  match r with
  | None => Ok (o, None)
  | Some o1 =>
    far <- moves_too_far d o1 stop_time ;;
    if far : bool then Ok (o1, None) else Ok (o1, Some (start_time, stop_time))
  end.

(** src/scheduler.c 100-132 for output [i]: pins and levels outside, times inside the critical section. *)
Definition commit_output (w : fw) (i start stop : Z) : res fw :=
  ' (_, w) <- point w ;;
  o <- get (w_outs w) i ;; w <- put_out w i (set_pins o) ;;
  ' (_, w) <- point w ;;
  o <- get (w_outs w) i ;; put_out w i (commit_times (earliest_schedulable (w_dma w)) o start stop).

(** src/scheduler.c 134-182 *)
Definition schedule_ignition (w : fw) (i : Z) : res fw :=
  ' (_, w) <- point w ;;
  o <- get (w_outs w) i ;;
  ' (o, plan) <- ignition_plan (view w) (k_min_fire (w_cc w)) o (cv_advance (w_vals w)) (cv_dwell (w_vals w)) ;;
  w <- put_out w i o ;;
  match plan with None => Ok w | Some (start, stop) => commit_output w i start stop end.

(** src/scheduler.c 184-238 *)
Definition schedule_fuel (w : fw) (i : Z) : res fw :=
  ' (_, w) <- point w ;;
  o <- get (w_outs w) i ;;
  ' (o, plan) <- fuel_plan (view w) o (cv_fueling (w_vals w)) ;;
  w <- put_out w i o ;;
  match plan with
  | None => Ok w
  | Some (start, stop) =>
    w <- commit_output w i start stop ;;
    ' (now, w) <- point w ;;
    o <- get (w_outs w) i ;;
    if sstate_eqb (e_state (o_stop o)) SCHEDULED && negb (time_before (e_time (o_stop o)) now)
    then c <- schedule_callback nd (w_cbs w) i (e_time (o_stop o)) ;; Ok (set_cbs w c)
    else Ok w
  end.

(** src/scheduler.c 239-264 *)
Definition schedule_event (w : fw) (i : Z) : res fw :=
  o <- get (w_outs w) i ;;
  match o_type o with
  | DISABLED_EVENT => Ok w
  | IGNITION_EVENT =>
    ' (cut, v) <- ignition_cut (w_cc w) (dd_rpm (w_dec w)) (w_sens w) (w_vals w) ;;
    let w := set_vals w v (w_tip w) in
    if (cut : bool) || (dd_valid (w_dec w) =? 0) then cancel_outputs w else schedule_ignition w i
  | FUEL_EVENT =>
    ' (cut, v) <- fuel_cut (w_cc w) (dd_rpm (w_dec w)) (w_sens w) (w_vals w) ;;
    let w := set_vals w v (w_tip w) in
    if (cut : bool) || (dd_valid (w_dec w) =? 0) then cancel_outputs w else schedule_fuel w i
  end.

(** src/decoder.c 430-432 *)
Fixpoint schedule_from (n : nat) (i : Z) (w : fw) : res fw :=
  match n with
  | O => Ok w
  | S m => w <- schedule_event w i ;; schedule_from m (i + 1) w
  end.

(** The decoder's calls into the scheduler: set_expire_event (src/decoder.c 26-28) and
    invalidate_scheduled_events (src/decoder.c 18). *)
Fixpoint effects (fx : list effect) (w : fw) : res fw :=
  match fx with
  | [] => Ok w
  | SetExpire t :: r => c <- schedule_callback nd (w_cbs w) EXPIRE_CB t ;; effects r (set_cbs w c)
  | CancelOutputs :: r => w <- cancel_outputs w ;; effects r w
  end.

(** src/decoder.c 411-434; the log entry (412-418) is in EventLog.v. *)
Definition decoder_update_scheduling (w : fw) (trigger t : Z) : res fw :=
  ' (d, fx) <- decoder_trigger (w_dc w) (w_dec w) trigger t ;;
  w <- effects fx (set_dec w d) ;;
  if dd_valid (w_dec w) =? 0 then Ok w else
  v <- calculate_ignition nd (w_cc w) (dd_rpm (w_dec w)) (w_sens w) (w_vals w) ;;
  ' (now, w) <- point w ;;
  ' (v, c) <- calculate_fueling nd (w_cc w) now (dd_rpm (w_dec w)) (w_sens w) v (w_tip w) ;;
  schedule_from MAX_EVENTS 0 (set_vals w v c).

(** src/sim.c 13-38: degrees to the next event, trigger number of this one, next tooth. *)
Definition test_wheel_next (n tooth : Z) : f32 * Z * Z :=
  let deg := fdiv (f_of_Z 720) (f_of_Z (2 * n)) in
  let '(d, tr) := if tooth =? 1 then (deg, 1) else if tooth =? 36 then (fmul (f_of_Z 2) deg, 0) else (deg, 0) in
  (d, tr, if n * 2 - 1 <=? tooth + 1 then 0 else tooth + 1).

(** src/sim.c 41-58 *)
Definition execute_test_trigger (w : fw) : res fw :=
  if w_simrpm w =? 0 then Ok w else
  ev_time <- get (cb_time (w_cbs w)) TEST_CB ;;
  let '(deg, trigger, tooth) := test_wheel_next (s32 (dc_num (w_dc w))) (w_tooth w) in
  w <- decoder_update_scheduling (set_sim w (w_simrpm w) tooth) trigger ev_time ;;
  delay <- time_from_rpm_diff (w_simrpm w) deg ;;
  c <- schedule_callback nd (w_cbs w) TEST_CB (w32 (ev_time + delay)) ;;
  Ok (set_cbs w c).

(** src/decoder.c 21-24 and 30-33 with the cancelling of line 18. *)
Definition lose_position (w : fw) (d : dec) : res fw := cancel_outputs (set_dec w d).

(** The function a callback object points to. *)
Definition callback (w : fw) (cb : Z) : res fw :=
  if cb =? EXPIRE_CB then lose_position w (handle_decoder_expire (w_dec w))
  else if cb =? TEST_CB then execute_test_trigger w
  else schedule_event w cb.

(** src/scheduler.c 322-335; compare [timer_execute]. *)
Definition timer_interrupt (w : fw) : res fw :=
  _ <- c_assert nd (0 <? cb_n (w_cbs w)) ;;
  cb <- get (cb_arr (w_cbs w)) 0 ;;
  ' (now, w) <- point w ;;
  _ <- (if nd then Ok tt else t <- tcb_time (w_cbs w) cb ;; c_assert nd (time_before_or_equal t now)) ;;
  c <- callback_remove nd (w_cbs w) cb ;;
  w <- callback (set_cbs w c) cb ;;
  if 0 <? cb_n (w_cbs w) then c <- arm_first (w_cbs w) ;; Ok (set_cbs w c) else Ok w.

(** Everything that can happen: the two interrupts, the loss of a capture (stm32f4-discovery.c 808-811),
    sensor updates, changes of the configuration over the console (the members of one output, the decoder
    and the calculation settings; each may change several at once), the test trigger command
    (src/sim.c 60-65) and the emergency shutdown (src/tasks.c 128-143, pins in Tasks.v). *)
Inductive fev : Type :=
| FTrigger (n t : Z)
| FTimer
| FOverflow
| FIdle                                       (* time passes; swaps *)
| FSensors (s : sens)
| FDecoderConfig (c : dcfg)
| FCalcConfig (k : ccfg)
| FOutputConfig (i : Z) (ty : etype) (angle : f32) (pin : Z) (inv : bool)
| FTestRpm (rpm : Z)
| FShutdown.

Definition fstep (w : fw) (e : fev) : res fw :=
  match e with
  | FTrigger n t => decoder_update_scheduling w n t
  | FTimer => timer_interrupt w
  | FOverflow => lose_position w (decoder_desync (w_dec w) OVERFLOW)
  | FIdle => ' (_, w) <- point w ;; Ok w
  | FSensors s => Ok (Fw (w_dc w) (w_dec w) (w_cc w) s (w_vals w) (w_tip w) (w_outs w) (w_dma w) (w_cbs w) (w_simrpm w) (w_tooth w) (w_k w) (w_played w))
  | FDecoderConfig c => Ok (Fw c (w_dec w) (w_cc w) (w_sens w) (w_vals w) (w_tip w) (w_outs w) (w_dma w) (w_cbs w) (w_simrpm w) (w_tooth w) (w_k w) (w_played w))
  | FCalcConfig k => Ok (Fw (w_dc w) (w_dec w) k (w_sens w) (w_vals w) (w_tip w) (w_outs w) (w_dma w) (w_cbs w) (w_simrpm w) (w_tooth w) (w_k w) (w_played w))
  | FOutputConfig i ty angle pin inv => o <- get (w_outs w) i ;; put_out w i (Output ty angle pin inv (o_start o) (o_stop o))
  | FTestRpm rpm =>
    ' (now, w) <- point w ;;
    c <- schedule_callback nd (w_cbs w) TEST_CB (w32 (now + 10000)) ;;
    Ok (set_sim (set_cbs w c) rpm (w_tooth w))
  | FShutdown => cancel_outputs w
  end.

Fixpoint frun (w : fw) (l : list fev) : res fw :=
  match l with
  | [] => Ok w
  | e :: r => w <- fstep w e ;; frun w r
  end.
End Env.

(** Power-on (src/viaems.c 12-27): any configuration, zeroed state, 18 callback objects. *)
Definition fw_init (dc : dcfg) (cc : ccfg) (s : sens) (os : list output) : fw :=
  let '(dc, d) := decoder_init dc dec_init in
  Fw dc d cc s cvals_init tipin_init os dma_init (cbs_init 18) 0 0 0 [].
