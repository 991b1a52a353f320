(** src/tasks.c: the periodic tasks and the emergency shutdown, and the PWM outputs they drive.
    Every call of current_time() is a separate reading, passed in (the counter goes on while a task runs). *)
Require Import ZArith List Bool.
From Verif Require Import Res Word F32 Table Outputs Calc System.
Import ListNotations.
Open Scope Z_scope.

(** What the tasks do to the outside: platform.h set_gpio, set_pwm, set_output. *)
Inductive cmd : Type := SetGpio (pin : Z) (v : Z) | SetPwm (pin : Z) (duty : f32) | SetOutput (pin : Z) (v : bool).

(** tasks.c 7-28.  [t1] is the reading in the range test, [t2] the next one (line 15 or 21), [t3] the one in
    line 26; [last_valid] is the static variable.  The result is the pump's level and the new [last_valid]. *)
Definition handle_fuel_pump (t1 t2 t3 last_trigger last_valid : Z) : res (Z * Z) :=
  one <- time_from_us 1000000 ;;
  if time_in_range t1 last_trigger (w32 (last_trigger + one)) then Ok (1, t2) else
  four <- time_from_us 4000000 ;;
  if time_diff t2 last_valid <? four then Ok (1, last_valid) else
  five <- time_from_us 5000000 ;;
  Ok (0, w32 (t3 - five)).

(** config.boost_control: the pin is used in [run_tasks]. *)
Record boost : Type := Boost { bo_enable : f32; bo_control : f32; bo_tps : f32; bo_table : table1 }.
(** tasks.c 30-48, the duty *)
Definition handle_boost_control (nd : bool) (b : boost) (map tps : f32) (rpm : Z) : res f32 :=
  if flt map (bo_enable b) then Ok f_zero
  else if flt map (bo_control b) && fgt tps (bo_tps b) then Ok (f_of_Z 100)
  else interpolate_table_oneaxis nd (bo_table b) (f_of_Z rpm).

(** tasks.c 61-66 cel_state_t; the enumerators' values order the states. *)
Inductive cel : Type := CEL_NONE | CEL_CONSTANT | CEL_SLOWBLINK | CEL_FASTBLINK.
Definition cel_level (c : cel) : Z := match c with CEL_NONE => 0 | CEL_CONSTANT => 1 | CEL_SLOWBLINK => 2 | CEL_FASTBLINK => 3 end.

(** tasks.c 71-92; [faults] is sensor_fault_status() (a uint32_t). *)
Definition determine_next_cel_state (faults valid rpm : Z) (map ego lean_kpa lean_ego : f32) : cel :=
  if fgt map lean_kpa && fgt ego lean_ego then CEL_FASTBLINK
  else if (valid =? 0) && (0 <? rpm) then CEL_SLOWBLINK
  else if 0 <? faults then CEL_CONSTANT
  else CEL_NONE.

(** tasks.c 94-108 *)
Definition determine_cel_pin_state (s : cel) (cur start : Z) : res Z :=
  match s with
  | CEL_NONE => Ok 0
  | CEL_CONSTANT => Ok 1
  | CEL_SLOWBLINK => h <- time_from_us 500000 ;; Ok (w32 (cur - start) / h mod 2)
  | CEL_FASTBLINK => h <- time_from_us 200000 ;; Ok (w32 (cur - start) / h mod 2)
  end.

(** tasks.c 110-126; [t1], [t2], [t3] are the readings in lines 115, 122 and 126.  The state is
    (cel_state, last_cel); the result is the pin's level and the new state. *)
Definition handle_check_engine_light (next : cel) (t1 t2 t3 : Z) (st : cel * Z) : res (Z * (cel * Z)) :=
  let '(s, last) := st in
  three <- time_from_us 3000000 ;;
  let s := if three <? time_diff t1 last then CEL_NONE else s in
  let '(s, last) := if cel_level s <? cel_level next then (next, t2) else (s, last) in
  v <- determine_cel_pin_state s t3 last ;;
  Ok (v, (s, last)).

(** tasks.c 145-150: all of it, for the commands.  [p1]..[p3] and [c1]..[c3] are the successive readings of the
    counter; [tooth], [vb] and [vc] are what each of the three tasks finds, as interrupts can come between them. *)
Record tcfg : Type := TCfg { tk_pump_pin : Z; tk_boost : boost; tk_boost_pin : Z; tk_cel_pin : Z; tk_lean_kpa : f32; tk_lean_ego : f32 }.
Record tstate : Type := TState { ts_valid : Z; ts_cel : cel * Z }.
Definition tstate_init : tstate := TState 0 (CEL_NONE, 0).
Record tview : Type := TView { tv_valid : Z; tv_rpm : Z; tv_map : f32; tv_tps : f32; tv_ego : f32; tv_faults : Z }.
Definition run_tasks (nd : bool) (k : tcfg) (tooth : Z) (vb vc : tview) (p1 p2 p3 c1 c2 c3 : Z) (s : tstate) : res (list cmd * tstate) :=
  ' (pump, lv) <- handle_fuel_pump p1 p2 p3 tooth (ts_valid s) ;;
  duty <- handle_boost_control nd (tk_boost k) (tv_map vb) (tv_tps vb) (tv_rpm vb) ;;
  let next := determine_next_cel_state (tv_faults vc) (tv_valid vc) (tv_rpm vc) (tv_map vc) (tv_ego vc) (tk_lean_kpa k) (tk_lean_ego k) in
  ' (light, cs) <- handle_check_engine_light next c1 c2 c3 (ts_cel s) ;;
  Ok ([SetGpio (tk_pump_pin k) pump; SetPwm (tk_boost_pin k) duty; SetGpio (tk_cel_pin k) light], TState lv cs).

(** tasks.c 137-142 *)
Fixpoint fuel_off (os : list output) : list cmd :=
  match os with
  | [] => []
  | o :: r => match o_type o with FUEL_EVENT => SetOutput (o_pin o) (o_inv o) :: fuel_off r | _ => fuel_off r end
  end.
(** tasks.c 128-143 in the firmware: swap interrupts may still come between the outputs (they do on the stm32;
    on the gd32 the first cancelled output switches the interrupts on again). *)
Definition handle_emergency_shutdown (env : nat -> Z * list Z) (nd : bool) (pump_pin : Z) (w : fw) : res (list cmd * fw) :=
  w <- cancel_outputs env nd w ;;
  Ok (SetGpio pump_pin 0 :: fuel_off (w_outs w), w).

(** The two ports as 32-bit words: (GPIOD outputs, GPIOE general purpose).  gd32f4_init.c 41-55,
    stm32f4-discovery.c 885-903: a bit is set or cleared. *)
Definition port_write (p pin : Z) (v : bool) : Z := if v then Z.setbit p pin else Z.clearbit p pin.
Definition cmd_step (ports : Z * Z) (c : cmd) : Z * Z :=
  match c with
  | SetGpio pin v => (fst ports, port_write (snd ports) pin (negb (v =? 0)))
  | SetOutput pin v => (port_write (fst ports) pin v, snd ports)
  | SetPwm _ _ => ports
  end.
Definition cmd_run (ports : Z * Z) (l : list cmd) : Z * Z := fold_left cmd_step l ports.

(** platforms/gd32f4/gd32f4_pwm.c 44-45: the compare value, a uint16_t. *)
Definition gd32_pwm (percent : f32) : res Z := f_to_u16 (fmul (fdiv percent (f_of_Z 100)) (f_of_Z 65535)).
(** platforms/stm32f4-discovery.c 233-239: an int, after clamping. *)
Definition stm32_pwm (percent : f32) : res Z :=
  let percent := if flt percent f_zero then f_zero else if fgt percent (f_of_Z 100) then f_of_Z 100 else percent in
  f_to_int (fmul (fdiv percent (f_of_Z 100)) (f_of_Z 65535)).
