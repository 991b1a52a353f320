(** Output events: src/scheduler.h 8-55 and src/scheduler.c 15-238. *)
Require Import ZArith List Bool.
From Verif Require Import Res Word F32.
Import ListNotations.
Open Scope Z_scope.

(** src/scheduler.h 14-21 sched_state_t. *)
Inductive sstate : Type := UNSCHEDULED | SCHEDULED | SUBMITTED | FIRED.

Definition sstate_eqb (a b : sstate) : bool :=
  match a, b with
  | UNSCHEDULED, UNSCHEDULED | SCHEDULED, SCHEDULED | SUBMITTED, SUBMITTED | FIRED, FIRED => true
  | _, _ => false
  end.

(** src/scheduler.h 23-28 struct sched_entry ([pin] is uint8_t). *)
Record entry : Type := Entry { e_time : Z; e_pin : Z; e_val : bool; e_state : sstate }.
Definition with_state (e : entry) (s : sstate) : entry := Entry (e_time e) (e_pin e) (e_val e) s.

(** src/scheduler.h 8-12 event_type_t. *)
Inductive etype : Type := DISABLED_EVENT | FUEL_EVENT | IGNITION_EVENT.

(** src/scheduler.h 46-55 struct output_event.  The timer_callback member lives in the
    callback table model (Callbacks.v), indexed by the output's number. *)
Record output : Type := Output {
  o_type : etype; o_angle : f32; o_pin : Z; o_inv : bool; o_start : entry; o_stop : entry }.
Definition with_entries (o : output) (a b : entry) : output :=
  Output (o_type o) (o_angle o) (o_pin o) (o_inv o) a b.

(** src/scheduler.c 16-18 *)
Definition event_has_fired (o : output) : bool :=
  sstate_eqb (e_state (o_start o)) FIRED && sstate_eqb (e_state (o_stop o)) FIRED.

(** src/scheduler.c 21-24 *)
Definition event_is_unscheduled (o : output) : bool :=
  sstate_eqb (e_state (o_start o)) UNSCHEDULED && sstate_eqb (e_state (o_stop o)) UNSCHEDULED.

(** src/scheduler.c 29-39 (the assert on interrupts_enabled is about the caller and
    always holds in the two callers; the assert on the state is modelled). *)
Definition sched_entry_disable (nd : bool) (e : entry) : res (bool * entry) :=
  _ <- c_assert nd (negb (sstate_eqb (e_state e) UNSCHEDULED)) ;;
  if negb (sstate_eqb (e_state e) SCHEDULED) then Ok (false, e)
  else Ok (true, with_state e UNSCHEDULED).

(** src/scheduler.c 46-60; [earliest] is platform_output_earliest_schedulable_time(). *)
Definition sched_entry_enable (earliest : Z) (e : entry) (time : Z) : bool * entry :=
  if sstate_eqb (e_state e) SUBMITTED || sstate_eqb (e_state e) FIRED then (false, e)
  else if time_before time earliest then (false, e)
  else (true, Entry time (e_pin e) (e_val e) SCHEDULED).

(** src/scheduler.c 63-68 *)
Definition reset_fired_event (nd : bool) (o : output) : res output :=
  _ <- c_assert nd (sstate_eqb (e_state (o_start o)) FIRED) ;;
  _ <- c_assert nd (sstate_eqb (e_state (o_stop o)) FIRED) ;;
  Ok (with_entries o (with_state (o_start o) UNSCHEDULED) (with_state (o_stop o) UNSCHEDULED)).

(** src/scheduler.c 72-80 *)
Definition deschedule_event (nd : bool) (o : output) : res output :=
  ' (ok, a) <- sched_entry_disable nd (o_start o) ;;
  if ok : bool then
    ' (_, b) <- sched_entry_disable nd (o_stop o) ;; Ok (with_entries o a b)
  else Ok (with_entries o a (o_stop o)).

(** src/scheduler.c 82-96, one iteration and the loop over all outputs. *)
Definition invalidate_one (nd : bool) (o : output) : res output :=
  if sstate_eqb (e_state (o_start o)) UNSCHEDULED then Ok o
  else match o_type o with
       | IGNITION_EVENT | FUEL_EVENT => deschedule_event nd o
       | DISABLED_EVENT => Ok o
       end.
Fixpoint invalidate_scheduled_events (nd : bool) (os : list output) : res (list output) :=
  match os with
  | [] => Ok []
  | o :: r => o' <- invalidate_one nd o ;; r' <- invalidate_scheduled_events nd r ;; Ok (o' :: r')
  end.

(** src/scheduler.c 104-107: pin and level of the two edges (outside the critical section). *)
Definition set_pins (o : output) : output :=
  let pin := o_pin o mod 256 in
  with_entries o
    (Entry (e_time (o_start o)) pin (negb (o_inv o)) (e_state (o_start o)))
    (Entry (e_time (o_stop o)) pin (o_inv o) (e_state (o_stop o))).

(** src/scheduler.c 109-131: the critical section. *)
Definition commit_times (earliest : Z) (o : output) (newstart newstop : Z) : output :=
  if event_is_unscheduled o then
    let '(ok, a) := sched_entry_enable earliest (o_start o) newstart in
    if ok : bool then
      let '(_, b) := sched_entry_enable earliest (o_stop o) newstop in with_entries o a b
    else with_entries o a (o_stop o)
  else
    let oldstart := e_time (o_start o) in
    let '(ok, a) := sched_entry_enable earliest (o_start o) newstart in
    let newstop' := if negb ok && match o_type o with FUEL_EVENT => true | _ => false end
                    then w32 (newstop + w32 (oldstart - newstart)) else newstop in
    let '(_, b) := sched_entry_enable earliest (o_stop o) newstop' in
    with_entries o a b.

(** src/scheduler.c 100-132 *)
Definition schedule_output_event_safely (earliest : Z) (o : output) (newstart newstop : Z) : output :=
  commit_times earliest (set_pins o) newstart newstop.

(** The decoder fields the scheduler reads (src/decoder.h 24-76). *)
Record dview : Type := DView {
  dv_valid : Z; dv_rpm : Z; dv_tooth_rpm : Z; dv_last_time : Z; dv_last_angle : f32; dv_offset : f32 }.

(** src/scheduler.c 149-161 / 200-212: recycle a fired pulse unless it is within 90 degrees.
    [None] means "return 0". *)
Definition recycle (nd : bool) (d : dview) (o : output) (stop_time : Z) : res (option output) :=
  if event_has_fired o then
    t90 <- time_from_rpm_diff (dv_rpm d) (f_of_Z 90) ;;
    if time_diff stop_time (e_time (o_stop o)) <? t90 then Ok None
    else o' <- reset_fired_event nd o ;; Ok (Some o')
  else Ok (Some o).

(** src/scheduler.c 163-170 / 218-223: a scheduled stop may not move more than 180 degrees
    later.  C's && evaluates time_from_rpm_diff only when the first two operands hold. *)
Definition moves_too_far (d : dview) (o : output) (stop_time : Z) : res bool :=
  if sstate_eqb (e_state (o_stop o)) SCHEDULED && time_before (e_time (o_stop o)) stop_time then
    t180 <- time_from_rpm_diff (dv_rpm d) (f_of_Z 180) ;;
    Ok (t180 <? time_diff stop_time (e_time (o_stop o)))
  else Ok false.

(** src/scheduler.c 134-182.  Result: return value and new output. *)
Definition schedule_ignition_event (nd : bool) (earliest min_fire_us : Z) (d : dview) (o : output)
    (advance : f32) (usecs_dwell : Z) : res (Z * output) :=
  if (dv_rpm d =? 0) || (dv_valid d =? 0) then Ok (0, o) else
  firing_angle <- clamp_angle (fadd (fsub (fsub (o_angle o) advance) (dv_last_angle d)) (dv_offset d)) (f_of_Z 720) ;;
  dt <- time_from_rpm_diff (dv_tooth_rpm d) firing_angle ;;
  let stop_time := w32 (dv_last_time d + dt) in
  dw <- time_from_us usecs_dwell ;;
  let start_time := w32 (stop_time - dw) in
  r <- recycle nd d o stop_time ;;
  match r with
  | None => Ok (0, o)
  | Some o1 =>
    far <- moves_too_far d o1 stop_time ;;
    if far : bool then Ok (0, o1) else
    mf <- time_from_us min_fire_us ;;
    if time_diff start_time (e_time (o_stop o1)) <? mf then Ok (0, o1)
    else Ok (1, schedule_output_event_safely earliest o1 start_time stop_time)
  end.

(** src/scheduler.c 184-238.  The third component is the time passed to
    schedule_callback for this output's callback, if it is called; [now] is current_time(). *)
Definition schedule_fuel_event (nd : bool) (earliest now : Z) (d : dview) (o : output)
    (usecs_pw : Z) : res (Z * output * option Z) :=
  if (dv_rpm d =? 0) || (dv_valid d =? 0) then Ok (0, o, None) else
  firing_angle <- clamp_angle (fadd (fsub (o_angle o) (dv_last_angle d)) (dv_offset d)) (f_of_Z 720) ;;
  dt <- time_from_rpm_diff (dv_tooth_rpm d) firing_angle ;;
  let stop_time := w32 (dv_last_time d + dt) in
  let start_time := w32 (stop_time - w32 (4 * usecs_pw)) in
  r <- recycle nd d o stop_time ;;
  match r with
  | None => Ok (0, o, None)
  | Some o1 =>
    far <- moves_too_far d o1 stop_time ;;
    if far : bool then Ok (0, o1, None) else
    let o2 := schedule_output_event_safely earliest o1 start_time stop_time in
    Ok (1, o2,
        if sstate_eqb (e_state (o_stop o2)) SCHEDULED && negb (time_before (e_time (o_stop o2)) now)
        then Some (e_time (o_stop o2)) else None)
  end.
