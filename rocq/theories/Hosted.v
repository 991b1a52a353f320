(** The outputs of the hosted (simulator) platform: src/platforms/hosted.c 217-330. *)
Require Import ZArith List Bool.
From Verif Require Import Res Word Outputs Buffers OutputRun.
Import ListNotations.
Open Scope Z_scope.

Definition MAX_SLOTS : Z := 128.       (* hosted.c 217 *)

(** hosted.c 226-229 add_output_event: append to [output_events[64]]. *)
Definition add_output_event (evs : list entry) (e : entry) : res (list entry) :=
  if Z.of_nat (length evs) <? 64 then Ok (evs ++ [e]) else Err OutOfBounds.

(** hosted.c 248-253, one entry. *)
Definition fire_entry (e : entry) : entry :=
  if sstate_eqb (e_state e) SUBMITTED then with_state e FIRED else e.

(** hosted.c 254-263, one entry. *)
Definition submit_entry (start stop : Z) (evs : list entry) (e : entry) : res (list entry * entry) :=
  if sstate_eqb (e_state e) SCHEDULED && time_in_range (e_time e) start stop then
    evs' <- add_output_event evs e ;; Ok (evs', with_state e SUBMITTED)
  else Ok (evs, e).

(** hosted.c 246-264, the loop over the outputs. *)
Fixpoint swap_outputs (start stop : Z) (evs : list entry) (os : list output)
  : res (list entry * list output) :=
  match os with
  | [] => Ok (evs, [])
  | o :: r =>
    let a := fire_entry (o_start o) in
    let b := fire_entry (o_stop o) in
    ' (evs1, a') <- submit_entry start stop evs a ;;
    ' (evs2, b') <- submit_entry start stop evs1 b ;;
    ' (evs3, r') <- swap_outputs start stop evs2 r ;;
    Ok (evs3, with_entries o a' b' :: r')
  end.

(** hosted.c 231-240 output_event_compare. *)
Definition output_event_compare (a b : entry) : Z :=
  if e_time a =? e_time b then 0 else if time_before (e_time a) (e_time b) then -1 else 1.

(** hosted.c 278-284, 288-307: apply the sorted edges to the 16-bit [cur_outputs] and
    report the pins after the last edge of each tick. *)
Fixpoint play (cur : Z) (l : list entry) : res (Z * list (Z * Z)) :=
  match l with
  | [] => Ok (cur, [])
  | e :: r =>
    m <- shl1 (e_pin e) ;;
    let cur' := (if e_val e then Z.lor cur m else Z.ldiff cur m) mod 65536 in
    let more := match r with e2 :: _ => e_time e =? e_time e2 | [] => false end in
    ' (c, reports) <- play cur' r ;;
    Ok (c, if more then reports else (e_time e, cur') :: reports)
  end.

Section Hosted.
Variable qsort : list entry -> list entry.   (* the C library's, with output_event_compare *)

(** hosted.c 242-271 platform_buffer_swap *)
Definition platform_buffer_swap (start stop : Z) (os : list output) : res (list entry * list output) :=
  ' (evs, os') <- swap_outputs start stop [] os ;;
  Ok (qsort evs, os').

(** hosted.c 286-307 do_output_slots *)
Definition do_output_slots (from to cur : Z) (os : list output)
  : res (Z * list (Z * Z) * list output) :=
  ' (evs, os') <- platform_buffer_swap from to os ;;
  ' (cur', reports) <- play cur evs ;;
  Ok (cur', reports, os').

(** The part of the simulator's state that concerns outputs: [curtime], [cur_outputs]
    and the outputs of the configuration. *)
Record hsys : Type := HSys { h_time : Z; h_cur : Z; h_outs : list output }.

(** hosted.c 273-276 *)
Definition hosted_earliest (now : Z) : Z := w32 (now / MAX_SLOTS * MAX_SLOTS + MAX_SLOTS).

(** hosted.c 327-336, one turn of the time base: time advances by 128 ticks and the
    edges of the new 128 ticks are taken and played. *)
Definition hosted_tick (h : hsys) : res (hsys * list (Z * Z)) :=
  let after := w32 (h_time h + 128) in
  ' (cur, reports, os) <- do_output_slots after (w32 (after + MAX_SLOTS - 1)) (h_cur h) (h_outs h) ;;
  Ok (HSys after cur os, reports).

(** The scheduler's atomic steps of OutputRun, here with the simulator's earliest
    schedulable time, and the turns of the time base.  (The turn sets the clock before
    it takes the lock that the scheduler's critical section holds; a critical section
    in progress then ends before the swap, which is the order [Commit] then tick.) *)
Inductive hact : Type :=
| HPins (i : nat)
| HCommit (i : nat) (on off : Z)
| HReset (i : nat)
| HDeschedule (i : nat)
| HTick.

Definition hstep (nd : bool) (h : hsys) (a : hact) : res (hsys * list (Z * Z)) :=
  match a with
  | HPins i => os <- upd_output (h_outs h) i (fun o => Ok (set_pins o)) ;; Ok (HSys (h_time h) (h_cur h) os, [])
  | HCommit i on off =>
    os <- upd_output (h_outs h) i (fun o => Ok (commit_times (hosted_earliest (h_time h)) o (w32 on) (w32 off))) ;;
    Ok (HSys (h_time h) (h_cur h) os, [])
  | HReset i =>
    os <- upd_output (h_outs h) i (fun o => if event_has_fired o then reset_fired_event nd o else Ok o) ;;
    Ok (HSys (h_time h) (h_cur h) os, [])
  | HDeschedule i =>
    os <- upd_output (h_outs h) i (fun o => if sstate_eqb (e_state (o_start o)) UNSCHEDULED then Ok o else deschedule_event nd o) ;;
    Ok (HSys (h_time h) (h_cur h) os, [])
  | HTick => hosted_tick h
  end.

Fixpoint hsteps (nd : bool) (h : hsys) (l : list hact) : res (hsys * list (Z * Z)) :=
  match l with
  | [] => Ok (h, [])
  | a :: l' =>
    ' (h1, r1) <- hstep nd h a ;;
    ' (h2, r2) <- hsteps nd h1 l' ;;
    Ok (h2, r1 ++ r2)
  end.
End Hosted.

(** A sort with the comparison function of hosted.c. *)
Fixpoint insert (e : entry) (l : list entry) : list entry :=
  match l with
  | [] => [e]
  | x :: r => if output_event_compare e x <=? 0 then e :: x :: r else x :: insert e r
  end.
Definition insertion_sort (l : list entry) : list entry := fold_right insert [] l.
