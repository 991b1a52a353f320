(** src/scheduler.c: the timer callback list, and the hardware event timer. *)
Require Import ZArith List Bool.
From Verif Require Import Res Word.
Import ListNotations.
Open Scope Z_scope.

(** Callback objects are numbered; [NULLP] stands for a NULL pointer. *)
Definition NULLP : Z := -1.

(** The state of scheduler.c 11-13 plus the callback objects (src/scheduler.h 39-44).
    The function and data pointers of an object never matter to the list; the code
    that runs when a callback fires is a parameter below.  [cb_armed]: the compare
    value last given to schedule_event_timer (src/platform.h 24-31). *)
Record cbs : Type := Cbs {
  cb_arr : list Z;            (* callbacks[MAX_CALLBACKS], 32 entries (src/scheduler.c 11) *)
  cb_n : Z;                   (* n_callbacks *)
  cb_time : list Z;           (* tcb->time, per object *)
  cb_sched : list bool;       (* tcb->scheduled, per object *)
  cb_armed : option Z }.

Definition set_arr s a n := Cbs a n (cb_time s) (cb_sched s) (cb_armed s).
Definition set_flag s f := Cbs (cb_arr s) (cb_n s) (cb_time s) f (cb_armed s).

(** tcb->time of a pointer read from the array (NULL dereference is an error). *)
Definition tcb_time (s : cbs) (p : Z) : res Z :=
  if p =? NULLP then Err NullDeref else get (cb_time s) p.

(** src/scheduler.c 269-274: index of [tcb], or n_callbacks if absent. *)
Fixpoint find_ptr (fuel : nat) (arr : list Z) (tcb i n : Z) : res Z :=
  if i <? n then
    match fuel with
    | O => Err Diverges
    | S f => p <- get arr i ;; if p =? tcb then Ok i else find_ptr f arr tcb (i + 1) n
    end
  else Ok i.

(** src/scheduler.c 277-279: callbacks[i] = callbacks[i+1] for i up to n-2. *)
Fixpoint shift_down (fuel : nat) (arr : list Z) (i n : Z) : res (list Z) :=
  if i <? n - 1 then
    match fuel with
    | O => Err Diverges
    | S f => p <- get arr (i + 1) ;; arr' <- put arr i p ;; shift_down f arr' (i + 1) n
    end
  else Ok arr.

(** src/scheduler.c 266-284 callback_remove. *)
Definition callback_remove (nd : bool) (s : cbs) (tcb : Z) : res cbs :=
  pos <- find_ptr (Z.to_nat (cb_n s)) (cb_arr s) tcb 0 (cb_n s) ;;
  _ <- c_assert nd (pos <? cb_n s) ;;
  arr <- shift_down (Z.to_nat (cb_n s)) (cb_arr s) pos (cb_n s) ;;
  arr' <- put arr (cb_n s - 1) NULLP ;;
  let s' := set_arr s arr' (cb_n s - 1) in
  if tcb =? NULLP then Err NullDeref else
  fl <- put (cb_sched s') tcb false ;;
  Ok (set_flag s' fl).

(** src/scheduler.c 290-295: first index whose deadline is after [t]. *)
Fixpoint find_later (fuel : nat) (s : cbs) (t i n : Z) : res Z :=
  if i <? n then
    match fuel with
    | O => Err Diverges
    | S f => p <- get (cb_arr s) i ;; tp <- tcb_time s p ;;
             if time_before t tp then Ok i else find_later f s t (i + 1) n
    end
  else Ok i.

(** src/scheduler.c 297-299: callbacks[i] = callbacks[i-1] for i from n down to pos+1. *)
Fixpoint shift_up (fuel : nat) (arr : list Z) (i pos : Z) : res (list Z) :=
  if pos <? i then
    match fuel with
    | O => Err Diverges
    | S f => p <- get arr (i - 1) ;; arr' <- put arr i p ;; shift_up f arr' (i - 1) pos
    end
  else Ok arr.

(** src/scheduler.c 286-304 callback_insert. *)
Definition callback_insert (s : cbs) (tcb : Z) : res cbs :=
  t <- tcb_time s tcb ;;
  pos <- find_later (Z.to_nat (cb_n s)) s t 0 (cb_n s) ;;
  arr <- shift_up (Z.to_nat (cb_n s)) (cb_arr s) (cb_n s) pos ;;
  arr' <- put arr pos tcb ;;
  let s' := set_arr s arr' (cb_n s + 1) in
  fl <- put (cb_sched s') tcb true ;;
  Ok (set_flag s' fl).

(** schedule_event_timer(callbacks[0]->time), src/scheduler.c 316 and 333. *)
Definition arm_first (s : cbs) : res cbs :=
  p <- get (cb_arr s) 0 ;; t <- tcb_time s p ;;
  Ok (Cbs (cb_arr s) (cb_n s) (cb_time s) (cb_sched s) (Some t)).

(** src/scheduler.c 306-320 schedule_callback. *)
Definition schedule_callback (nd : bool) (s : cbs) (tcb time : Z) : res cbs :=
  fl <- get (cb_sched s) tcb ;;
  s1 <- (if fl : bool then callback_remove nd s tcb else Ok s) ;;
  tm <- put (cb_time s1) tcb time ;;
  s2 <- callback_insert (Cbs (cb_arr s1) (cb_n s1) tm (cb_sched s1) (cb_armed s1)) tcb ;;
  arm_first s2.

(** src/scheduler.c 322-335 scheduler_callback_timer_execute.  [now] is current_time()
    at the assert, [body] is the effect of cb->callback(cb->data) on the list. *)
Definition timer_execute (nd : bool) (now : Z) (body : Z -> cbs -> res cbs) (s : cbs) : res (Z * cbs) :=
  _ <- c_assert nd (0 <? cb_n s) ;;
  cb <- get (cb_arr s) 0 ;;
  _ <- (if nd then Ok tt else t <- tcb_time s cb ;; c_assert nd (time_before_or_equal t now)) ;;
  s1 <- callback_remove nd s cb ;;
  s2 <- body cb s1 ;;
  s3 <- (if 0 <? cb_n s2 then arm_first s2 else Ok s2) ;;
  Ok (cb, s3).

(** Initial state: src/scheduler.c 12-13, all objects zero-initialised; [k] objects. *)
Definition cbs_init (k : nat) : cbs :=
  Cbs (repeat NULLP 32) 0 (repeat 0 k) (repeat false k) None.

(** A callback body that only (re)schedules callbacks: what every callback function
    of the firmware does to the list (schedule_event, handle_decoder_expire via
    invalidation, src/sim.c 6-69). *)
Fixpoint run_body (nd : bool) (b : list (Z * Z)) (s : cbs) : res cbs :=
  match b with
  | [] => Ok s
  | (id, t) :: b' => s' <- schedule_callback nd s id (w32 t) ;; run_body nd b' s'
  end.

(** The hosted platform's event timer: src/platforms/hosted.c 48-55 (arming) and
    330-352 (one 128-tick step of the timebase thread; the result says whether a
    SCHEDULED_EVENT is sent, which makes the interrupt thread call
    scheduler_callback_timer_execute, 204-209). *)
Record htimer : Type := HTimer { ht_now : Z; ht_enabled : bool; ht_time : Z; ht_pending : bool }.
Definition hosted_arm (h : htimer) (t : Z) : htimer :=
  HTimer (ht_now h) true t (time_before_or_equal t (ht_now h)).
Definition hosted_tick (h : htimer) : bool * htimer :=
  let before := ht_now h in
  let after := w32 (before + 128) in
  let p := ht_pending h || (ht_enabled h && time_in_range (ht_time h) before after) in
  (p, HTimer after (ht_enabled h) (ht_time h) p).
(** hosted.c 205-208: the interrupt thread clears the flag before executing. *)
Definition hosted_take (h : htimer) : htimer := HTimer (ht_now h) (ht_enabled h) (ht_time h) false.
