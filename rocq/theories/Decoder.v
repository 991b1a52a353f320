(** src/decoder.c: trigger decoding.  src/decoder.h. *)
Require Import ZArith List Bool.
From Verif Require Import Res Word F32.
Import ListNotations.
Open Scope Z_scope.

(** src/decoder.h 5 *)
Definition MAX_TRIGGERS : Z := 36.

(** src/decoder.h 7-29 decoder_type, 31-35 decoder_state, 37-44 decoder_loss_reason. *)
Inductive dtype : Type := EVEN_NOSYNC | EVEN_CAMSYNC | MISSING_NOSYNC | MISSING_CAMSYNC.
Inductive dstate : Type := NOSYNC | RPM | SYNC.
Inductive loss : Type := NO_LOSS | VARIATION | COUNT_HIGH | COUNT_LOW | EXPIRED | OVERFLOW.
Definition is_sync (s : dstate) : bool := match s with SYNC => true | _ => false end.
Definition is_nosync (s : dstate) : bool := match s with NOSYNC => true | _ => false end.

(** The configuration half of struct decoder (src/decoder.h 54-65): what the console may set
    (console.c 997-1048). *)
Record dcfg : Type := DCfg {
  dc_type : dtype; dc_offset : f32; dc_max_change : f32; dc_min_rpm : Z; dc_required : Z;
  dc_num : Z; dc_dpt : f32; dc_window : Z }.

(** The state half (src/decoder.h 46-53 and 56, 67-76), plus the two static flags of
    decode_missing_with_camsync (decoder.c 327-328). *)
Record dec : Type := Dec {
  dd_valid : Z;
  dd_rpm : Z;
  dd_tooth_rpm : Z;
  dd_last_time : Z;
  dd_last_angle : f32;
  dd_expiration : Z;
  dd_change : f32;
  dd_t0 : Z;
  dd_t1 : Z;
  dd_loss : loss;
  dd_state : dstate;
  dd_cur : Z;
  dd_since : Z;
  dd_times : list Z;
  dd_this : bool;
  dd_prev : bool }.
Definition set_valid (d : dec) (x : Z) : dec :=
  Dec x (dd_rpm d) (dd_tooth_rpm d) (dd_last_time d) (dd_last_angle d) (dd_expiration d) (dd_change d) (dd_t0 d) (dd_t1 d) (dd_loss d) (dd_state d) (dd_cur d) (dd_since d) (dd_times d) (dd_this d) (dd_prev d).
Definition set_rpm (d : dec) (x : Z) : dec :=
  Dec (dd_valid d) x (dd_tooth_rpm d) (dd_last_time d) (dd_last_angle d) (dd_expiration d) (dd_change d) (dd_t0 d) (dd_t1 d) (dd_loss d) (dd_state d) (dd_cur d) (dd_since d) (dd_times d) (dd_this d) (dd_prev d).
Definition set_tooth_rpm (d : dec) (x : Z) : dec :=
  Dec (dd_valid d) (dd_rpm d) x (dd_last_time d) (dd_last_angle d) (dd_expiration d) (dd_change d) (dd_t0 d) (dd_t1 d) (dd_loss d) (dd_state d) (dd_cur d) (dd_since d) (dd_times d) (dd_this d) (dd_prev d).
Definition set_last_time (d : dec) (x : Z) : dec :=
  Dec (dd_valid d) (dd_rpm d) (dd_tooth_rpm d) x (dd_last_angle d) (dd_expiration d) (dd_change d) (dd_t0 d) (dd_t1 d) (dd_loss d) (dd_state d) (dd_cur d) (dd_since d) (dd_times d) (dd_this d) (dd_prev d).
Definition set_last_angle (d : dec) (x : f32) : dec :=
  Dec (dd_valid d) (dd_rpm d) (dd_tooth_rpm d) (dd_last_time d) x (dd_expiration d) (dd_change d) (dd_t0 d) (dd_t1 d) (dd_loss d) (dd_state d) (dd_cur d) (dd_since d) (dd_times d) (dd_this d) (dd_prev d).
Definition set_expiration (d : dec) (x : Z) : dec :=
  Dec (dd_valid d) (dd_rpm d) (dd_tooth_rpm d) (dd_last_time d) (dd_last_angle d) x (dd_change d) (dd_t0 d) (dd_t1 d) (dd_loss d) (dd_state d) (dd_cur d) (dd_since d) (dd_times d) (dd_this d) (dd_prev d).
Definition set_change (d : dec) (x : f32) : dec :=
  Dec (dd_valid d) (dd_rpm d) (dd_tooth_rpm d) (dd_last_time d) (dd_last_angle d) (dd_expiration d) x (dd_t0 d) (dd_t1 d) (dd_loss d) (dd_state d) (dd_cur d) (dd_since d) (dd_times d) (dd_this d) (dd_prev d).
Definition set_t0 (d : dec) (x : Z) : dec :=
  Dec (dd_valid d) (dd_rpm d) (dd_tooth_rpm d) (dd_last_time d) (dd_last_angle d) (dd_expiration d) (dd_change d) x (dd_t1 d) (dd_loss d) (dd_state d) (dd_cur d) (dd_since d) (dd_times d) (dd_this d) (dd_prev d).
Definition set_t1 (d : dec) (x : Z) : dec :=
  Dec (dd_valid d) (dd_rpm d) (dd_tooth_rpm d) (dd_last_time d) (dd_last_angle d) (dd_expiration d) (dd_change d) (dd_t0 d) x (dd_loss d) (dd_state d) (dd_cur d) (dd_since d) (dd_times d) (dd_this d) (dd_prev d).
Definition set_loss (d : dec) (x : loss) : dec :=
  Dec (dd_valid d) (dd_rpm d) (dd_tooth_rpm d) (dd_last_time d) (dd_last_angle d) (dd_expiration d) (dd_change d) (dd_t0 d) (dd_t1 d) x (dd_state d) (dd_cur d) (dd_since d) (dd_times d) (dd_this d) (dd_prev d).
Definition set_state (d : dec) (x : dstate) : dec :=
  Dec (dd_valid d) (dd_rpm d) (dd_tooth_rpm d) (dd_last_time d) (dd_last_angle d) (dd_expiration d) (dd_change d) (dd_t0 d) (dd_t1 d) (dd_loss d) x (dd_cur d) (dd_since d) (dd_times d) (dd_this d) (dd_prev d).
Definition set_cur (d : dec) (x : Z) : dec :=
  Dec (dd_valid d) (dd_rpm d) (dd_tooth_rpm d) (dd_last_time d) (dd_last_angle d) (dd_expiration d) (dd_change d) (dd_t0 d) (dd_t1 d) (dd_loss d) (dd_state d) x (dd_since d) (dd_times d) (dd_this d) (dd_prev d).
Definition set_since (d : dec) (x : Z) : dec :=
  Dec (dd_valid d) (dd_rpm d) (dd_tooth_rpm d) (dd_last_time d) (dd_last_angle d) (dd_expiration d) (dd_change d) (dd_t0 d) (dd_t1 d) (dd_loss d) (dd_state d) (dd_cur d) x (dd_times d) (dd_this d) (dd_prev d).
Definition set_times (d : dec) (x : list Z) : dec :=
  Dec (dd_valid d) (dd_rpm d) (dd_tooth_rpm d) (dd_last_time d) (dd_last_angle d) (dd_expiration d) (dd_change d) (dd_t0 d) (dd_t1 d) (dd_loss d) (dd_state d) (dd_cur d) (dd_since d) x (dd_this d) (dd_prev d).
Definition set_this (d : dec) (x : bool) : dec :=
  Dec (dd_valid d) (dd_rpm d) (dd_tooth_rpm d) (dd_last_time d) (dd_last_angle d) (dd_expiration d) (dd_change d) (dd_t0 d) (dd_t1 d) (dd_loss d) (dd_state d) (dd_cur d) (dd_since d) (dd_times d) x (dd_prev d).
Definition set_prev (d : dec) (x : bool) : dec :=
  Dec (dd_valid d) (dd_rpm d) (dd_tooth_rpm d) (dd_last_time d) (dd_last_angle d) (dd_expiration d) (dd_change d) (dd_t0 d) (dd_t1 d) (dd_loss d) (dd_state d) (dd_cur d) (dd_since d) (dd_times d) (dd_this d) x.

(** What processing a trigger does outside struct decoder: (re)schedules the expiry callback
    (decoder.c 26-28) or cancels the scheduled outputs (decoder.c 18). *)
Inductive effect : Type := SetExpire (t : Z) | CancelOutputs.

(** decoder.c 13-19 *)
Definition invalidate_decoder (d : dec) : dec :=
  set_since (set_cur (set_state (set_valid d 0) NOSYNC) 0) 0.

(** decoder.c 21-24 and 30-33 *)
Definition handle_decoder_expire (d : dec) : dec := invalidate_decoder (set_loss d EXPIRED).
Definition decoder_desync (d : dec) (why : loss) : dec := invalidate_decoder (set_loss d why).

(** decoder.c 35-41: shift the history up by one and store [t] in front. *)
Definition push_time (d : dec) (t : Z) : dec :=
  set_times d (t :: removelast (dd_times d)).

(** decoder.c 43-55 *)
Definition even_tooth_rpm_window_size (cur win : Z) : Z := if cur <? win then cur else win.

(** decoder.c 58-96.  Mixed uint32_t/float expressions convert the integer to float. *)
Definition even_tooth_trigger_update_rpm (c : dcfg) (d : dec) : res (dec * list effect) :=
  t0 <- get (dd_times d) 0 ;;
  t1 <- get (dd_times d) 1 ;;
  let diff := w32 (t0 - t1) in
  tooth <- rpm_from_time_diff diff (dc_dpt c) ;;
  let d := set_tooth_rpm d tooth in
  let w := even_tooth_rpm_window_size (dd_cur d) (dc_window c) in
  d <- (if 1 <? w then
          tw <- get (dd_times d) w ;;
          rpm <- rpm_from_time_diff (w32 (t0 - tw)) (fmul (dc_dpt c) (f_of_Z w)) ;;
          let d := set_rpm d rpm in
          Ok (if rpm =? 0 then d
              else set_change d (fdiv (f_of_Z (if tooth <? rpm then rpm - tooth else tooth - rpm)) (f_of_Z rpm)))
        else Ok (set_rpm d 0)) ;;
  let rpm := f_of_Z (dd_rpm d) in
  let d := if (tooth <=? dc_min_rpm c)
              || fgt (f_of_Z tooth) (fadd rpm (fmul rpm (dc_max_change c)))
              || flt (f_of_Z tooth) (fsub rpm (fmul rpm (dc_max_change c)))
           then set_loss (set_state d NOSYNC) VARIATION else d in
  let d := if dc_num c <? dd_since d then set_loss (set_state d NOSYNC) COUNT_HIGH else d in
  x <- f_to_u32 (fmul (f_of_Z diff) (flit 3 2)) ;;
  let e := w32 (t0 + x) in
  Ok (set_expiration d e, [SetExpire e]).

(** decoder.c 98-125 *)
Definition even_tooth_trigger_update (c : dcfg) (d : dec) (t : Z) : res (dec * list effect) :=
  let d := push_time d t in
  let d := set_since d (w32 (dd_since d + 1)) in
  let d := if dd_cur d <? MAX_TRIGGERS + 1 then set_cur d (dd_cur d + 1) else d in
  let d := if is_nosync (dd_state d) && (dc_required c <=? dd_cur d) then set_state d RPM else d in
  let d := if is_sync (dd_state d) then
             let a := fadd (dd_last_angle d) (dc_dpt c) in
             let a := if fge a (f_of_Z 720) then fsub a (f_of_Z 720) else a in
             set_last_time (set_last_angle d a) t
           else d in
  if is_nosync (dd_state d) then Ok (d, []) else even_tooth_trigger_update_rpm c d.

(** decoder.c 127-143 *)
Definition even_tooth_sync_update (c : dcfg) (d : dec) : dec :=
  let d := match dd_state d with
           | RPM => set_last_angle (set_loss (set_state d SYNC) NO_LOSS) f_zero
           | SYNC => if dd_since d =? dc_num c
                     then set_last_angle (set_loss d NO_LOSS) f_zero
                     else set_loss (set_state d NOSYNC) COUNT_LOW
           | NOSYNC => d
           end in
  set_since d 0.

(** decoder.c 145-164 *)
Definition decode_even_with_camsync (c : dcfg) (d : dec) (trigger t : Z) : res (dec * list effect) :=
  let old := dd_state d in
  ' (d, fx) <- (if trigger =? 0 then even_tooth_trigger_update c d t
                else if trigger =? 1 then Ok (even_tooth_sync_update c d, [])
                else Ok (d, [])) ;;
  if is_sync (dd_state d) then Ok (set_loss (set_valid d 1) NO_LOSS, fx)
  else if is_sync old then Ok (invalidate_decoder d, fx ++ [CancelOutputs])
  else Ok (d, fx).

(** decoder.c 166-182 (the trigger number is not looked at) *)
Definition decode_even_no_sync (c : dcfg) (d : dec) (trigger t : Z) : res (dec * list effect) :=
  let old := dd_state d in
  ' (d, fx) <- even_tooth_trigger_update c d t ;;
  if negb (is_nosync (dd_state d)) then
    Ok (set_since (set_last_time (set_valid (set_loss (set_state d SYNC) NO_LOSS) 1) t) 0, fx)
  else if is_sync old then Ok (invalidate_decoder d, fx ++ [CancelOutputs])
  else Ok (d, fx).

(** decoder.c 184-190 *)
Definition missing_tooth_rpm (c : dcfg) (d : dec) : res Z :=
  let gap := is_sync (dd_state d) && (dd_since d =? 0) in
  t0 <- get (dd_times d) 0 ;;
  t1 <- get (dd_times d) 1 ;;
  rpm_from_time_diff (w32 (t0 - t1)) (fmul (dc_dpt c) (f_of_Z (if gap then 2 else 1))).

(** decoder.c 237-240: the two acceptance windows for the ratio of the last interval to the
    average interval. *)
Definition near (centre : Z) (ratio tol : f32) : bool :=
  fge ratio (fsub (f_of_Z centre) tol) && fle ratio (fadd (f_of_Z centre) tol).

(** Unsigned 32-bit division. *)
Definition udiv (a b : Z) : res Z := if b =? 0 then Err DivByZero else Ok (a / b).

(** decoder.c 209-222: the last interval and the average of the [required] before it. *)
Definition missing_intervals (c : dcfg) (d : dec) : res (Z * Z) :=
  t0 <- get (dd_times d) 0 ;;
  t1 <- get (dd_times d) 1 ;;
  tr <- get (dd_times d) (dc_required c) ;;
  let count := w32 (dc_required c - 1) in
  let count := if is_sync (dd_state d) && (dd_since d <? count) then w32 (count + 1) else count in
  avg <- udiv (w32 (t1 - tr)) count ;;
  Ok (w32 (t0 - t1), avg).

(** decoder.c 269-283: angle, reference time and expiry after a tooth in the synchronised state. *)
Definition missing_advance (c : dcfg) (d : dec) (t : Z) (gap : bool) : res (dec * list effect) :=
  let a := fadd (dd_last_angle d) (fmul (dc_dpt c) (f_of_Z (if gap then 2 else 1))) in
  let a := if fge a (f_of_Z 720) then fsub a (f_of_Z 720) else a in
  let d := set_last_angle (set_last_time d t) a in
  let expected_gap := fmul (dc_dpt c) (f_of_Z (if dd_since d =? w32 (dc_num c - 2) then 2 else 1)) in
  expected_time <- time_from_rpm_diff (dd_rpm d) expected_gap ;;
  t0 <- get (dd_times d) 0 ;;
  x <- f_to_u32 (fmul (f_of_Z expected_time) (fadd (f_of_Z 1) (dc_max_change c))) ;;
  let e := w32 (t0 + x) in
  Ok (set_expiration d e, [SetExpire e]).

(** decoder.c 192-285 *)
Definition missing_tooth_trigger_update (c : dcfg) (d : dec) (t : Z) : res (dec * list effect) :=
  let d := push_time d t in
  let d := if dd_cur d <? MAX_TRIGGERS then set_cur d (dd_cur d + 1) else d in
  if dd_cur d <? dc_required c then Ok (d, []) else
  let d := if is_nosync (dd_state d) then set_state d RPM else d in
  ' (last, avg) <- missing_intervals c d ;;
  let ratio := fdiv (f_of_Z last) (f_of_Z avg) in
  let gap := near 2 ratio (dc_max_change c) in
  let normal := near 1 ratio (dc_max_change c) in
  let d := set_change d (if flt ratio (f_of_Z 1) then fsub (f_of_Z 1) ratio else fsub ratio (f_of_Z 1)) in
  match dd_state d with
  | RPM =>
    Ok (if gap then set_last_angle (set_since (set_state d SYNC) 0) f_zero
        else if negb normal then set_loss (set_state d NOSYNC) VARIATION else d, [])
  | SYNC =>
    let d := set_since d (w32 (dd_since d + 1)) in
    let d := if dd_since d =? w32 (dc_num c - 1) then
               if gap then set_since d 0 else set_loss (set_state d NOSYNC) COUNT_HIGH
             else if negb normal then set_loss (set_state d NOSYNC) COUNT_LOW else d in
    missing_advance c d t gap
  | NOSYNC => Ok (d, [])
  end.

(** decoder.c 287-297 *)
Definition missing_tooth_average_rpm (c : dcfg) (d : dec) : res Z :=
  if dc_num c <=? dd_cur d then
    if dd_since d =? 0 then
      t0 <- get (dd_times d) 0 ;;
      tn <- get (dd_times d) (w32 (dc_num c - 1)) ;;
      rpm_from_time_diff (w32 (t0 - tn)) (fmul (f_of_Z (dc_num c)) (dc_dpt c))
    else Ok (dd_rpm d)
  else Ok (dd_tooth_rpm d).

(** decoder.c 307-311 and 351-355 *)
Definition missing_update_rpms (c : dcfg) (d : dec) : res dec :=
  d <- (if is_nosync (dd_state d) then Ok d
        else r <- missing_tooth_rpm c d ;; Ok (set_tooth_rpm d r)) ;;
  r <- missing_tooth_average_rpm c d ;;
  Ok (set_rpm d r).

(** decoder.c 299-322 *)
Definition decode_missing_no_sync (c : dcfg) (d : dec) (trigger t : Z) : res (dec * list effect) :=
  let old := dd_state d in
  ' (d, fx) <- (if trigger =? 0 then missing_tooth_trigger_update c d t else Ok (d, [])) ;;
  d <- missing_update_rpms c d ;;
  if is_sync (dd_state d) then Ok (set_loss (set_valid d 1) NO_LOSS, fx)
  else if is_sync old then Ok (invalidate_decoder d, fx ++ [CancelOutputs])
  else Ok (d, fx).

(** decoder.c 324-373 *)
Definition decode_missing_with_camsync (c : dcfg) (d : dec) (trigger t : Z) : res (dec * list effect) :=
  let was_valid := negb (dd_valid d =? 0) in
  ' (d, fx) <- (if trigger =? 0 then
                  ' (d, fx) <- missing_tooth_trigger_update c d t ;;
                  Ok (if is_sync (dd_state d) && (dd_since d =? 0) then
                        let d := if negb (dd_this d) && negb (dd_prev d) then set_valid d 0 else d in
                        set_this (set_prev d (dd_this d)) false
                      else d, fx)
                else if trigger =? 1 then
                  Ok (if is_sync (dd_state d) then
                        if dd_this d || dd_prev d then set_this (set_valid d 0) false
                        else set_this d true
                      else d, [])
                else Ok (d, [])) ;;
  d <- missing_update_rpms c d ;;
  let seen := dd_this d || dd_prev d in
  let d := if negb (is_sync (dd_state d)) then set_valid d 0
           else if negb was_valid && seen then
             set_last_angle (set_loss (set_valid d 1) NO_LOSS)
               (fadd (fmul (dc_dpt c) (f_of_Z (dd_since d))) (f_of_Z (if dd_this d then 0 else 360)))
           else d in
  if was_valid && (dd_valid d =? 0) then Ok (invalidate_decoder d, fx ++ [CancelOutputs])
  else Ok (d, fx).

(** decoder.c 375-389; the counters, the change estimate, the times and the flags keep their
    values. *)
Definition decoder_init (c : dcfg) (d : dec) : dcfg * dec :=
  (DCfg (dc_type c) (dc_offset c) (if feq (dc_max_change c) f_zero then flit 1 2 else dc_max_change c)
        (dc_min_rpm c) (dc_required c) (dc_num c) (dc_dpt c) (dc_window c),
   Dec 0 0 0 0 f_zero 0 (dd_change d) (dd_t0 d) (dd_t1 d) (dd_loss d) NOSYNC 0 0 (dd_times d) (dd_this d) (dd_prev d)).

(** decoder.c 391-408 *)
Definition decode (c : dcfg) (d : dec) (trigger t : Z) : res (dec * list effect) :=
  match dc_type c with
  | EVEN_NOSYNC => decode_even_no_sync c d trigger t
  | EVEN_CAMSYNC => decode_even_with_camsync c d trigger t
  | MISSING_NOSYNC => decode_missing_no_sync c d trigger t
  | MISSING_CAMSYNC => decode_missing_with_camsync c d trigger t
  end.

(** decoder.c 419-425: the counters and the decoding of one trigger.  The rest of
    decoder_update_scheduling (log entry, calculations, scheduling) is in System.v. *)
Definition decoder_trigger (c : dcfg) (d : dec) (trigger t : Z) : res (dec * list effect) :=
  let d := if trigger =? 0 then set_t0 d (w32 (dd_t0 d + 1))
           else if trigger =? 1 then set_t1 d (w32 (dd_t1 d + 1)) else d in
  decode c d trigger t.

(** decoder.c 436-449; [now] is current_time(). *)
Definition current_angle (d : dec) (now : Z) : res f32 :=
  if dd_rpm d =? 0 then Ok (dd_last_angle d)
  else clamp_angle (fadd (dd_last_angle d) (degrees_from_time_diff (w32 (now - dd_last_time d)) (dd_rpm d))) (f_of_Z 720).

(** Power-on: the zero-initialised state part of config.decoder after decoder_init. *)
Definition dec_init : dec :=
  Dec 0 0 0 0 f_zero 0 f_zero 0 0 NO_LOSS NOSYNC 0 0 (repeat 0 37) false false.

(** Everything that happens to the decoder: a trigger, the expiry callback, and a
    capture overflow (gd32f4_sched.c 130-178 calls decoder_desync).  The configuration may
    be changed over the console between any two of them. *)
Inductive dev : Type := Trigger (n t : Z) | Expire | Desync (why : loss).
Definition dstep (c : dcfg) (d : dec) (e : dev) : res (dec * list effect) :=
  match e with
  | Trigger n t => decoder_trigger c d n t
  | Expire => Ok (handle_decoder_expire d, [CancelOutputs])
  | Desync w => Ok (decoder_desync d w, [CancelOutputs])
  end.
