(** The double-buffered DMA outputs of the microcontroller platforms:
    src/platforms/common/stm32_sched_buffers.{c,h}. *)
Require Import ZArith List Bool.
From Verif Require Import Res Word Outputs.
Import ListNotations.
Open Scope Z_scope.

Definition NUM_SLOTS : Z := 128.      (* stm32_sched_buffers.h 6 *)

(** stm32_sched_buffers.h 13-16 struct output_slot: two 16-bit masks. *)
Record slot : Type := Slot { s_on : Z; s_off : Z }.
(** stm32_sched_buffers.h 18-21 struct output_buffer. *)
Record buffer : Type := Buffer { b_first : Z; b_slots : list slot }.

(** [1 << pin] with an int left operand: undefined from 32 on (pin is a uint8_t); the
    result of 1 << 31 (INT_MIN with gcc) has no bit below 16. *)
Definition shl1 (pin : Z) : res Z := if pin <? 32 then Ok (2 ^ pin) else Err ShiftTooWide.

(** stm32_sched_buffers.c 15-24; the masks are uint16_t, so bits above 15 are dropped. *)
Definition slot_unset (slots : list slot) (i pin : Z) (v : bool) : res (list slot) :=
  s <- get slots i ;; m <- shl1 pin ;;
  put slots i (if v then Slot (Z.ldiff (s_on s) m mod 65536) (s_off s)
               else Slot (s_on s) (Z.ldiff (s_off s) m mod 65536)).

(** stm32_sched_buffers.c 26-35 *)
Definition slot_set (slots : list slot) (i pin : Z) (v : bool) : res (list slot) :=
  s <- get slots i ;; m <- shl1 pin ;;
  put slots i (if v then Slot (Z.lor (s_on s) m mod 65536) (s_off s)
               else Slot (s_on s) (Z.lor (s_off s) m mod 65536)).

(** One entry of the loops at stm32_sched_buffers.c 50-68. *)
Definition retire_entry (b : buffer) (e : entry) : res (buffer * entry) :=
  let off := w32 (e_time e - b_first b) in
  if sstate_eqb (e_state e) SUBMITTED && (off <? NUM_SLOTS) then
    sl <- slot_unset (b_slots b) off (e_pin e) (e_val e) ;;
    Ok (Buffer (b_first b) sl, with_state e FIRED)
  else Ok (b, e).

(** One entry of the loop at stm32_sched_buffers.c 75-91. *)
Definition populate_entry (b : buffer) (e : entry) : res (buffer * entry) :=
  let off := w32 (e_time e - b_first b) in
  if sstate_eqb (e_state e) SCHEDULED && (off <? NUM_SLOTS) then
    sl <- slot_set (b_slots b) off (e_pin e) (e_val e) ;;
    Ok (Buffer (b_first b) sl, with_state e SUBMITTED)
  else Ok (b, e).

(** The loops themselves: for each output, first its start and then its stop entry. *)
Fixpoint each_output (f : buffer -> entry -> res (buffer * entry)) (b : buffer) (os : list output)
  : res (buffer * list output) :=
  match os with
  | [] => Ok (b, [])
  | o :: r =>
    ' (b1, s) <- f b (o_start o) ;;
    ' (b2, t) <- f b1 (o_stop o) ;;
    ' (b3, r') <- each_output f b2 r ;;
    Ok (b3, with_entries o s t :: r')
  end.

(** stm32_sched_buffers.c 48-69 and 73-92 *)
Definition retire_output_buffer : buffer -> list output -> res (buffer * list output) := each_output retire_entry.
Definition populate_output_buffer : buffer -> list output -> res (buffer * list output) := each_output populate_entry.

(** stm32_sched_buffers.c 94-97 *)
Definition round_time_to_buffer_start (t : Z) : Z := w32 (t - t mod NUM_SLOTS).

(** output_buffers[2] and current_buffer, stm32_sched_buffers.c 7-13: [d_cur] is
    output_buffers[current_buffer], [d_next] is the other one. *)
Record dma : Type := Dma { d_cur : buffer; d_next : buffer }.

(** stm32_sched_buffers.c 41-43 *)
Definition earliest_schedulable (d : dma) : Z := w32 (b_first (d_cur d) + NUM_SLOTS * 2).

(** stm32_sched_buffers.c 99-108; [now] is current_time(). *)
Definition stm32_buffer_swap (now : Z) (d : dma) (os : list output) : res (dma * list output) :=
  let buf := d_cur d in
  ' (b1, os1) <- retire_output_buffer buf os ;;
  ' (b2, os2) <- populate_output_buffer (Buffer (w32 (round_time_to_buffer_start now + NUM_SLOTS)) (b_slots b1)) os1 ;;
  Ok (Dma (d_next d) b2, os2).

(** Zero-initialised buffers (stm32_sched_buffers.c 7-9). *)
Definition empty_buffer (first : Z) : buffer := Buffer first (repeat (Slot 0 0) 128).
Definition dma_init : dma := Dma (empty_buffer 0) (empty_buffer 0).
