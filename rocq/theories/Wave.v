(** What the output pins do: the DMA engine writes one slot per tick (4 MHz) of the buffer
    being played to the GPIO set/reset register. *)
Require Import ZArith List Bool.
From Verif Require Import Res Word Outputs Buffers OutputRun.
Import ListNotations.
Open Scope Z_scope.

(** One write to GPIO BOP/BSRR (gd32f4_sched.c 14-26 and 227-241, stm32f4-discovery.c 160-231):
    the low half sets pins, the high half clears them, and the hardware gives the set bit
    priority when both are written (GD32F4xx and STM32F4 reference manuals). *)
Definition play_slot (p : Z) (lvl : bool) (s : slot) : bool :=
  if Z.testbit (s_on s) p then true else if Z.testbit (s_off s) p then false else lvl.

(** The blocks played during a list of steps: the current buffer is complete when its swap
    interrupt comes. *)
Fixpoint played (nd : bool) (y : sys) (l : list act) : list buffer :=
  match l with
  | [] => []
  | a :: l' =>
    match step nd y a with
    | Ok y' => match a with Swap _ => d_cur (y_dma y) :: played nd y' l' | _ => played nd y' l' end
    | Err _ => []
    end
  end.
Definition ticks (bs : list buffer) : list slot := flat_map b_slots bs.

(** Level of pin [p] after the first [k] ticks. *)
Definition level (p : Z) (lvl : bool) (bs : list buffer) (k : nat) : bool :=
  fold_left (play_slot p) (firstn k (ticks bs)) lvl.
