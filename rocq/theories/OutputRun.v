(** Executions: any interleaving of scheduler critical sections with buffer swaps. *)
Require Import ZArith List Bool.
From Verif Require Import Res Word Arr Outputs Buffers OutputSpec.
Import ListNotations.
Open Scope Z_scope.

(** The atomic steps.  schedule_output_event_safely is [Pins] followed by [Commit]; a swap
    interrupt may come between any two steps.  Times are true times; the code sees
    them modulo 2^32. *)
Inductive act : Type :=
| Pins (i : nat)
| Commit (i : nat) (on off : Z)
| Reset (i : nat)
| Deschedule (i : nat)
| Swap (now : Z).

Record sys : Type := Sys { y_n : Z; y_dma : dma; y_outs : list output }.

Definition upd_output (os : list output) (i : nat) (f : output -> res output) : res (list output) :=
  match nth_error os i with
  | None => Err OutOfBounds
  | Some o => o' <- f o ;; Ok (upd_nat os i o')
  end.

Definition step (nd : bool) (y : sys) (a : act) : res sys :=
  match a with
  | Pins i => os <- upd_output (y_outs y) i (fun o => Ok (set_pins o)) ;; Ok (Sys (y_n y) (y_dma y) os)
  | Commit i on off =>
    os <- upd_output (y_outs y) i (fun o => Ok (commit_times (earliest_schedulable (y_dma y)) o (w32 on) (w32 off))) ;;
    Ok (Sys (y_n y) (y_dma y) os)
  | Reset i =>
    os <- upd_output (y_outs y) i (fun o => if event_has_fired o then reset_fired_event nd o else Ok o) ;;
    Ok (Sys (y_n y) (y_dma y) os)
  | Deschedule i =>
    os <- upd_output (y_outs y) i (fun o => if sstate_eqb (e_state (o_start o)) UNSCHEDULED then Ok o else deschedule_event nd o) ;;
    Ok (Sys (y_n y) (y_dma y) os)
  | Swap now =>
    ' (d, os) <- stm32_buffer_swap (w32 now) (y_dma y) (y_outs y) ;;
    Ok (Sys (y_n y + 1) d os)
  end.

(** The swap interrupt is on time: it runs while the next block plays. *)
Definition on_time (y : sys) (a : act) : Prop :=
  match a with Swap now => now / 128 = y_n y + 1 | _ => True end.
Definition valid_index (y : sys) (a : act) : Prop :=
  match a with
  | Pins i | Commit i _ _ | Reset i | Deschedule i => (i < length (y_outs y))%nat
  | Swap _ => True
  end.

(** Bit of pin [p] in the set ([v = true]) or clear mask of slot [j]. *)
Definition slot_bit (b : buffer) (j : Z) (p : Z) (v : bool) : bool :=
  match get (b_slots b) j with
  | Ok s => Z.testbit (if v then s_on s else s_off s) p
  | Err _ => false
  end.

(** Run a list of steps. *)
Fixpoint steps (nd : bool) (y : sys) (l : list act) : res sys :=
  match l with
  | [] => Ok y
  | a :: l' => y' <- step nd y a ;; steps nd y' l'
  end.

(** An entry carries the pin and level configured for its output (true after [Pins]). *)
Definition start_pinned (o : output) : Prop := e_pin (o_start o) = o_pin o mod 256 /\ e_val (o_start o) = negb (o_inv o).
Definition stop_pinned (o : output) : Prop := e_pin (o_stop o) = o_pin o mod 256 /\ e_val (o_stop o) = o_inv o.

(** Conditions on a step that hold in every execution of the firmware with on-time swaps:
    a [Commit] comes after a [Pins] of the same output (same function, scheduler.c 104-131). *)
Definition legal (y : sys) (a : act) : Prop :=
  on_time y a /\ valid_index y a /\
  match a with
  | Commit i _ _ => forall o, nth_error (y_outs y) i = Some o -> start_pinned o /\ stop_pinned o
  | _ => True
  end.
Inductive run (nd : bool) : sys -> list act -> sys -> Prop :=
| Run_nil y : run nd y [] y
| Run_cons y a y1 l y2 : legal y a -> step nd y a = Ok y1 -> run nd y1 l y2 -> run nd y (a :: l) y2.

(** The system while block [n] plays and nothing has been scheduled yet. *)
Definition fresh (o : output) : Prop := e_state (o_start o) = UNSCHEDULED /\ e_state (o_stop o) = UNSCHEDULED /\
  0 <= e_time (o_start o) < W /\ 0 <= e_time (o_stop o) < W /\ 0 <= e_pin (o_start o) < 32 /\ 0 <= e_pin (o_stop o) < 32.
Definition start_sys (n : Z) (os : list output) : sys :=
  Sys n (Dma (empty_buffer (w32 (128 * n))) (empty_buffer (w32 (128 * (n + 1))))) os.

(** The same steps in the specification (unbounded time, no hardware). *)
Definition spec_step (n : Z) (ps : list pulse) (a : act) : Z * list pulse :=
  let upd i f := match nth_error ps i with Some p => upd_nat ps i (f p) | None => ps end in
  match a with
  | Pins _ => (n, ps)
  | Commit i on off => (n, upd i (fun p => request n p on off))
  | Reset i => (n, upd i (fun p => match g_state (p_on p), g_state (p_off p) with FIRED, FIRED => forget p | _, _ => p end))
  | Deschedule i => (n, upd i cancel)
  | Swap _ => (n + 1, map (tick_pulse n) ps)
  end.
Fixpoint spec_steps (n : Z) (ps : list pulse) (l : list act) : Z * list pulse :=
  match l with
  | [] => (n, ps)
  | a :: l' => let '(n', ps') := spec_step n ps a in spec_steps n' ps' l'
  end.

(** A history whose requests respect the time window and the order of edges. *)
Definition act_orderly (n : Z) (ps : list pulse) (a : act) : Prop :=
  match a with
  | Pins i | Reset i | Deschedule i => (i < length ps)%nat
  | Commit i on off => exists p, nth_error ps i = Some p /\ request_in_window n p on off /\ request_in_order n p on off
  | Swap now => now / 128 = n + 1
  end.
Fixpoint orderly (n : Z) (ps : list pulse) (l : list act) : Prop :=
  match l with
  | [] => True
  | a :: l' => act_orderly n ps a /\ let '(n', ps') := spec_step n ps a in orderly n' ps' l'
  end.

(** A decision procedure for [legal], used to exhibit concrete runs. *)
Definition legalb (y : sys) (a : act) : bool :=
  match a with
  | Swap now => now / 128 =? y_n y + 1
  | Pins i | Reset i | Deschedule i => Nat.ltb i (length (y_outs y))
  | Commit i _ _ =>
    match nth_error (y_outs y) i with
    | None => false
    | Some o => (e_pin (o_start o) =? o_pin o mod 256) && Bool.eqb (e_val (o_start o)) (negb (o_inv o)) &&
                (e_pin (o_stop o) =? o_pin o mod 256) && Bool.eqb (e_val (o_stop o)) (o_inv o)
    end
  end.
Fixpoint run_check (nd : bool) (y : sys) (l : list act) : option sys :=
  match l with
  | [] => Some y
  | a :: l' => if legalb y a then match step nd y a with Ok y' => run_check nd y' l' | Err _ => None end else None
  end.
