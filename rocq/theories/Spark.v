(** One ignition or fuel output over many engine cycles: the calls of schedule_ignition_event or
    schedule_fuel_event after every tooth, interleaved with the buffer swap interrupt and with the work on the other outputs.

    src/scheduler.c 134-239 with the points where the swap interrupt can come in between, on top of the steps
    of OutputRun.v; the writes that the timer and DMA hardware makes to the output port. *)
Require Import ZArith List Bool.
From Verif Require Import Res Word Arr F32 Outputs Buffers OutputSpec OutputRun.
Import ListNotations.
Open Scope Z_scope.

(** src/scheduler.c 134-177: everything up to the call of schedule_output_event_safely; the pulse that call
    is made for, or [None] for "return 0". *)
Definition decide (nd : bool) (min_fire_us : Z) (d : dview) (o : output) (advance : f32) (usecs_dwell : Z) : res (output * option (Z * Z)) :=
  if (dv_rpm d =? 0) || (dv_valid d =? 0) then Ok (o, None) else
  firing_angle <- clamp_angle (fadd (fsub (fsub (o_angle o) advance) (dv_last_angle d)) (dv_offset d)) (f_of_Z 720) ;;
  dt <- time_from_rpm_diff (dv_tooth_rpm d) firing_angle ;;
  let stop_time := w32 (dv_last_time d + dt) in
  dw <- time_from_us usecs_dwell ;;
  let start_time := w32 (stop_time - dw) in
  r <- recycle nd d o stop_time ;;
  match r with
  | None => Ok (o, None)
  | Some o1 =>
    far <- moves_too_far d o1 stop_time ;;
    if far : bool then Ok (o1, None) else
    mf <- time_from_us min_fire_us ;;
    if time_diff start_time (e_time (o_stop o1)) <? mf then Ok (o1, None)
    else Ok (o1, Some (start_time, stop_time))
  end.

(** The whole call is this decision and then, if it asks for a pulse, schedule_output_event_safely. *)
Lemma decide_schedule nd E mf d o adv dwell : schedule_ignition_event nd E mf d o adv dwell =
  (' (o1, r) <- decide nd mf d o adv dwell ;;
   match r with None => Ok (0, o1) | Some (a, b) => Ok (1, schedule_output_event_safely E o1 a b) end).
Proof.
  unfold schedule_ignition_event, decide. destruct (_ || _); [reflexivity|]. destruct (clamp_angle _ _); [|reflexivity]. cbn [bind].
  destruct (time_from_rpm_diff _ _); [|reflexivity]. cbn [bind]. destruct (time_from_us dwell); [|reflexivity]. cbn [bind].
  destruct (recycle _ _ _ _) as [[|]|]; [|reflexivity|reflexivity]. cbn [bind]. destruct (moves_too_far _ _ _) as [[]|]; try reflexivity. cbn [bind].
  destruct (time_from_us mf); [|reflexivity]. cbn [bind]. destruct (_ <? _); reflexivity.
Qed.

(** src/scheduler.c 184-221: the same for a fuel output, up to the call of schedule_output_event_safely. *)
Definition decide_fuel (nd : bool) (d : dview) (o : output) (usecs_pw : Z) : res (output * option (Z * Z)) :=
  if (dv_rpm d =? 0) || (dv_valid d =? 0) then Ok (o, None) else
  firing_angle <- clamp_angle (fadd (fsub (o_angle o) (dv_last_angle d)) (dv_offset d)) (f_of_Z 720) ;;
  dt <- time_from_rpm_diff (dv_tooth_rpm d) firing_angle ;;
  let stop_time := w32 (dv_last_time d + dt) in
  let start_time := w32 (stop_time - w32 (4 * usecs_pw)) in
  r <- recycle nd d o stop_time ;;
  match r with
  | None => Ok (o, None)
  | Some o1 =>
    far <- moves_too_far d o1 stop_time ;;
    if far : bool then Ok (o1, None) else Ok (o1, Some (start_time, stop_time))
  end.

(** The whole call is this decision, schedule_output_event_safely, and a request for a timer callback
    (scheduler.c 229-235), which does not touch the output. *)
Lemma decide_fuel_schedule nd E now d o pw : exists cb, schedule_fuel_event nd E now d o pw =
  (' (o1, r) <- decide_fuel nd d o pw ;;
   match r with None => Ok (0, o1, None) | Some (a, b) => let o2 := schedule_output_event_safely E o1 a b in Ok (1, o2, cb o2) end).
Proof.
  exists (fun o2 => if sstate_eqb (e_state (o_stop o2)) SCHEDULED && negb (time_before (e_time (o_stop o2)) now) then Some (e_time (o_stop o2)) else None).
  unfold schedule_fuel_event, decide_fuel. destruct (_ || _); [reflexivity|]. destruct (clamp_angle _ _); [|reflexivity]. cbn [bind].
  destruct (time_from_rpm_diff _ _); [|reflexivity]. cbn [bind].
  destruct (recycle _ _ _ _) as [[|]|]; [|reflexivity|reflexivity]. cbn [bind]. destruct (moves_too_far _ _ _) as [[]|]; reflexivity.
Qed.

(** The firmware between two points where the swap interrupt can come in: [st_req] is the pulse asked for by a
    call that has not reached its critical section yet, [st_next] the tooth whose call is next or under way,
    [st_log] what the hardware has written to the pin so far. *)
Inductive phase : Type := Waiting | Asked | Pinned.
Record st : Type := St { st_sys : sys; st_req : option (Z * Z); st_next : Z; st_phase : phase; st_log : list (Z * bool) }.

Inductive ev : Type :=
| Ask                    (* the call after tooth [st_next], up to its request *)
| SetPins                (* its scheduler.c 104-107 *)
| Write                  (* its critical section *)
| SwapIrq (now : Z)      (* the swap interrupt *)
| Other (a : act).       (* a step on another output *)

(** What is written to pin [p] while buffer [b] is played as block [n]: tick and level. *)
Definition pin_writes (b : buffer) (n p : Z) : list (Z * bool) :=
  flat_map (fun j => (if slot_bit b j p true then [(128 * n + j, true)] else []) ++ (if slot_bit b j p false then [(128 * n + j, false)] else []))
    (map Z.of_nat (seq 0 128)).

Section Run.
(** [dec m] is the decision of the output's call after tooth [m] (with the advance and the pulse length the firmware has computed by then), [view m] the decoder as the call after tooth [m] sees it, [tt m] the tick of that tooth, [i] the output, [p]
    its pin; no call gets to its critical section later than [late] ticks after its tooth. *)
Variables (nd : bool) (dec : Z -> dview -> output -> res (output * option (Z * Z))) (view : Z -> dview) (tt : Z -> Z) (i : nat) (p late : Z).

Definition go (s : st) (e : ev) : res st :=
  let y := st_sys s in
  match e with
  | Ask =>
    match nth_error (y_outs y) i with
    | None => Err OutOfBounds
    | Some o => ' (o1, r) <- dec (st_next s) (view (st_next s)) o ;;
                Ok (St (Sys (y_n y) (y_dma y) (upd_nat (y_outs y) i o1)) r (st_next s) Asked (st_log s))
    end
  | SetPins =>
    match st_req s with
    | None => Ok (St y None (st_next s) Pinned (st_log s))
    | Some r => y' <- step nd y (Pins i) ;; Ok (St y' (Some r) (st_next s) Pinned (st_log s))
    end
  | Write =>
    match st_req s with
    | None => Ok (St y None (st_next s + 1) Waiting (st_log s))
    | Some (a, b) => y' <- step nd y (Commit i a b) ;; Ok (St y' None (st_next s + 1) Waiting (st_log s))
    end
  | SwapIrq now => y' <- step nd y (Swap now) ;; Ok (St y' (st_req s) (st_next s) (st_phase s) (st_log s ++ pin_writes (d_cur (y_dma y)) (y_n y) p))
  | Other a => y' <- step nd y a ;; Ok (St y' (st_req s) (st_next s) (st_phase s) (st_log s))
  end.

(** When these steps come: one call per tooth, in order, after the tooth and in time; swaps on time; the rest
    of the firmware does what it likes with the other outputs. *)
Definition may (s : st) (e : ev) : Prop :=
  match e with
  | Ask => st_phase s = Waiting /\ tt (st_next s) < open_from (y_n (st_sys s))
  | SetPins => st_phase s = Asked
  | Write => st_phase s = Pinned
  | SwapIrq now => now / 128 = y_n (st_sys s) + 1 /\ open_from (y_n (st_sys s) + 1) <= tt (st_next s) + late
  | Other a => legal (st_sys s) a /\ match a with Pins j | Commit j _ _ | Reset j | Deschedule j => j <> i | Swap _ => False end
  end.

Inductive exec : st -> list ev -> st -> Prop :=
| Exec_nil s : exec s [] s
| Exec_cons s e s1 l s2 : may s e -> go s e = Ok s1 -> exec s1 l s2 -> exec s (e :: l) s2.
End Run.
