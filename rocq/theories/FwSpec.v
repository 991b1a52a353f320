(** What C89 speaks about: a run of the whole firmware of System.v, the pulses that go into it, the calls of the
    scheduler it makes for one output, and what the hardware writes to the output's pin. *)
Require Import ZArith List Bool.
From Verif Require Import Res Word F32 Arr Outputs Buffers OutputSpec OutputRun Callbacks Decoder Calc System SystemOutputs Spark.
Import ListNotations.
Open Scope Z_scope.

(** The pulses the trigger interrupt is given. *)
Definition pulse_of (e : fev) : list dev := match e with FTrigger n t => [Trigger n t] | _ => [] end.
Definition pulses_of (l : list fev) : list dev := flat_map pulse_of l.
Definition teeth_of (e : fev) : Z := match e with FTrigger n _ => if n =? 0 then 1 else 0 | _ => 0 end.

(** Whether event [e], from [w] to [w'], calls the scheduler for output [i]: a trigger interrupt does when the position
    is known after it (src/decoder.c 426-433), the timer interrupt when the output's own callback is the next one. *)
Definition call_made (i : Z) (w : fw) (e : fev) (w' : fw) : bool :=
  match e with
  | FTrigger _ _ => negb (dd_valid (w_dec w') =? 0)
  | FTimer => match get (cb_arr (w_cbs w)) 0 with Ok cb => cb =? i | Err _ => false end
  | _ => false
  end.

(** The calls for output [i] in a run: how many crank teeth have been seen by then, and the state afterwards. *)
Fixpoint calls (env : nat -> Z * list Z) (nd : bool) (i teeth : Z) (w : fw) (l : list fev) : list (Z * fw) :=
  match l with
  | [] => []
  | e :: r =>
    match fstep env nd w e with
    | Err _ => []
    | Ok w' => let teeth := teeth + teeth_of e in (if call_made i w e w' then [(teeth, w')] else []) ++ calls env nd i teeth w' r
    end
  end.

(** The writes to pin [p] while the buffers [l] are played as blocks [n], [n + 1], ... *)
Fixpoint writes_from (n : Z) (l : list buffer) (p : Z) : list (Z * bool) :=
  match l with [] => [] | b :: r => pin_writes b n p ++ writes_from (n + 1) r p end.
(** All of them until now; [m] is the block of the first swap interrupt, at the end of the buffer before. *)
Definition pin_log (m : Z) (w : fw) (p : Z) : list (Z * bool) := writes_from (m - 1) (w_played w) p.

(** What may happen: triggers, timer interrupts other than the decoder's timeout, swaps, new sensor values and new
    settings for the calculations (with the same least time [rest] between two sparks). *)
Definition plain (rest : Z) (w : fw) (e : fev) : Prop :=
  match e with
  | FTrigger _ _ | FIdle | FSensors _ => True
  | FCalcConfig k => k_min_fire k = rest
  | FTimer => get (cb_arr (w_cbs w)) 0 <> Ok EXPIRE_CB
  | _ => False
  end.
Definition no_cut (v : cvals) : Prop := cv_rpm_cut v = 0 /\ cv_boost_cut v = 0 /\ cv_over_cut v = 0.

(** A run in which only this happens, no cut is in force after any event, and the calls for output [i] come in time:
    call number [k] after tick [tt k], and until it has been made nothing goes on later than [late] ticks
    after that. *)
Fixpoint smooth (env : nat -> Z * list Z) (nd : bool) (m i : Z) (tt : Z -> Z) (late rest k : Z) (w : fw) (l : list fev) : Prop :=
  match l with
  | [] => True
  | e :: r =>
    match fstep env nd w e with
    | Err _ => True
    | Ok w' =>
      plain rest w e /\ no_cut (w_vals w') /\ open_from (block_of env m w') <= tt k + late /\
      (call_made i w e w' = true -> tt k < open_from (block_of env m w)) /\
      smooth env nd m i tt late rest (if call_made i w e w' then k + 1 else k) w' r
    end
  end.
