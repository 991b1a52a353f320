(** What C90 speaks about: settings, readings and events that make sense, as conditions on the run of System.v. *)
Require Import ZArith Reals List Bool.
From Verif Require Import Res Word F32 F32Flocq Arr Interval Outputs OutputRun Callbacks Decoder DecoderSafe DecoderAngle PulseProofs Calc CalcSpec System.
Import ListNotations.
Open Scope Z_scope.

(** A trigger wheel that makes sense. *)
Record dec_ok (c : dcfg) : Prop := {
  do_supported : supported c;
  do_wheel : wheel c;
  do_tolerance : iv (dc_max_change c) 0 4;                            (* allowed change of speed *)
  do_window : (IZR (dc_window c) * R_ (dc_dpt c) <= 3600)%R;          (* the speed is averaged over at most ten turns *)
  do_min : 0 <= dc_min_rpm c;
  do_offset : angle_ok (dc_offset c) }.

(** Calculation settings that make sense: those of C34, timing within 360 degrees, at most 651 s of rest for a coil. *)
Record calc_ok (k : ccfg) : Prop := {
  co_range : cfg_in_range k;
  co_timing : exists t, k_timing k = Some t /\ usable2 t (-360) 360;
  co_rest : 0 <= k_min_fire k <= 651000000 }.

(** An output at a possible angle and pin (pins are bits of a word of 32). *)
Definition output_ok (o : output) : Prop := angle_ok (o_angle o) /\ 0 <= o_pin o mod 256 < 32.

(** A pulse the decoder [d] counts as a tooth of wheel [c]: not at a tick the tick counter also showed at one of the 37
    teeth before (src/decoder.h 66); with evenly spaced teeth, at most 2^31 ticks (nine minutes) after the tooth before. *)
Definition is_tooth (c : dcfg) (n : Z) : bool := (n =? 0) || match dc_type c with EVEN_NOSYNC => true | _ => false end.
Definition pulse_ok (c : dcfg) (d : dec) (n t : Z) : Prop :=
  0 <= t < 2 ^ 32 /\
  (is_tooth c n = true -> ~ In t (dd_times d)) /\
  (is_tooth c n = true -> missing c = false -> 0 < dd_cur d -> forall u, get (dd_times d) 0 = Ok u -> (t - u) mod 2 ^ 32 <= 2 ^ 31).

(** Wheels with a missing tooth: the speed is not reported as 0 while the decoder is synchronised. *)
Definition turns (c : dcfg) (d : dec) : Prop := missing c = true -> dd_state d = SYNC -> 1 <= dd_rpm d /\ 1 <= dd_tooth_rpm d.

(** A pulse that may come in state [w], at input [n] and tick [t]. *)
Definition pulse_may (w : fw) (n t : Z) : Prop :=
  pulse_ok (w_dc w) (w_dec w) n t /\ forall d fx, decoder_trigger (w_dc w) (w_dec w) n t = Ok (d, fx) -> turns (w_dc w) d.
(** The input at which the built-in test wheel (src/sim.c 13-38) makes its next pulse. *)
Definition test_input (w : fw) : Z := snd (fst (test_wheel_next (s32 (dc_num (w_dc w))) (w_tooth w))).
(** The same wheel, perhaps with another offset, tolerance, window, minimum speed or tooth distance. *)
Definition same_wheel (c c' : dcfg) : Prop := dc_type c' = dc_type c /\ dc_required c' = dc_required c /\ dc_num c' = dc_num c.

(** What may happen in state [w]. A pulse of the test wheel is made by a callback, for the tick of that callback (src/sim.c
    49). The wheel is only replaced by another while the decoder has no teeth in its history. *)
Definition may (w : fw) (e : fev) : Prop :=
  match e with
  | FTrigger n t => pulse_may w n t
  | FTimer => 0 < cb_n (w_cbs w) /\ (forall i, get (cb_arr (w_cbs w)) 0 = Ok i -> i < 16 -> 1 <= dd_rpm (w_dec w)) /\
      (get (cb_arr (w_cbs w)) 0 = Ok TEST_CB -> w_simrpm w <> 0 -> dc_num (w_dc w) <= 36000 /\ forall t, get (cb_time (w_cbs w)) TEST_CB = Ok t -> pulse_may w (test_input w) t)
  | FOverflow | FIdle | FShutdown => True
  | FSensors s => sens_in_range s
  | FCalcConfig k => calc_ok k
  | FOutputConfig i _ angle pin _ => 0 <= i < 16 /\ angle_ok angle /\ 0 <= pin mod 256 < 32
  | FDecoderConfig c => dec_ok c /\ (same_wheel (w_dc w) c \/ dd_state (w_dec w) = NOSYNC /\ dd_cur (w_dec w) = 0)
  | FTestRpm rpm => 0 <= rpm < 2 ^ 32
  end.
Fixpoint sound (env : nat -> Z * list Z) (nd : bool) (w : fw) (l : list fev) : Prop :=
  match l with
  | [] => True
  | e :: r => may w e /\ match fstep env nd w e with Ok w' => sound env nd w' r | Err _ => True end
  end.
