(** The frequency inputs of the gd32f4 platform: the handlers that turn captures into
    sensor updates (gd32f4_sched.c 113-122 and 154-168, gd32f4_sensors.c 118-190).

    Hardware, trusted from the reference manual: an edge on TIMER1's channel 2 stores
    the time base in CH2CV and sets CH2IF; reading CH2CV clears CH2IF; a further edge
    overwrites CH2CV.  TIMER8's counter advances every (PSC + 1) = 2931 cycles of
    192 MHz, restarts (with its prescaler) at each rising edge, when CH1CV takes its
    value from before the restart, and CH0CV takes its value at each falling edge; it
    runs from 0 to 65535 and raises UPIF when it overflows. *)
Require Import ZArith List Bool.
From Verif Require Import Res Word F32 Sensors.
Import ListNotations.
Open Scope Z_scope.

(** gd32f4_sched.c 113-122 (tim1_ch2_freq), CH2CV and CH2IF. *)
Record ch2 : Type := Ch2 { ch_last : Z; ch_cv : Z; ch_if : bool }.
Definition ch2_init : ch2 := Ch2 0 0 false.

(** What happens to the input: an edge at true time [t] (ticks of 4 MHz since the
    counter was 0, never wrapping), or the interrupt handler reaching line 155. *)
Inductive ch2_step : Type := Edge (t : Z) | Handler.

(** gd32f4_sched.c 155-168: the update for a capture at [freqtime]. TICKRATE / period
    converts the period to float. *)
Definition freq_of_capture (last freqtime : Z) : freq_update :=
  let period := w32 (freqtime - last) in
  let valid := negb (period =? 0) in
  FreqUpdate freqtime valid 2 (if valid then fdiv (f_of_Z 4000000) (f_of_Z period) else f_zero) f_zero.

Definition ch2_do (s : ch2) (e : ch2_step) : ch2 * list freq_update :=
  match e with
  | Edge t => (Ch2 (ch_last s) (w32 t) true, [])
  | Handler =>
      if ch_if s then (Ch2 (ch_cv s) (ch_cv s) false, [freq_of_capture (ch_last s) (ch_cv s)])
      else (s, [])
  end.

Fixpoint ch2_run (s : ch2) (h : list ch2_step) : list freq_update :=
  match h with
  | [] => []
  | e :: h' => let '(s', u) := ch2_do s e in u ++ ch2_run s' h'
  end.

(** gd32f4_sensors.c 132-134: prescaler and period of TIMER8. *)
Definition PSC : Z := 2930.
Definition CAR : Z := 65535.

(** TIMER8's counter at cycle [t], restarted at cycle [r]. *)
Definition counter (r t : Z) : Z := ((t - r) / (PSC + 1)) mod (CAR + 1).

(** The cycles after a restart at [r] at which the counter overflows. *)
Definition overflows (r t : Z) : bool := (r <? t) && ((t - r) mod ((PSC + 1) * (CAR + 1)) =? 0).

(** gd32f4_sensors.c 166-178, with the registers as read. *)
Definition pw_of_capture (now ch0cv ch1cv : Z) : freq_update :=
  let valid := negb (ch1cv =? 0) in
  FreqUpdate now valid 3 (if valid then fdiv (f_of_Z 65536) (f_of_Z ch1cv) else f_zero)
    (fdiv (f_of_Z ch0cv) (f_of_Z 65536)).

(** gd32f4_sensors.c 180-188; the designated initialiser leaves the rest 0. *)
Definition pw_timeout (now : Z) : freq_update := FreqUpdate now false 3 f_zero f_zero.

(** One period of the signal: rising at [r], falling at [f], rising again at [r'].
    Simplification: the handler runs before the next falling edge. *)
Definition pw_period (now r f r' : Z) : freq_update := pw_of_capture now (counter r f) (counter r r').
