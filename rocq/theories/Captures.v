(** The trigger inputs: edge captures of the timer and the interrupt handlers that pass
    them to the decoder (gd32f4_sched.c, stm32f4-discovery.c).

    Hardware, trusted from the reference manuals: an edge on an input copies the counter
    to the input's capture register and sets its flag; when the flag was already set,
    the earlier capture is overwritten and the overcapture flag is set.  Reading the
    capture register clears the capture flag.  Writing a flag bit as zero clears it.
    Edges may arrive between any two register accesses of a handler. *)
Require Import ZArith List Bool.
From Verif Require Import Word Decoder.
Import ListNotations.
Open Scope Z_scope.

(** One capture channel: CHxIF / CCxIF, CHxCV / CCRx and CHxOF / CCxOF. *)
Record chan : Type := Chan { ch_flag : bool; ch_value : Z; ch_over : bool }.

(** An edge on trigger input 0 ([false]) or 1 ([true]) at an absolute time; the counter
    is 32 bits wide. *)
Definition edge : Type := (bool * Z)%type.
Definition capture (c : chan) (t : Z) : chan := Chan true (w32 t) (ch_over c || ch_flag c).

Definition chans : Type := (chan * chan)%type.
Definition on_input (i : bool) (f : chan -> chan) (h : chans) : chans :=
  if i then (fst h, f (snd h)) else (f (fst h), snd h).
Definition input (i : bool) (h : chans) : chan := if i then snd h else fst h.
Definition arrive (h : chans) (es : list edge) : chans :=
  fold_left (fun h e => on_input (fst e) (fun c => capture c (snd e)) h) es h.

(** Register accesses. *)
Definition read_value (i : bool) (h : chans) : chans * Z :=
  (on_input i (fun c => Chan false (ch_value c) (ch_over c)) h, ch_value (input i h)).
Definition clear_flag (i : bool) (h : chans) : chans :=
  on_input i (fun c => Chan false (ch_value c) (ch_over c)) h.
Definition clear_over (i : bool) (h : chans) : chans :=
  on_input i (fun c => Chan (ch_flag c) (ch_value c) false) h.

(** gd32f4_sched.c 137-145, one "if": test the flag, read the value.  [g1] arrives
    between the two accesses. *)
Definition gd32_take (i : bool) (g1 : list edge) (h : chans) : chans * option Z :=
  if ch_flag (input i h) then
    let h := arrive h g1 in
    let '(h, v) := read_value i h in (h, Some v)
  else (arrive h g1, None).

(** gd32f4_sched.c 147-157 and stm32f4-discovery.c 814-824: the calls of
    decoder_update_scheduling, in order. *)
Definition deliver (cc0 cc1 : option Z) : list dev :=
  match cc0, cc1 with
  | Some t0, Some t1 => if time_before t1 t0 then [Trigger 1 t1; Trigger 0 t0] else [Trigger 0 t0; Trigger 1 t1]
  | Some t0, None => [Trigger 0 t0]
  | None, Some t1 => [Trigger 1 t1]
  | None, None => []
  end.

(** The part of TIMER1_IRQHandler for the trigger inputs (gd32f4_sched.c 130-157).
    [g k] are the edges that arrive after its k-th register access. *)
Definition gd32_isr (g : nat -> list edge) (h : chans) : chans * list dev :=
  let '(h, cc0) := gd32_take false (g 0%nat) h in
  let h := arrive h (g 1%nat) in
  let '(h, cc1) := gd32_take true (g 2%nat) h in
  (arrive h (g 3%nat), deliver cc0 cc1).

(** stm32f4-discovery.c 793-803, one "if". *)
Definition stm32_take (i : bool) (g1 g2 : list edge) (h : chans) : chans * option Z :=
  if ch_flag (input i h) then
    let h := arrive h g1 in
    let '(h, v) := read_value i h in
    let h := arrive h g2 in
    (clear_flag i h, Some v)
  else (arrive (arrive h g1) g2, None).

(** tim2_isr without the callback part (stm32f4-discovery.c 786-824). *)
Definition stm32_isr (g : nat -> list edge) (h : chans) : chans * list dev :=
  let '(h, cc1) := stm32_take false (g 0%nat) (g 1%nat) h in
  let h := arrive h (g 2%nat) in
  let '(h, cc2) := stm32_take true (g 3%nat) (g 4%nat) h in
  let h := arrive h (g 5%nat) in
  let of1 := ch_over (fst h) in
  let h := arrive h (g 6%nat) in
  if of1 || ch_over (snd h) then
    let h := clear_over false (arrive h (g 7%nat)) in
    let h := clear_over true (arrive h (g 8%nat)) in
    (arrive h (g 9%nat), [Desync OVERFLOW])
  else (arrive (arrive (arrive h (g 7%nat)) (g 8%nat)) (g 9%nat), deliver cc1 cc2).

(** A history: rounds of edges followed by a run of the handler. *)
Definition round : Type := (list edge * (nat -> list edge))%type.
Fixpoint rounds (isr : (nat -> list edge) -> chans -> chans * list dev) (h : chans) (l : list round) : chans * list dev :=
  match l with
  | [] => (h, [])
  | (es, g) :: l =>
    let '(h, d) := isr g (arrive h es) in
    let '(h, ds) := rounds isr h l in
    (h, d ++ ds)
  end.

(** After reset nothing has been captured. *)
Definition no_captures : chans := (Chan false 0 false, Chan false 0 false).

(** ** Choosing the edges to capture *)

(** src/sensors.h 87-97: trigger_edge and the type of a frequency input. *)
Inductive trigger_edge : Type := RISING_EDGE | FALLING_EDGE | BOTH_EDGES.
Inductive input_type : Type := IN_NONE | IN_TRIGGER | IN_FREQ.
Record freq_input : Type := FreqInput { fi_edge : trigger_edge; fi_type : input_type }.
Definition edge_eqb (a b : trigger_edge) : bool :=
  match a, b with RISING_EDGE, RISING_EDGE | FALLING_EDGE, FALLING_EDGE | BOTH_EDGES, BOTH_EDGES => true | _, _ => false end.
Definition enabled_type (t : input_type) : bool := match t with IN_NONE => false | _ => true end.

(** TIMER_CHCTL2 bits (GD32F4xx user manual, TIMERx_CHCTL2): per channel n, enable is
    bit 4n, polarity 4n+1, complementary polarity 4n+3. *)
Definition CHEN (n : Z) : Z := 2 ^ (4 * n).
Definition CHP (n : Z) : Z := 2 ^ (4 * n + 1).
Definition CHNP (n : Z) : Z := 2 ^ (4 * n + 3).
Definition bit_if (b : bool) (v : Z) : Z := if b then v else 0.

(** configure_trigger_inputs (gd32f4_sched.c 48-91): the value written to CHCTL2. *)
Definition gd32_chctl2 (i0 i1 i2 : freq_input) : Z :=
  let cc0p := edge_eqb (fi_edge i0) FALLING_EDGE || edge_eqb (fi_edge i0) BOTH_EDGES in
  let cc0np := edge_eqb (fi_edge i0) BOTH_EDGES in
  let cc1p := edge_eqb (fi_edge i1) FALLING_EDGE || edge_eqb (fi_edge i1) BOTH_EDGES in
  let cc1np := edge_eqb (fi_edge i1) BOTH_EDGES in
  let cc2p := edge_eqb (fi_edge i2) FALLING_EDGE || edge_eqb (fi_edge i2) BOTH_EDGES in
  let cc2np := edge_eqb (fi_edge i2) BOTH_EDGES in
  fold_left Z.lor
    [bit_if cc0p (CHP 0); bit_if cc0np (CHNP 0);
     bit_if cc1p (CHP 1); bit_if cc1np (CHNP 2);
     bit_if cc2p (CHP 2); bit_if cc2np (CHNP 2);
     bit_if (enabled_type (fi_type i0)) (CHEN 0); bit_if (enabled_type (fi_type i1)) (CHEN 1);
     bit_if (enabled_type (fi_type i2)) (CHEN 2); CHEN 3] 0.

(** What the hardware captures on channel [n] given CHCTL2: [None] where the manual
    says the combination is reserved; otherwise whether it captures rising and falling
    edges. *)
Definition channel_captures (ctl n : Z) : option (bool * bool) :=
  if Z.testbit ctl (4 * n) then
    match Z.testbit ctl (4 * n + 1), Z.testbit ctl (4 * n + 3) with
    | false, false => Some (true, false)
    | true, false => Some (false, true)
    | true, true => Some (true, true)
    | false, true => None
    end
  else Some (false, false).

(** capture_edge_from_config and platform_setup_tim2 (stm32f4-discovery.c 82-131): the
    polarity of inputs 0 and 1 is set as configured and both captures are enabled,
    whatever the input is configured for. *)
Definition stm32_captures (i : freq_input) : bool * bool :=
  match fi_edge i with
  | RISING_EDGE => (true, false)
  | FALLING_EDGE => (false, true)
  | BOTH_EDGES => (true, true)
  end.
(** platform_init_eventtimer (stm32f4-discovery.c 153-164): only a trigger input raises
    the interrupt. *)
Definition stm32_raises (i : freq_input) : bool := match fi_type i with IN_TRIGGER => true | _ => false end.
