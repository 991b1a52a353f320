(** What the console sends: the bytes of a message (written by the tinycbor library),
    the event, description and feed messages, and console_process (src/console.c
    1591-1637). *)
Require Import ZArith String Ascii List Bool.
Require Import Coq.Floats.SpecFloat.
From Verif Require Import Res Word F32 Sensors Calc Decoder Cbor Console EventLog.
Import ListNotations.
Open Scope Z_scope.

(** *** The encoder (tinycbor's cborencoder.c, not part of the repository; RFC 8949
    sections 3 and 3.2, shortest form) *)

(** The [n] bytes of a number, most significant first. *)
Fixpoint be (n : nat) (z : Z) : list Z :=
  match n with O => [] | S n => be n (z / 256) ++ [z mod 256] end.

Definition head_bytes (major a : Z) : list Z :=
  if a <? 24 then [32 * major + a]
  else if a <? 256 then (32 * major + 24) :: be 1 a
  else if a <? 65536 then (32 * major + 25) :: be 2 a
  else if a <? W then (32 * major + 26) :: be 4 a
  else (32 * major + 27) :: be 8 a.

(** The 32 bits of a float; a NaN is sent as the quiet one (the model has no payload). *)
Definition f32_bits (x : f32) : Z :=
  let sign (s : bool) := if s then HALF else 0 in
  match x with
  | S754_zero s => sign s
  | S754_infinity s => sign s + 255 * 8388608
  | S754_nan => 255 * 8388608 + 4194304
  | S754_finite s m e =>
      if Z.pos m <? 8388608 then sign s + Z.pos m else sign s + (e + 150) * 8388608 + (Z.pos m - 8388608)
  end.

Definition string_bytes (s : string) : list Z := map (fun a => Z.of_nat (nat_of_ascii a)) (list_ascii_of_string s).

(** cbor_encode_text_stringz, cbor_encode_int and cbor_encode_uint, cbor_encode_float,
    cbor_encode_boolean, cbor_encode_null, cbor_encoder_create_array and
    cbor_encoder_create_map with cbor_encoder_close_container. *)
Fixpoint bytes_of (e : enc) : list Z :=
  match e with
  | EText s => head_bytes 3 (Z.of_nat (String.length s)) ++ string_bytes s
  | EInt z => if z <? 0 then head_bytes 1 (- z - 1) else head_bytes 0 z
  | EFloat x => 250 :: be 4 (f32_bits x)
  | EBool b => [if b then 245 else 244]
  | ENull => [246]
  | EArr l => 159 :: List.concat (map bytes_of l) ++ [255]
  | EMap l => 191 :: List.concat (map bytes_of l) ++ [255]
  | EMapN n l => head_bytes 5 n ++ List.concat (map bytes_of l)
  end.

(** *** Event messages *)

(** console.c 129-181 console_event_message; an unknown type leaves the last key
    without a value. *)
Definition console_event_message (ev : logged) : enc :=
  let sub (type name : string) := [EMapN 2 [EText "type"; EText type; EText name; EInt (lg_value ev)]]%string in
  EMapN 4 ([EText "type"; EText "event"; EText "time"; EInt (lg_time ev); EText "seq"; EInt (lg_seq ev); EText "event"]%string ++
    (if lg_type ev =? EVENT_OUTPUT then sub "output"%string "outputs"%string
     else if lg_type ev =? EVENT_GPIO then sub "gpio"%string "outputs"%string
     else if lg_type ev =? EVENT_TRIGGER then sub "trigger"%string "pin"%string
     else [])).

(** *** The feed *)

(** The variables the feed reads: current_time(), calculated_values, config.sensors,
    config.knock_inputs[].value and config.decoder. *)
Record snapshot : Type := Snapshot {
  sn_time : Z; sn_calc : cvals; sn_sensor : Console.sensor -> Sensors.sensor; sn_knock : bool -> f32; sn_dec : dec }.

(** sensors.h 12-23 *)
Definition all_sensors : list Console.sensor := [S_MAP; S_IAT; S_CLT; S_BRV; S_TPS; S_AAP; S_FRT; S_EGO; S_FRP; S_ETH].

(** decoder.h 36-43 decoder_loss_reason, the numbers C gives the constants; console.c
    15-17 render_loss_reason *)
Definition loss_number (x : loss) : Z :=
  match x with NO_LOSS => 0 | VARIATION => 1 | COUNT_HIGH => 2 | COUNT_LOW => 3 | EXPIRED => 4 | OVERFLOW => 5 end.

(** console.h struct console_feed_node: an id and one of uint32_ptr/uint32_fptr and
    float_ptr/float_fptr. *)
Inductive source := Uint (f : snapshot -> Z) | Float (f : snapshot -> f32).
Definition value_of (x : Console.sensor) (s : snapshot) : f32 := a_value (snd (sn_sensor s x)).

(** console.c 19-69 console_feed_nodes *)
Definition console_feed_nodes : list (string * source) := [
  ("cputime", Uint sn_time);
  ("ve", Float (fun s => cv_ve (sn_calc s)));
  ("lambda", Float (fun s => cv_lambda (sn_calc s)));
  ("fuel_pulsewidth_us", Uint (fun s => cv_fueling (sn_calc s)));
  ("temp_enrich_percent", Float (fun s => cv_ete (sn_calc s)));
  ("injector_dead_time", Float (fun s => cv_idt (sn_calc s)));
  ("injector_pw_correction", Float (fun s => cv_pwc (sn_calc s)));
  ("accel_enrich_percent", Float (fun s => cv_tipin (sn_calc s)));
  ("airmass_per_cycle", Float (fun s => cv_airmass (sn_calc s)));
  ("advance", Float (fun s => cv_advance (sn_calc s)));
  ("dwell", Uint (fun s => cv_dwell (sn_calc s)));
  ("rpm_cut", Uint (fun s => cv_rpm_cut (sn_calc s)));
  ("boost_cut", Uint (fun s => cv_boost_cut (sn_calc s)));
  ("fuel_overduty_cut", Uint (fun s => cv_over_cut (sn_calc s)));
  ("sensor.map", Float (value_of S_MAP));
  ("sensor.iat", Float (value_of S_IAT));
  ("sensor.clt", Float (value_of S_CLT));
  ("sensor.brv", Float (value_of S_BRV));
  ("sensor.tps", Float (value_of S_TPS));
  ("sensor.tps.rate", Float (fun s => a_deriv (snd (sn_sensor s S_TPS))));
  ("sensor.aap", Float (value_of S_AAP));
  ("sensor.frt", Float (value_of S_FRT));
  ("sensor.ego", Float (value_of S_EGO));
  ("sensor.frp", Float (value_of S_FRP));
  ("knock1.value", Float (fun s => sn_knock s false));
  ("knock2.value", Float (fun s => sn_knock s true));
  ("sensor.eth", Float (value_of S_ETH));
  ("sensor_faults", Uint (fun s => sensor_fault_status (map (sn_sensor s) all_sensors)));
  ("rpm", Uint (fun s => dd_rpm (sn_dec s)));
  ("tooth_rpm", Uint (fun s => dd_tooth_rpm (sn_dec s)));
  ("sync", Uint (fun s => dd_valid (sn_dec s)));
  ("loss", Uint (fun s => loss_number (dd_loss (sn_dec s))));
  ("rpm_variance", Float (fun s => dd_change (sn_dec s)));
  ("last_trigger_angle", Float (fun s => dd_last_angle (sn_dec s)));
  ("t0_count", Uint (fun s => dd_t0 (sn_dec s)));
  ("t1_count", Uint (fun s => dd_t1 (sn_dec s)))]%string.

(** console.c 231-255 console_feed_line_keys; [now] is current_time(). *)
Definition console_feed_line_keys (now : Z) : enc :=
  EMapN 3 [EText "type"; EText "description"; EText "time"; EInt now;
           EText "keys"; EArr (map (fun n => EText (fst n)) console_feed_nodes)]%string.

Definition feed_value (x : source) (s : snapshot) : enc :=
  match x with Uint f => EInt (f s) | Float f => EFloat (f s) end.

(** The loop of console.c 271-287.  Interrupts run between the reads, so node [i] is
    read from the state [at_ i]. *)
Fixpoint feed_values (nodes : list (string * source)) (at_ : nat -> snapshot) : list enc :=
  match nodes with
  | [] => []
  | (_, x) :: nodes => feed_value x (at_ 0%nat) :: feed_values nodes (fun i => at_ (S i))
  end.

(** console.c 257-291 console_feed_line *)
Definition console_feed_line (now : Z) (at_ : nat -> snapshot) : enc :=
  EMapN 3 [EText "type"; EText "feed"; EText "time"; EInt now; EText "values"; EArr (feed_values console_feed_nodes at_)]%string.

(** *** console_process *)

(** What one call of console_process meets: the settings and the request it finds
    (console_try_read, Framing.v), the events get_logged_event returns until
    EVENT_NONE (EventLog.v), current_time() at line 1617, in the message, and at line
    1622, and the state the feed reads. *)
Record call : Type := Call {
  cl_mem : mem; cl_request : option cbor; cl_events : list logged;
  cl_test : Z; cl_message : Z; cl_done : Z; cl_state : nat -> snapshot }.

(** console.c 1591-1637: the messages sent, and last_desc_time afterwards.  Messages
    go through console_write_full (Framing.v). *)
Definition console_process (rate : Z) (version : string) (c : call) (last : Z) : res (list enc * Z) :=
  response <- match cl_request c with
              | None => Ok []
              | Some r =>
                '(_, _, o) <- console_process_request_raw rate version r (cl_mem c) ;;
                Ok (match o with Some e => [e] | None => [] end)
              end ;;
  let events := map console_event_message (cl_events c) in
  limit <- time_from_us 100000 ;;
  if limit <? w32 (cl_test c - last)
  then Ok (response ++ events ++ [console_feed_line_keys (cl_message c)], cl_done c)
  else Ok (response ++ events ++ [console_feed_line (cl_message c) (cl_state c)], last).

(** Calls one after the other (viaems.c 20-22, the main loop): the messages of each. *)
Fixpoint processes (rate : Z) (version : string) (cs : list call) (last : Z) : res (list (list enc)) :=
  match cs with
  | [] => Ok []
  | c :: cs =>
    '(ms, last) <- console_process rate version c last ;;
    rest <- processes rate version cs last ;;
    Ok (ms :: rest)
  end.
