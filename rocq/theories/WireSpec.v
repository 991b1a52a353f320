(** What the bytes of a CBOR item mean (RFC 8949 section 3, IEEE 754 binary32), and
    what the messages of INTERFACE.md should say. *)
Require Import ZArith String Ascii List Bool.
Require Import Coq.Floats.SpecFloat.
From Verif Require Import F32 Cbor Sensors Calc Decoder Console EventLog CborSpec Wire.
Import ListNotations.
Open Scope Z_scope.

(** The data a receiver gets. *)
Inductive data : Type :=
| DInt (z : Z)
| DText (s : String.string)
| DFloat (x : f32)
| DBool (b : bool)
| DNull
| DArr (l : list data)
| DMap (l : list (data * data)).

(** IEEE 754 binary32: one sign bit, eight exponent bits, 23 fraction bits. *)
Definition ieee32 (bits : Z) : f32 :=
  let s := Z.testbit bits 31 in
  let exponent := bits / 2 ^ 23 mod 2 ^ 8 in
  let fraction := bits mod 2 ^ 23 in
  if exponent =? 255 then (if fraction =? 0 then S754_infinity s else S754_nan)
  else if exponent =? 0 then (if fraction =? 0 then S754_zero s else S754_finite s (Z.to_pos fraction) (-149))
  else S754_finite s (Z.to_pos (2 ^ 23 + fraction)) (exponent - 150).

Definition codes (s : String.string) : list Z := map (fun a => Z.of_nat (nat_of_ascii a)) (list_ascii_of_string s).

(** [means b d]: the bytes [b] are an item and its data is [d]. *)
Inductive means : list Z -> data -> Prop :=
| means_unsigned h a : head 0 h a -> means h (DInt a)
| means_negative h a : head 1 h a -> means h (DInt (-1 - a))
| means_text h s : head 3 h (Z.of_nat (String.length s)) -> means (h ++ codes s) (DText s)
| means_array h b l : head 4 h (Z.of_nat (List.length l)) -> means_each b l -> means (h ++ b) (DArr l)
| means_array_open b l : means_each b l -> means (159 :: b ++ [255]) (DArr l)
| means_map h b l : head 5 h (Z.of_nat (List.length l)) -> means_pairs b l -> means (h ++ b) (DMap l)
| means_map_open b l : means_pairs b l -> means (191 :: b ++ [255]) (DMap l)
| means_false : means [244] (DBool false)
| means_true : means [245] (DBool true)
| means_null : means [246] DNull
| means_float l : List.length l = 4%nat -> Forall byte l -> means (250 :: l) (DFloat (ieee32 (number l)))
with means_each : list Z -> list data -> Prop :=
| each_none : means_each [] []
| each_more b d c l : means b d -> means_each c l -> means_each (b ++ c) (d :: l)
with means_pairs : list Z -> list (data * data) -> Prop :=
| pairs_none : means_pairs [] []
| pairs_more b k c v r l : means b k -> means c v -> means_pairs r l -> means_pairs (b ++ c ++ r) ((k, v) :: l).

(** The data the firmware gives to the encoder; the elements of a map alternate
    between keys and values. *)
Fixpoint pairs_of (l : list data) : list (data * data) :=
  match l with k :: v :: l => (k, v) :: pairs_of l | _ => [] end.
Fixpoint meaning (e : enc) : data :=
  match e with
  | EText s => DText s
  | EInt z => DInt z
  | EFloat x => DFloat x
  | EBool b => DBool b
  | ENull => DNull
  | EArr l => DArr (map meaning l)
  | EMap l | EMapN _ l => DMap (pairs_of (map meaning l))
  end.

(** A map with text keys. *)
Definition fields (l : list (String.string * data)) : data := DMap (map (fun x => (DText (fst x), snd x)) l).

(** INTERFACE.md "Events": event number [n]. *)
Definition event_data (n : Z) (ev : logged) : data := fields [
  ("type", DText "event"); ("time", DInt (lg_time ev)); ("seq", DInt (n mod 2 ^ 32));
  ("event", match lg_type ev with
            | 1 => fields [("type", DText "output"); ("outputs", DInt (lg_value ev))]
            | 2 => fields [("type", DText "gpio"); ("outputs", DInt (lg_value ev))]
            | _ => fields [("type", DText "trigger"); ("pin", DInt (lg_value ev))]
            end)]%string.

(** INTERFACE.md "Feed Descriptions" and "Feed update". *)
Definition description_data (time : Z) (keys : list String.string) : data := fields [
  ("type", DText "description"); ("time", DInt time); ("keys", DArr (map DText keys))]%string.
Definition feed_data (time : Z) (values : list data) : data := fields [
  ("type", DText "feed"); ("time", DInt time); ("values", DArr values)]%string.

(** What each key of the feed stands for. *)
Definition quantity (key : String.string) (s : snapshot) : option data :=
  let v := sn_calc s in let d := sn_dec s in
  let sensor x := DFloat (a_value (snd (sn_sensor s x))) in
  let fix lookup (l : list (String.string * data)) :=
    match l with [] => None | (k, x) :: l => if String.eqb key k then Some x else lookup l end in
  lookup [
    (* the clock, in ticks *)
    ("cputime", DInt (sn_time s));
    (* the decoder *)
    ("rpm", DInt (dd_rpm d)); ("tooth_rpm", DInt (dd_tooth_rpm d)); ("sync", DInt (dd_valid d));
    ("rpm_variance", DFloat (dd_change d)); ("last_trigger_angle", DFloat (dd_last_angle d));
    ("t0_count", DInt (dd_t0 d)); ("t1_count", DInt (dd_t1 d));
    ("loss", DInt (match dd_loss d with NO_LOSS => 0 | VARIATION => 1 | COUNT_HIGH => 2 | COUNT_LOW => 3 | EXPIRED => 4 | OVERFLOW => 5 end));
    (* fuel *)
    ("ve", DFloat (cv_ve v)); ("lambda", DFloat (cv_lambda v)); ("fuel_pulsewidth_us", DInt (cv_fueling v));
    ("temp_enrich_percent", DFloat (cv_ete v)); ("accel_enrich_percent", DFloat (cv_tipin v));
    ("injector_dead_time", DFloat (cv_idt v)); ("injector_pw_correction", DFloat (cv_pwc v)); ("airmass_per_cycle", DFloat (cv_airmass v));
    (* ignition and cuts *)
    ("advance", DFloat (cv_advance v)); ("dwell", DInt (cv_dwell v));
    ("rpm_cut", DInt (cv_rpm_cut v)); ("boost_cut", DInt (cv_boost_cut v)); ("fuel_overduty_cut", DInt (cv_over_cut v));
    (* the sensors *)
    ("sensor.map", sensor S_MAP); ("sensor.iat", sensor S_IAT); ("sensor.clt", sensor S_CLT); ("sensor.brv", sensor S_BRV);
    ("sensor.tps", sensor S_TPS); ("sensor.aap", sensor S_AAP); ("sensor.frt", sensor S_FRT); ("sensor.ego", sensor S_EGO);
    ("sensor.frp", sensor S_FRP); ("sensor.eth", sensor S_ETH);
    ("sensor.tps.rate", DFloat (a_deriv (snd (sn_sensor s S_TPS))));
    ("knock1.value", DFloat (sn_knock s false)); ("knock2.value", DFloat (sn_knock s true));
    (* bit i set: sensor i has a fault *)
    ("sensor_faults", DInt (sensor_fault_status (map (sn_sensor s) [S_MAP; S_IAT; S_CLT; S_BRV; S_TPS; S_AAP; S_FRT; S_EGO; S_FRP; S_ETH])))]%string.

(** C objects of type uint32_t and float hold these. *)
Definition u32 (z : Z) : Prop := 0 <= z < 2 ^ 32.
Definition a_float (x : f32) : Prop := valid_binary 24 128 x = true.
Definition data_fits (d : data) : Prop := match d with DInt z => u32 z | DFloat x => a_float x | _ => True end.
(** A state of the firmware's variables. *)
Definition snapshot_fits (s : snapshot) : Prop := forall k d, quantity k s = Some d -> data_fits d.
Definition event_fits (ev : logged) : Prop := u32 (lg_time ev) /\ 1 <= lg_type ev <= 3 /\ u32 (lg_value ev).

(** When a description is due: at the first call more than 100 ms (400000 ticks) after
    the last one.  A call is given by the time it looks at the clock and the time it
    ends. *)
Fixpoint due (last : Z) (times : list (Z * Z)) : list bool :=
  match times with
  | [] => []
  | (t, d) :: times => let now := last + 400000 <? t in now :: due (if now then d else last) times
  end.
(** Calls follow each other, and no call starts more than [gap] after the one before. *)
Fixpoint paced (gap prev : Z) (times : list (Z * Z)) : Prop :=
  match times with
  | [] => True
  | (t, d) :: times =>
      prev <= t <= prev + gap /\ t <= d /\ (match times with (t', _) :: _ => d <= t' | [] => True end) /\ paced gap t times
  end.
