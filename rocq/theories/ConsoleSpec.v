(** What the console's paths mean, independently of how console.c walks them. *)
Require Import ZArith List Bool String.
From Verif Require Import Res Word F32 Sensors Cbor Console.
Import ListNotations.
Open Scope Z_scope.

(** One setting of any type. *)
Inductive cell := CU (c : ucell) | CF (c : fcell) | CB (c : bcell) | CE (c : ecell) | CS (c : scell) | CN (c : ncell).
Inductive cval := VU (z : Z) | VF (x : f32) | VB (b : bool) | VE (z : Z) | VS (s : string) | VN (z : Z).
Definition read (m : mem) (c : cell) : cval :=
  match c with
  | CU c => VU (m_u m c) | CF c => VF (m_f m c) | CB c => VB (m_b m c)
  | CE c => VE (m_e m c) | CS c => VS (m_s m c) | CN c => VN (m_n m c)
  end.

(** A path is a list of names and indices. *)
Inductive pelem := PN (s : string) | PI (i : Z).

Definition sensor_path (s : sensor) : list pelem := [PN "sensors"; PN (sensor_name s)].
Definition output_path (i : Z) : list pelem := [PN "outputs"; PI i].
Definition freq_path (i : Z) : list pelem := [PN "freq"; PI i].
Definition knock_path (second : bool) : list pelem := [PN "sensors"; PN (if second then "knock2" else "knock1")].
Definition table_path (t : table) : list pelem :=
  match t with
  | T_BOOST => [PN "boost-control"; PN "pwm"]
  | _ => [PN "tables"; PN match t with
          | T_VE => "ve" | T_LAMBDA => "lambda" | T_DWELL => "dwell" | T_TIMING => "timing"
          | T_DEADTIME => "injector_dead_time" | T_PWC => "injector_pw_correction" | T_ENRICH => "temp-enrich"
          | T_TIPIN_AMT => "tipin-amount" | T_TIPIN_TIME => "tipin-time" | T_BOOST => "" end]
  end.
Definition two_axes (t : table) : bool :=
  match t with T_VE | T_LAMBDA | T_TIMING | T_ENRICH | T_TIPIN_AMT => true | _ => false end.
Definition axis_path (t : table) (a : axis) : list pelem :=
  table_path t ++ [PN match a with Cols => "horizontal-axis" | Rows => "vertical-axis" end].

(** Where each setting is found. *)
Definition cell_path (c : cell) : list pelem :=
  match c with
  | CU U_MinRpm => [PN "decoder"; PN "min-rpm"]
  | CU U_RpmStop => [PN "decoder"; PN "rpm-limit-stop"]
  | CU U_RpmStart => [PN "decoder"; PN "rpm-limit-start"]
  | CU U_NumTriggers => [PN "decoder"; PN "num-triggers"]
  | CU U_ReqRpm => [PN "decoder"; PN "min-triggers-rpm"]
  | CU U_Window => [PN "decoder"; PN "rpm-window-size"]
  | CU (U_EvPin i) => output_path i ++ [PN "pin"]
  | CU (U_SenPin s) => sensor_path s ++ [PN "pin"]
  | CU (U_Capture s) => sensor_path s ++ [PN "window-capture-width"]
  | CU (U_Total s) => sensor_path s ++ [PN "window-total-width"]
  | CU (U_WinOffset s) => sensor_path s ++ [PN "window-offset"]
  | CU U_Injections => [PN "fueling"; PN "injections-per-cycle"]
  | CU U_PumpPin => [PN "fueling"; PN "fuel-pump-pin"]
  | CU U_MinFire => [PN "ignition"; PN "min-fire-time"]
  | CU U_BoostPin => [PN "boost-control"; PN "pin"]
  | CU U_CelPin => [PN "check-engine-light"; PN "pin"]
  | CU U_TestRpm => [PN "test"; PN "test-trigger-rpm"]
  | CF F_Offset => [PN "decoder"; PN "offset"]
  | CF F_MaxVariance => [PN "decoder"; PN "max-variance"]
  | CF F_Degrees => [PN "decoder"; PN "degrees-per-trigger"]
  | CF (F_EvAngle i) => output_path i ++ [PN "angle"]
  | CF (F_Lag s) => sensor_path s ++ [PN "lag"]
  | CF (F_RangeMin s) => sensor_path s ++ [PN "range-min"]
  | CF (F_RangeMax s) => sensor_path s ++ [PN "range-max"]
  | CF (F_RawMin s) => sensor_path s ++ [PN "raw-min"]
  | CF (F_RawMax s) => sensor_path s ++ [PN "raw-max"]
  | CF (F_Value s) => sensor_path s ++ [PN "fixed-value"]
  | CF (F_ThermA s) => sensor_path s ++ [PN "therm-a"]
  | CF (F_ThermB s) => sensor_path s ++ [PN "therm-b"]
  | CF (F_ThermC s) => sensor_path s ++ [PN "therm-c"]
  | CF (F_Bias s) => sensor_path s ++ [PN "therm-bias"]
  | CF (F_FaultMin s) => sensor_path s ++ [PN "fault-min"]
  | CF (F_FaultMax s) => sensor_path s ++ [PN "fault-max"]
  | CF (F_FaultValue s) => sensor_path s ++ [PN "fault-value"]
  | CF (F_KnockFreq k) => knock_path k ++ [PN "frequency"]
  | CF (F_KnockThreshold k) => knock_path k ++ [PN "threshold"]
  | CF F_InjCc => [PN "fueling"; PN "injector-cc"]
  | CF F_CylCc => [PN "fueling"; PN "cylinder-cc"]
  | CF F_Stoich => [PN "fueling"; PN "fuel-stoich-ratio"]
  | CF F_Density => [PN "fueling"; PN "fuel-density"]
  | CF F_CrankRpm => [PN "fueling"; PN "crank-enrich"; PN "crank-rpm"]
  | CF F_CrankTemp => [PN "fueling"; PN "crank-enrich"; PN "crank-temp"]
  | CF F_EnrichAmt => [PN "fueling"; PN "crank-enrich"; PN "enrich-amt"]
  | CF F_DwellUs => [PN "ignition"; PN "dwell-time"]
  | CF F_Enable => [PN "boost-control"; PN "enable-threshold"]
  | CF F_Control => [PN "boost-control"; PN "control-threshold"]
  | CF F_ControlTps => [PN "boost-control"; PN "control-threshold-tps"]
  | CF F_Overboost => [PN "boost-control"; PN "overboost"]
  | CF F_LeanKpa => [PN "check-engine-light"; PN "lean-boost-kpa"]
  | CF F_LeanEgo => [PN "check-engine-light"; PN "lean-boost-ego"]
  | CF (F_AxisValue t a i) => axis_path t a ++ [PN "values"; PI i]
  | CF (F_Data t r c) => table_path t ++ [PN "data"] ++ (if two_axes t then [PI r; PI c] else [PI c])
  | CB (B_EvInverted i) => output_path i ++ [PN "inverted"]
  | CB B_Logging => [PN "test"; PN "event-logging"]
  | CE E_Trigger => [PN "decoder"; PN "trigger-type"]
  | CE (E_EvType i) => output_path i ++ [PN "type"]
  | CE (E_Source s) => sensor_path s ++ [PN "source"]
  | CE (E_Method s) => sensor_path s ++ [PN "method"]
  | CE (E_FreqEdge i) => freq_path i ++ [PN "edge"]
  | CE (E_FreqType i) => freq_path i ++ [PN "type"]
  | CS (S_Title t) => table_path t ++ [PN "title"]
  | CS (S_AxisName t a) => axis_path t a ++ [PN "name"]
  | CN (N_Axis t a) => axis_path t a ++ [PN "values"]
  end.

(** A path element of a request denotes this element: a text (possibly tagged)
    or an integer. *)
Definition denotes (q : cbor) (e : pelem) : Prop :=
  match e with
  | PN s => untag q = CText s
  | PI i => q = CInt i
  end.

(** A request with this path and value speaks about the setting at [p]: the path
    leads to it, or past it; or the path leads to a group and the value, a map or
    an array, in turn has an entry leading towards it. *)
Inductive targets : list cbor -> cbor -> list pelem -> Prop :=
| targets_here qs v : targets qs v []
| targets_step q qs e v p : denotes q e -> targets qs v p -> targets (q :: qs) v (e :: p)
| targets_key l k v name p : In (k, v) l -> denotes k (PN name) -> targets [] v p -> targets [] (CMap l) (PN name :: p)
| targets_index d l i v p : nth_error l (Z.to_nat i) = Some v -> targets [] v p -> targets [] (CArray d l) (PI i :: p).

(** The request's path is a prefix of the setting's. *)
Inductive designates : list cbor -> list pelem -> Prop :=
| des_group p : designates [] p
| des_step q e qs p : denotes q e -> designates qs p -> designates (q :: qs) (e :: p).

(** Table sizes and titles within their storage. *)
Definition tables_fit (m : mem) : Prop :=
  (forall t a, 0 <= m_n m (N_Axis t a) <= 24) /\ (forall c, Z.of_nat (String.length (m_s m c)) <= 24).

(** *** The value of a setting on the wire *)

(** The names of the enumerations (the tables at console.c 1005-1010, 1057-1060,
    1115-1121, 1137-1140, 1324-1327 and 1335-1338). *)
Definition enum_names (c : ecell) : list (Z * string) :=
  match c with
  | E_Trigger => [(0, "even"); (1, "even+camsync"); (2, "missing"); (3, "missing+camsync")]
  | E_EvType _ => [(0, "disabled"); (1, "fuel"); (2, "ignition")]
  | E_Source _ => [(0, "none"); (1, "adc"); (2, "freq"); (3, "pulsewidth"); (4, "const")]
  | E_Method _ => [(0, "linear"); (1, "linear-window"); (2, "therm")]
  | E_FreqEdge _ => [(0, "rising"); (1, "falling"); (2, "both")]
  | E_FreqType _ => [(0, "none"); (1, "freq"); (2, "trigger")]
  end%string.

(** What a setting holding this value is shown as. *)
Definition shown (m : mem) (x : cell) : enc :=
  match x with
  | CU c => EInt (m_u m c)
  | CF c => EFloat (m_f m c)
  | CB c => EBool (m_b m c)
  | CE c => match find (fun n => fst n =? m_e m c) (enum_names c) with Some n => EText (snd n) | None => ENull end
  | CS c => EText (m_s m c)
  | CN _ => ENull (* not a leaf *)
  end.

(** What a setting holds after it is set to an item; None: the item is not accepted. *)
Definition accepted (x : cell) (v : cbor) : option cval :=
  match x, v with
  | CU _, CInt z => if (-2147483648 <=? z) && (z <? 2147483648) then Some (VU (z mod 4294967296)) else None
  | CF _, CFloat x => Some (VF x)
  | CF _, CHalf h => Some (VF (decode_half h))
  | CF _, CDouble x => Some (VF (f_of_double x))
  | CF _, CInt z => Some (VF (f_of_Z (int_truncated z)))
  | CB _, CBool b => Some (VB b)
  | CE c, v => match find (fun n => text_equals (Some v) (snd n)) (enum_names c) with Some n => Some (VE (fst n)) | None => None end
  | CS _, CText t => if Z.of_nat (String.length t) <=? 24 then Some (VS (c_string t)) else None
  | _, _ => None
  end.

(** The leaf exists: indices are within the arrays and the tables' current sizes. *)
Definition exists_in (m : mem) (x : cell) : Prop :=
  match x with
  | CU (U_EvPin i) | CF (F_EvAngle i) | CB (B_EvInverted i) | CE (E_EvType i) => 0 <= i < 16
  | CE (E_FreqEdge i) | CE (E_FreqType i) => 0 <= i < 4
  | CF (F_AxisValue t a i) => (a = Rows -> two_axes t = true) /\ 0 <= i < m_n m (N_Axis t a)
  | CF (F_Data t r c) => (if two_axes t then 0 <= r < m_n m (N_Axis t Rows) else r = 0) /\ 0 <= c < m_n m (N_Axis t Cols)
  | CS (S_AxisName t a) => a = Rows -> two_axes t = true
  | CN _ => False
  | _ => True
  end.

(** *** Well-formed responses: maps hold pairs of a text key and a value. *)
Inductive wf : enc -> Prop :=
| wf_text s : wf (EText s) | wf_int z : wf (EInt z) | wf_float x : wf (EFloat x) | wf_bool b : wf (EBool b) | wf_null : wf ENull
| wf_arr l : Forall wf l -> wf (EArr l)
| wf_map l : pairs l -> wf (EMap l)
| wf_mapn n l : pairs l -> Z.of_nat (List.length l) = 2 * n -> wf (EMapN n l)
with pairs : list enc -> Prop :=
| pairs_nil : pairs []
| pairs_cons k x l : wf x -> pairs l -> pairs (EText k :: x :: l).

(** How often a key occurs in a list of pairs. *)
Fixpoint key_count (k : string) (l : list enc) : nat :=
  match l with
  | EText k' :: _ :: l => (if String.eqb k' k then 1 else 0) + key_count k l
  | _ => 0
  end.

(** *** Requests and responses *)

(** The request is a map whose method is this text. *)
Definition asks (request : cbor) (method : string) : Prop := text_equals (map_find (Some request) "method") method = true.
Definition request_path (request : cbor) : option (list cbor) :=
  match map_find (Some request) "path" with Some (CArray _ l) => Some l | _ => None end.
Definition request_value (request : cbor) : option cbor := map_find (Some request) "value".
(** Its integer id, -1 if it has none. *)
Definition request_id (request : cbor) : Z :=
  match map_find (Some request) "id" with Some (CInt z) => z | _ => -1 end.
Definition is_int32 (z : Z) : Prop := -2147483648 <= z < 2147483648.

(** A response carrying one value. *)
Definition answer (id : Z) (x : enc) : enc :=
  EMap [EText "type"; EText "response"; EText "id"; EInt id; EText "response"; x; EText "success"; EBool true].

(** The value of a key of a response. *)
Fixpoint key_value (k : string) (l : list enc) : option enc :=
  match l with
  | EText k' :: x :: l => if String.eqb k' k then Some x else key_value k l
  | _ => None
  end.

(** *** The settings after one of them is set *)
Definition cell_eq : forall a b : cell, {a = b} + {a <> b}.
Proof. decide equality; auto using ucell_eq, fcell_eq, bcell_eq, ecell_eq, scell_eq, ncell_eq. Defined.
Definition after_set (m : mem) (x : cell) (v : cbor) (y : cell) : cval :=
  if cell_eq y x then match accepted x v with Some w => w | None => read m x end else read m y.

(** Setting a knock input's frequency or threshold reconfigures both inputs: the
    conversion of both frequencies to a bucket must be defined. *)
Definition knock_cell (x : cell) : bool := match x with CF (F_KnockFreq _) | CF (F_KnockThreshold _) => true | _ => false end.
Definition settable (rate : Z) (freq : f32) : Prop := exists k,
  Sensors.knock_configure (fun x => x) rate (Sensors.Knock freq 0 0 f_zero f_zero 0 f_zero f_zero f_zero) = Ok k.
Definition axis_cell (x : cell) : bool := match x with CF (F_AxisValue _ _ _) => true | _ => false end.
