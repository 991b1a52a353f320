(** src/console.c: the settings tree, requests and responses. *)
Require Import ZArith List Bool String Ascii.
From Verif Require Import Res Word F32 Sensors Cbor.
Import ListNotations.
Open Scope Z_scope.

(** *** The settings (config.h 17-53 and the structs it uses) that the console reaches *)

(** sensors.h 12-23, in order *)
Inductive sensor := S_MAP | S_IAT | S_CLT | S_BRV | S_TPS | S_AAP | S_FRT | S_EGO | S_FRP | S_ETH.

(** The tables config points to (config.h 33-41, tasks.h 7); config.c gives each its own storage. *)
Inductive table := T_VE | T_LAMBDA | T_DWELL | T_TIMING | T_DEADTIME | T_PWC | T_ENRICH | T_TIPIN_AMT | T_TIPIN_TIME | T_BOOST.

(** table.h 10-21: the horizontal (cols) and vertical (rows) axis *)
Inductive axis := Cols | Rows.

(** 32-bit unsigned settings *)
Inductive ucell :=
| U_MinRpm | U_RpmStop | U_RpmStart | U_NumTriggers | U_ReqRpm | U_Window       (* decoder.h, config.h 48-49 *)
| U_EvPin (i : Z)                                                                 (* scheduler.h 49 *)
| U_SenPin (s : sensor) | U_Capture (s : sensor) | U_Total (s : sensor) | U_WinOffset (s : sensor)
| U_Injections | U_PumpPin | U_MinFire | U_BoostPin | U_CelPin
| U_TestRpm.                                                                      (* sim.c 38 *)

(** float settings *)
Inductive fcell :=
| F_Offset | F_MaxVariance | F_Degrees
| F_EvAngle (i : Z)
| F_Lag (s : sensor) | F_RangeMin (s : sensor) | F_RangeMax (s : sensor) | F_RawMin (s : sensor) | F_RawMax (s : sensor)
| F_Value (s : sensor) | F_ThermA (s : sensor) | F_ThermB (s : sensor) | F_ThermC (s : sensor) | F_Bias (s : sensor)
| F_FaultMin (s : sensor) | F_FaultMax (s : sensor) | F_FaultValue (s : sensor)
| F_KnockFreq (second : bool) | F_KnockThreshold (second : bool)
| F_InjCc | F_CylCc | F_Stoich | F_Density | F_CrankRpm | F_CrankTemp | F_EnrichAmt
| F_DwellUs
| F_Enable | F_Control | F_ControlTps | F_Overboost
| F_LeanKpa | F_LeanEgo
| F_AxisValue (t : table) (a : axis) (i : Z)
| F_Data (t : table) (row col : Z).                                              (* row 0 for one-axis tables *)

Inductive bcell := B_EvInverted (i : Z) | B_Logging.                             (* scheduler.h 50, console.c 74 *)
Inductive ecell := E_Trigger | E_EvType (i : Z) | E_Source (s : sensor) | E_Method (s : sensor) | E_FreqEdge (i : Z) | E_FreqType (i : Z).
(** char arrays of 25 bytes, as the string before the first NUL *)
Inductive scell := S_Title (t : table) | S_AxisName (t : table) (a : axis).
(** table_axis.num, unsigned char *)
Inductive ncell := N_Axis (t : table) (a : axis).

Definition sensor_eq : forall a b : sensor, {a = b} + {a <> b}. Proof. decide equality. Defined.
Definition table_eq : forall a b : table, {a = b} + {a <> b}. Proof. decide equality. Defined.
Definition axis_eq : forall a b : axis, {a = b} + {a <> b}. Proof. decide equality. Defined.
Definition ucell_eq : forall a b : ucell, {a = b} + {a <> b}. Proof. decide equality; auto using sensor_eq, Z.eq_dec. Defined.
Definition fcell_eq : forall a b : fcell, {a = b} + {a <> b}.
Proof. decide equality; auto using sensor_eq, Z.eq_dec, bool_dec, table_eq, axis_eq. Defined.
Definition bcell_eq : forall a b : bcell, {a = b} + {a <> b}. Proof. decide equality; auto using Z.eq_dec. Defined.
Definition ecell_eq : forall a b : ecell, {a = b} + {a <> b}. Proof. decide equality; auto using sensor_eq, Z.eq_dec. Defined.
Definition scell_eq : forall a b : scell, {a = b} + {a <> b}. Proof. decide equality; auto using table_eq, axis_eq. Defined.
Definition ncell_eq : forall a b : ncell, {a = b} + {a <> b}. Proof. decide equality; auto using table_eq, axis_eq. Defined.

(** The memory holding the settings. *)
Record mem := Mem {
  m_u : ucell -> Z; m_f : fcell -> f32; m_b : bcell -> bool; m_e : ecell -> Z; m_s : scell -> string; m_n : ncell -> Z }.

Definition upd {K V} (eq : forall a b : K, {a = b} + {a <> b}) (f : K -> V) (k : K) (v : V) : K -> V :=
  fun k' => if eq k' k then v else f k'.
Definition set_u m c v := Mem (upd ucell_eq (m_u m) c v) (m_f m) (m_b m) (m_e m) (m_s m) (m_n m).
Definition set_f m c v := Mem (m_u m) (upd fcell_eq (m_f m) c v) (m_b m) (m_e m) (m_s m) (m_n m).
Definition set_b m c v := Mem (m_u m) (m_f m) (upd bcell_eq (m_b m) c v) (m_e m) (m_s m) (m_n m).
Definition set_e m c v := Mem (m_u m) (m_f m) (m_b m) (upd ecell_eq (m_e m) c v) (m_s m) (m_n m).
Definition set_s m c v := Mem (m_u m) (m_f m) (m_b m) (m_e m) (upd scell_eq (m_s m) c v) (m_n m).
Definition set_n m c v := Mem (m_u m) (m_f m) (m_b m) (m_e m) (m_s m) (upd ncell_eq (m_n m) c v).

(** *** Rendering *)

(** console.h 21-26 *)
Inductive rtype := GET | SET | DESCRIBE | STRUCTURE.

(** console.h 28-36, struct console_request_context; [response] and [path] are
    pointers shared by nested contexts and live in the state below. *)
Record ctx := Ctx { c_type : rtype; c_value : cvalue; c_filtered : bool; c_completed : bool }.

(** Effects on the rest of the firmware. *)
Inductive eff :=
| ConfigureKnock            (* knock_configure on both knock inputs, console.c 1205-1206 *)
| TestRpm (rpm : Z)         (* set_test_trigger_rpm, console.c 1350 *)
| SaveConfig                (* platform_save_config, console.c 1474 *)
| Reset.                    (* platform_reset_into_bootloader, console.c 1480 *)

(** The settings, the rest of the path, the response so far (in the innermost
    open container) and the effects so far. *)
Record st := St { s_mem : mem; s_path : list cbor; s_out : list enc; s_effs : list eff }.

Definition emit (s : st) (e : enc) : st := St (s_mem s) (s_path s) (s_out s ++ [e]) (s_effs s).
Definition with_mem (s : st) (m : mem) : st := St m (s_path s) (s_out s) (s_effs s).
Definition effect (s : st) (e : eff) : st := St (s_mem s) (s_path s) (s_out s) (s_effs s ++ [e]).

(** An object renderer works on its own copy of the context; a statement of a
    console_renderer may change the context it shares with the following ones. *)
Definition obj := ctx -> st -> res st.
Definition stmt := ctx -> st -> res (ctx * st).

Fixpoint run (body : list stmt) (c : ctx) (s : st) : res (ctx * st) :=
  match body with
  | [] => Ok (c, s)
  | x :: body => '(c, s) <- x c s ;; run body c s
  end.

(** console.c 183-191 *)
Definition render_type_field (t : string) : list enc := [EText "_type"; EText t].
Definition render_description_field (d : string) : list enc := [EText "description"; EText d].

(** console.c 204-221; [path] is the head of the remaining path. *)
Definition console_path_match_str (path : list cbor) (id : string) : bool :=
  text_equals (hd_error path) id.
Definition console_path_match_int (path : list cbor) (index : Z) : bool :=
  match path with
  | CInt z :: _ => match int_checked z with Some z => z =? index | None => false end
  | _ => false
  end.

(** console.c 666-713: whether to descend, this context, the deeper context and the state. *)
Definition descend_map_field (c : ctx) (id : string) (s : st) : bool * ctx * ctx * st :=
  if c_completed c then (false, c, c, s) else
  let getset (v : cvalue) :=
    if c_filtered c then
      if negb (console_path_match_str (s_path s) id) then (false, c, c, s)
      else
        let path := tl (s_path s) in
        (true, Ctx (c_type c) (c_value c) (c_filtered c) true,
         Ctx (c_type c) v (match path with [] => false | _ => true end) false,
         St (s_mem s) path (s_out s) (s_effs s))
    else (true, c, Ctx (c_type c) v (c_filtered c) (c_completed c), emit s (EText id)) in
  match c_type c with
  | SET =>
    if negb (c_filtered c) then
      if negb (is_map (c_value c)) then (false, c, c, s) else getset (map_find (c_value c) id)
    else getset (c_value c)
  | GET => getset (c_value c)
  | STRUCTURE | DESCRIBE => (true, c, c, emit s (EText id))
  end.

(** console.c 563-571: the cursor after [index] elements; None when the end is met
    before that, Some None when it is exactly at the end. *)
Fixpoint nth_cursor (l : list cbor) (index : nat) : option cvalue :=
  match index, l with
  | O, v :: _ => Some (Some v)
  | O, [] => Some None
  | S n, _ :: l => nth_cursor l n
  | S _, [] => None
  end.

(** console.c 549-593 *)
Definition descend_array_field (c : ctx) (index : Z) (s : st) : bool * ctx * ctx * st :=
  if c_completed c then (false, c, c, s) else
  let getset (v : cvalue) :=
    if c_filtered c then
      if negb (console_path_match_int (s_path s) index) then (false, c, c, s)
      else
        let path := tl (s_path s) in
        (true, Ctx (c_type c) (c_value c) (c_filtered c) true,
         Ctx (c_type c) v (match path with [] => false | _ => true end) false,
         St (s_mem s) path (s_out s) (s_effs s))
    else (true, c, Ctx (c_type c) v (c_filtered c) (c_completed c), s) in
  match c_type c with
  | SET =>
    if negb (c_filtered c) then
      match c_value c with
      | Some (CArray _ l) => match nth_cursor l (Z.to_nat index) with Some v => getset v | None => (false, c, c, s) end
      | _ => (false, c, c, s)
      end
    else getset (c_value c)
  | GET => getset (c_value c)
  | STRUCTURE | DESCRIBE => (true, c, c, s)
  end.

(** The pattern  struct console_request_context deeper; if (descend_...) object(&deeper, ...)
    of console.c 395-398, 431-434, 498-501, 533-536, 543-546, 624-627, 634-637, 720-723. *)
Definition map_field (id : string) (o : obj) : stmt := fun c s =>
  let '(go, c, deeper, s) := descend_map_field c id s in
  if go then s <- o deeper s ;; Ok (c, s) else Ok (c, s).
Definition array_field (index : Z) (o : obj) : stmt := fun c s =>
  let '(go, c, deeper, s) := descend_array_field c index s in
  if go then s <- o deeper s ;; Ok (c, s) else Ok (c, s).

(** console.c 640-664 and 595-618, which differ in the container they open. *)
Definition render_container (close : list enc -> enc) (body : list stmt) : obj := fun c s =>
  let wrapped := negb (c_filtered c) in
  let inner := if wrapped then St (s_mem s) (s_path s) [] (s_effs s) else s in
  '(c, s') <- run body c inner ;;
  let s' := if c_filtered c && negb (c_completed c) then emit s' ENull else s' in
  Ok (if wrapped then St (s_mem s') (s_path s') (s_out s ++ [close (s_out s')]) (s_effs s') else s').
Definition render_map_object : list stmt -> obj := render_container EMap.
Definition render_array_object : list stmt -> obj := render_container EArr.

Definition describe (type desc : string) (s : st) : st :=
  emit s (EMapN 2 (render_type_field type ++ render_description_field desc)).

(** console.c 400-424 *)
Definition render_uint32_object (desc : string) (p : ucell) : obj := fun c s =>
  match c_type c with
  | SET | GET =>
    let m := match c_type c, c_value c with
             | SET, Some (CInt z) => match int_checked z with Some z => set_u (s_mem s) p (w32 z) | None => s_mem s end
             | _, _ => s_mem s
             end in
    Ok (emit (with_mem s m) (EInt (m_u m p)))
  | DESCRIBE | STRUCTURE => Ok (describe "uint32" desc s)
  end.

(** console.c 438-450; ldexpf of small integers is exact or rounds once. *)
Definition decode_half (half : Z) : f32 :=
  let exp := Z.land (Z.shiftr half 10) 31 in
  let mant := Z.land half 1023 in
  let val := if exp =? 0 then SpecFloat.binary_normalize fprec femax mant (-24) false
             else if negb (exp =? 31) then SpecFloat.binary_normalize fprec femax (mant + 1024) (exp - 25) false
             else if mant =? 0 then SpecFloat.S754_infinity false else f_nan in
  if Z.testbit half 15 then fneg val else val.

(** console.c 452-491 *)
Definition render_float_object (desc : string) (p : fcell) : obj := fun c s =>
  match c_type c with
  | SET | GET =>
    let m := match c_type c, c_value c with
             | SET, Some (CFloat x) => set_f (s_mem s) p x
             | SET, Some (CHalf h) => set_f (s_mem s) p (decode_half h)
             | SET, Some (CDouble x) => set_f (s_mem s) p (f_of_double x)
             | SET, Some (CInt z) => set_f (s_mem s) p (f_of_Z (int_truncated z))
             | _, _ => s_mem s
             end in
    Ok (emit (with_mem s m) (EFloat (m_f m p)))
  | DESCRIBE | STRUCTURE => Ok (describe "float" desc s)
  end.

(** console.c 504-527 *)
Definition render_bool_object (desc : string) (p : bcell) : obj := fun c s =>
  match c_type c with
  | SET | GET =>
    let m := match c_type c, c_value c with
             | SET, Some (CBool b) => set_b (s_mem s) p b
             | _, _ => s_mem s
             end in
    Ok (emit (with_mem s m) (EBool (m_b m p)))
  | DESCRIBE | STRUCTURE => Ok (describe "bool" desc s)
  end.

(** console.c 726-768.  The callers pass the address of an int copy and write it
    back afterwards (console.c 1017-1028, 1062-1073, 1124-1149, 1316-1336), which
    is the same as working on the setting itself. *)
Definition render_enum_object (desc : string) (mapping : list (Z * string)) (p : ecell) : obj := fun c s =>
  match c_type c with
  | SET | GET =>
    let m := match c_type c with
             | SET => fold_left (fun m x => if text_equals (c_value c) (snd x) then set_e m p (fst x) else m) mapping (s_mem s)
             | _ => s_mem s
             end in
    let hits := filter (fun x => m_e m p =? fst x) mapping in
    let s := with_mem s m in
    Ok (match hits with
        | [] => emit s ENull
        | _ => fold_left (fun s x => emit s (EText (snd x))) hits s
        end)
  | DESCRIBE | STRUCTURE =>
    Ok (emit s (EMapN 3 (render_type_field "string" ++ render_description_field desc ++
                         [EText "choices"; EArr (map (fun x => EText (snd x)) mapping)])))
  end.

(** Strings are stored in and written from arrays of 25 chars, up to the first NUL. *)
Fixpoint c_string (s : string) : string :=
  match s with
  | EmptyString => EmptyString
  | String a s => if Ascii.eqb a "000"%char then EmptyString else String a (c_string s)
  end.
(** table.h 7 *)
Definition MAX_TABLE_TITLE_SIZE : Z := 24.
(** table.h 6 *)
Definition MAX_AXIS_SIZE : Z := 24.

(** console.c 770-795 and 797-825.  cbor_value_copy_text_string copies nothing
    when the string does not fit in 24 bytes. *)
Definition render_string_object (desc : string) (p : scell) : obj := fun c s =>
  match c_type c with
  | SET | GET =>
    let m := match c_type c, c_value c with
             | SET, Some (CText t) =>
               if Z.of_nat (String.length t) <=? MAX_TABLE_TITLE_SIZE then set_s (s_mem s) p (c_string t) else s_mem s
             | _, _ => s_mem s
             end in
    Ok (emit (with_mem s m) (EText (m_s m p)))
  | DESCRIBE | STRUCTURE => Ok (describe "string" desc s)
  end.

Definition uint32_map_field id desc p := map_field id (render_uint32_object desc p).
Definition float_map_field id desc p := map_field id (render_float_object desc p).
Definition bool_map_field id desc p := map_field id (render_bool_object desc p).
Definition enum_map_field id desc mapping p := map_field id (render_enum_object desc mapping p).
Definition map_map_field id body := map_field id (render_map_object body).
Definition array_map_field id body := map_field id (render_array_object body).
Definition map_array_field index body := array_field index (render_map_object body).

(** A for loop from [i] while the condition, evaluated on the current memory,
    holds; at most [n] rounds are unfolded, running out of them diverges. *)
Fixpoint loop (n : nat) (i : Z) (cond : mem -> Z -> bool) (body : Z -> stmt) : stmt := fun c s =>
  if negb (cond (s_mem s) i) then Ok (c, s) else
  match n with
  | O => Err Diverges
  | S n => '(c, s) <- body i c s ;; loop n (i + 1) cond body c s
  end.

(** A float in an array of 24: &axis->values[i], &t->data[i] and &t->data[row][c]. *)
Definition float_elem (i : Z) (p : fcell) : obj := fun c s =>
  if (i <? 0) || (MAX_AXIS_SIZE <=? i) then Err OutOfBounds else render_float_object "axis value" p c s.

(** console.c 827-847; [num] is an unsigned char. *)
Definition render_table_axis_values (t : table) (a : axis) : list stmt := [
  (fun c s =>
    match c_type c, c_value c with
    | SET, Some (CArray definite l) =>
      let len := if definite then Z.of_nat (List.length l) else m_n (s_mem s) (N_Axis t a) in
      let len := if MAX_AXIS_SIZE <? len then MAX_AXIS_SIZE else len in
      Ok (c, with_mem s (set_n (s_mem s) (N_Axis t a) (len mod 256)))
    | _, _ => Ok (c, s)
    end);
  loop 256 0 (fun m i => (i <? m_n m (N_Axis t a)) && (i <? MAX_AXIS_SIZE))
    (fun i => array_field i (float_elem i (F_AxisValue t a i)))].

Definition describe_list (type desc : string) : obj := fun c s =>
  Ok (emit s (EMapN 3 (render_type_field type ++ render_description_field desc ++ [EText "len"; EInt MAX_AXIS_SIZE]))).

(** console.c 849-869 *)
Definition render_table_axis (t : table) (a : axis) : list stmt := [
  map_field "name" (render_string_object "axis title" (S_AxisName t a));
  (fun c s => match c_type c with
              | DESCRIBE => map_field "values" (describe_list "[float]" "list of axis values") c s
              | _ => array_map_field "values" (render_table_axis_values t a) c s
              end)].

(** console.c 871-886 *)
Definition render_table_second_axis_data (t : table) (row : Z) : list stmt := [
  loop 256 0 (fun m i => i <? m_n m (N_Axis t Cols)) (fun i => array_field i (float_elem i (F_Data t row i)))].

(** console.c 914-924 *)
Definition render_table_1d_data (t : table) : list stmt := [
  loop 256 0 (fun m i => i <? m_n m (N_Axis t Cols)) (fun i => array_field i (float_elem i (F_Data t 0 i)))].

(** console.c 926-936; the row must exist before its elements are addressed. *)
Definition render_table_2d_data (t : table) : list stmt := [
  loop 256 0 (fun m i => i <? m_n m (N_Axis t Rows))
    (fun i => array_field i (fun c s =>
       if (i <? 0) || (MAX_AXIS_SIZE <=? i) then Err OutOfBounds
       else render_array_object (render_table_second_axis_data t i) c s))].

(** The pattern  if (ctx->type == CONSOLE_STRUCTURE) { render_type_field; return; } *)
Definition unless_structure (type : string) (body : list stmt) : list stmt := [
  (fun c s => match c_type c with
              | STRUCTURE => Ok (c, St (s_mem s) (s_path s) (s_out s ++ render_type_field type) (s_effs s))
              | _ => run body c s
              end)].

(** console.c 938-956 *)
Definition render_table_2d_object (t : table) : list stmt := unless_structure "table2d" [
  map_field "title" (render_string_object "table title" (S_Title t));
  map_map_field "horizontal-axis" (render_table_axis t Cols);
  map_map_field "vertical-axis" (render_table_axis t Rows);
  (fun c s => match c_type c with
              | DESCRIBE => map_field "data" (describe_list "[[float]]" "list of lists of table values") c s
              | _ => array_map_field "data" (render_table_2d_data t) c s
              end)].

(** console.c 958-972 *)
Definition render_table_1d_object (t : table) : list stmt := unless_structure "table1d" [
  map_field "title" (render_string_object "table title" (S_Title t));
  map_map_field "horizontal-axis" (render_table_axis t Cols);
  (fun c s => match c_type c with
              | DESCRIBE => map_field "data" (describe_list "[float]" "list of table values") c s
              | _ => array_map_field "data" (render_table_1d_data t) c s
              end)].

(** console.c 974-995 *)
Definition render_tables : list stmt := [
  map_map_field "ve" (render_table_2d_object T_VE);
  map_map_field "lambda" (render_table_2d_object T_LAMBDA);
  map_map_field "dwell" (render_table_1d_object T_DWELL);
  map_map_field "timing" (render_table_2d_object T_TIMING);
  map_map_field "injector_dead_time" (render_table_1d_object T_DEADTIME);
  map_map_field "injector_pw_correction" (render_table_1d_object T_PWC);
  map_map_field "temp-enrich" (render_table_2d_object T_ENRICH);
  map_map_field "tipin-amount" (render_table_2d_object T_TIPIN_AMT);
  map_map_field "tipin-time" (render_table_1d_object T_TIPIN_TIME)].

(** console.c 997-1048 *)
Definition render_decoder : list stmt := [
  float_map_field "offset" "offset past TDC for sync pulse" F_Offset;
  float_map_field "max-variance" "inter-tooth max time variation (0-1)" F_MaxVariance;
  uint32_map_field "min-rpm" "minimum RPM for sync" U_MinRpm;
  uint32_map_field "rpm-limit-stop" "ignition and fuel cut rpm limit" U_RpmStop;
  uint32_map_field "rpm-limit-start" "rpm limit lower hysteresis" U_RpmStart;
  enum_map_field "trigger-type" "Primary trigger decoder method"
    [(0, "even"); (1, "even+camsync"); (2, "missing"); (3, "missing+camsync")]%string E_Trigger;
  uint32_map_field "num-triggers" "number of teeth on primary wheel" U_NumTriggers;
  float_map_field "degrees-per-trigger" "angle a single tooth represents" F_Degrees;
  uint32_map_field "min-triggers-rpm" "minimum teeth required to generate rpm for even tooth wheel" U_ReqRpm;
  uint32_map_field "rpm-window-size" "rpm average window for even tooth wheel" U_Window].

(** console.c 1050-1074 *)
Definition output_console_renderer (i : Z) : list stmt := unless_structure "output" [
  uint32_map_field "pin" "pin" (U_EvPin i);
  bool_map_field "inverted" "inverted" (B_EvInverted i);
  float_map_field "angle" "angle past TDC to trigger event" (F_EvAngle i);
  enum_map_field "type" "output type" [(0, "disabled"); (1, "fuel"); (2, "ignition")]%string (E_EvType i)].

(** config.h 14 *)
Definition MAX_EVENTS : nat := 16.
Fixpoint upto (n : nat) : list Z := match n with O => [] | S n => upto n ++ [Z.of_nat n] end.

(** console.c 1076-1081; the loop bound is constant. *)
Definition render_outputs : list stmt :=
  map (fun i => map_array_field i (output_console_renderer i)) (upto MAX_EVENTS).

(** console.c 1083-1108 *)
Definition sensor_name (s : sensor) : string :=
  match s with
  | S_MAP => "map" | S_IAT => "iat" | S_CLT => "clt" | S_BRV => "brv" | S_TPS => "tps"
  | S_AAP => "aap" | S_FRT => "frt" | S_EGO => "ego" | S_FRP => "frp" | S_ETH => "eth"
  end.

(** console.c 1110-1191 *)
Definition render_sensor_object (x : sensor) : list stmt := unless_structure "sensor" [
  uint32_map_field "pin" "adc sensor input pin" (U_SenPin x);
  float_map_field "lag" "lag filter coefficient (0-1)" (F_Lag x);
  enum_map_field "source" "sensor data source"
    [(0, "none"); (1, "adc"); (2, "freq"); (3, "pulsewidth"); (4, "const")]%string (E_Source x);
  enum_map_field "method" "sensor processing method"
    [(0, "linear"); (1, "linear-window"); (2, "therm")]%string (E_Method x);
  float_map_field "range-min" "min for linear mapping" (F_RangeMin x);
  float_map_field "range-max" "max for linear mapping" (F_RangeMax x);
  float_map_field "raw-min" "min raw input for linear mapping" (F_RawMin x);
  float_map_field "raw-max" "max raw input for linear mapping" (F_RawMax x);
  float_map_field "fixed-value" "value to hold for const input" (F_Value x);
  float_map_field "therm-a" "thermistor A" (F_ThermA x);
  float_map_field "therm-b" "thermistor B" (F_ThermB x);
  float_map_field "therm-c" "thermistor C" (F_ThermC x);
  float_map_field "therm-bias" "thermistor resistor bias value (ohms)" (F_Bias x);
  float_map_field "fault-min" "Lower bound for raw sensor input" (F_FaultMin x);
  float_map_field "fault-max" "Upper bound for raw sensor input" (F_FaultMax x);
  float_map_field "fault-value" "Value to assume in fault condition" (F_FaultValue x);
  uint32_map_field "window-capture-width" "Crank degrees in window to average samples over" (U_Capture x);
  uint32_map_field "window-total-width" "Crank degrees per window" (U_Total x);
  uint32_map_field "window-offset" "Crank degree into window to start averagine" (U_WinOffset x)].

Section CONSOLE.
(** platform_knock_samplerate() and the version string GIT_DESCRIBE (console.c 1354-1356) *)
Variable knock_rate : Z.
Variable git_describe : string.

(** sensors.c 187-201 as called at console.c 1203-1207: the conversion of the
    frequency to a bucket may be undefined. *)
Definition knock_check (m : mem) (second : bool) : res unit :=
  _ <- Sensors.knock_configure (fun x => x) knock_rate
         (Knock (m_f m (F_KnockFreq second)) 0 0 f_zero f_zero 0 f_zero f_zero f_zero) ;; Ok tt.

(** console.c 1193-1208 *)
Definition render_knock_object (second : bool) : list stmt := [
  float_map_field "frequency" "knock filter center frequency (Hz)" (F_KnockFreq second);
  float_map_field "threshold" "input level indicating knock" (F_KnockThreshold second);
  (fun c s => match c_type c with
              | SET =>
                _ <- knock_check (s_mem s) false ;;
                _ <- knock_check (s_mem s) true ;;
                Ok (c, effect s ConfigureKnock)
              | _ => Ok (c, s)
              end)].

(** console.c 1210-1221 *)
Definition render_sensors : list stmt :=
  map (fun x => map_map_field (sensor_name x) (render_sensor_object x))
    [S_MAP; S_IAT; S_CLT; S_BRV; S_TPS; S_AAP; S_FRT; S_EGO; S_FRP; S_ETH] ++
  [map_map_field "knock1" (render_knock_object false);
   map_map_field "knock2" (render_knock_object true)].

(** console.c 1223-1239 *)
Definition render_crank_enrich : list stmt := [
  float_map_field "crank-rpm" "Upper RPM limit for crank enrich" F_CrankRpm;
  float_map_field "crank-temp" "Upper temperature (C) for crank enrich" F_CrankTemp;
  float_map_field "enrich-amt" "crank enrichment multiplier" F_EnrichAmt].

(** console.c 1241-1266 *)
Definition render_fueling : list stmt := [
  float_map_field "injector-cc" "fuel injector size cc/min" F_InjCc;
  float_map_field "cylinder-cc" "cylinder size in cc" F_CylCc;
  float_map_field "fuel-stoich-ratio" "stoich ratio of fuel to air" F_Stoich;
  uint32_map_field "injections-per-cycle" "Number of times injectors fire per cycle (batching)" U_Injections;
  uint32_map_field "fuel-pump-pin" "GPIO pin for fuel pump control" U_PumpPin;
  float_map_field "fuel-density" "Fuel density (g/cc) at 15C" F_Density;
  map_map_field "crank-enrich" render_crank_enrich].

(** console.c 1268-1278 *)
Definition render_ignition : list stmt := [
  uint32_map_field "min-fire-time" "minimum wait period for coil output (uS)" U_MinFire;
  float_map_field "dwell-time" "dwell time for fixed-duty (uS)" F_DwellUs].

(** console.c 1280-1304 *)
Definition render_boost_control : list stmt := [
  uint32_map_field "pin" "GPIO pin for boost control output" U_BoostPin;
  float_map_field "enable-threshold" "MAP low threshold to enable boost control" F_Enable;
  float_map_field "control-threshold" "MAP low threshold to keep valve open if TPS setting is met" F_Control;
  float_map_field "control-threshold-tps" "TPS threshold for valve-wide-open mode" F_ControlTps;
  float_map_field "overboost" "High threshold for boost cut (kpa)" F_Overboost;
  map_map_field "pwm" (render_table_1d_object T_BOOST)].

(** console.c 1306-1318 *)
Definition render_cel : list stmt := [
  uint32_map_field "pin" "GPIO pin for CEL output" U_CelPin;
  float_map_field "lean-boost-kpa" "Boost low threshold for lean boost warning" F_LeanKpa;
  float_map_field "lean-boost-ego" "EGO high threshold for lean boost warning" F_LeanEgo].

(** console.c 1320-1345 *)
Definition render_freq_object (i : Z) : list stmt := [
  enum_map_field "edge" "type of edge to trigger" [(0, "rising"); (1, "falling"); (2, "both")]%string (E_FreqEdge i);
  enum_map_field "type" "input interpretation" [(0, "none"); (1, "freq"); (2, "trigger")]%string (E_FreqType i)].

(** console.c 1347-1352 *)
Definition render_freq_list : list stmt :=
  map (fun i => map_array_field i (render_freq_object i)) (upto 4).

(** console.c 1354-1367: the setting is changed through set_test_trigger_rpm (sim.c 60-65). *)
Definition render_test : list stmt := [
  bool_map_field "event-logging" "Enable event logging" B_Logging;
  (fun c s =>
    let old := m_u (s_mem s) U_TestRpm in
    '(c, s) <- uint32_map_field "test-trigger-rpm" "Test trigger output rpm (0 to disable)" U_TestRpm c s ;;
    let rpm := m_u (s_mem s) U_TestRpm in
    match c_type c with
    | SET => Ok (c, if negb (rpm =? old) then effect s (TestRpm rpm) else s)
    | _ => Ok (c, s)
    end)].

(** console.c 1373-1393 *)
Definition render_version : obj := fun c s =>
  match c_type c with
  | SET | GET => Ok (emit s (EText git_describe))
  | STRUCTURE | DESCRIBE => Ok (describe "string" "ViaEMS version (RO)" s)
  end.

(** console.c 1395-1398 *)
Definition render_info : list stmt := [map_field "version" render_version].

(** console.c 1400-1414 *)
Definition console_toplevel_request : list stmt := [
  map_map_field "decoder" render_decoder;
  map_map_field "sensors" render_sensors;
  array_map_field "outputs" render_outputs;
  map_map_field "fueling" render_fueling;
  map_map_field "ignition" render_ignition;
  map_map_field "tables" render_tables;
  map_map_field "boost-control" render_boost_control;
  map_map_field "check-engine-light" render_cel;
  array_map_field "freq" render_freq_list;
  map_map_field "test" render_test;
  map_map_field "info" render_info].

(** console.c 1416-1424 *)
Definition console_toplevel_types : list stmt := [
  map_map_field "sensor" (render_sensor_object S_MAP);
  map_map_field "output" (output_console_renderer 1);
  map_map_field "table1d" (render_table_1d_object T_VE);
  map_map_field "table2d" (render_table_2d_object T_VE)].

(** *** Requests *)

(** console.c 193-202 *)
Definition report_success (s : st) (ok : bool) : st := emit (emit s (EText "success")) (EBool ok).
Definition report_parsing_error (s : st) (msg : string) : st :=
  report_success (emit (emit s (EText "error")) (EText msg)) false.

(** console.c 384-388 *)
Definition console_request_ping (s : st) : st := report_success (emit (emit s (EText "response")) (EText "pong")) true.

(** console.c 1426-1446 *)
Definition console_request_structure (s : st) : res st :=
  '(_, s) <- map_map_field "response" console_toplevel_request (Ctx STRUCTURE None false false) s ;;
  '(_, s) <- map_map_field "types" console_toplevel_types (Ctx DESCRIBE None false false) s ;;
  Ok (report_success s true).

Definition nonempty {A} (l : list A) : bool := match l with [] => false | _ => true end.

(** console.c 1448-1458 *)
Definition console_request_get (path : list cbor) (s : st) : res st :=
  let s := St (s_mem s) path (s_out s ++ [EText "response"]) (s_effs s) in
  s <- render_map_object console_toplevel_request (Ctx GET None (nonempty path) false) s ;;
  Ok (report_success s true).

(** console.c 1460-1472 *)
Definition console_request_set (path : list cbor) (value : cvalue) (s : st) : res st :=
  let s := St (s_mem s) path (s_out s ++ [EText "response"]) (s_effs s) in
  s <- render_map_object console_toplevel_request (Ctx SET value (nonempty path) false) s ;;
  Ok (report_success s true).

(** console.c 1474-1481 *)
Definition console_request_flash (s : st) : st := report_success (effect s SaveConfig) true.
Definition console_request_bootloader (s : st) : st := effect (report_success s true) Reset.

(** console.c 1483-1558 *)
Definition console_process_request (request : cbor) (s : st) : res st :=
  let request := Some request in
  let s := emit (emit s (EText "type")) (EText "response") in
  let id := match map_find request "id" with Some (CInt z) => int_truncated z | _ => -1 end in
  let s := emit (emit s (EText "id")) (EInt id) in
  let method := map_find request "method" in
  match method with
  | None => Ok (report_success (report_parsing_error s "request has no 'method'") false)
  | Some _ =>
    if text_equals method "ping" then Ok (console_request_ping s) else
    if text_equals method "structure" then console_request_structure s else
    if text_equals method "flash" then Ok (console_request_flash s) else
    if text_equals method "bootloader" then Ok (console_request_bootloader s) else
    match map_find request "path" with
    | Some (CArray _ path) =>
      if text_equals method "get" then console_request_get path s else
      match map_find request "value" with
      | None => Ok (report_parsing_error s "invalid 'value' provided")
      | Some value => if text_equals method "set" then console_request_set path (Some value) s else Ok s
      end
    | _ => Ok (report_parsing_error s "no 'path' provided'")
    end
  end.

(** console.c 1560-1589: what is sent, if anything.  The response is encoded into
    16384 bytes; closing the container fails when it does not fit, and then nothing
    is sent.  The platform does not come back from Reset (stm32f4-discovery.c
    758-765, gd32f4_init.c; the hosted platform only returns). *)
Definition RESPONSE_SIZE : Z := 16384.
Definition console_process_request_raw (request : cbor) (m : mem) : res (mem * list eff * option enc) :=
  s <- console_process_request request (St m [] [] []) ;;
  let e := EMap (s_out s) in
  Ok (s_mem s, s_effs s, if enc_size e <=? RESPONSE_SIZE then Some e else None).

End CONSOLE.
