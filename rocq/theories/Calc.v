(** src/calculations.c: ignition, fuelling and cut calculations. *)
Require Import ZArith List Bool.
From Verif Require Import Res Word F32 Table.
Import ListNotations.
Open Scope Z_scope.

(** src/calculations.h 7-24 struct fueling_config. *)
Record fueling : Type := Fueling {
  fu_cc_min : f32; fu_cyl : f32; fu_stoich : f32; fu_inj : Z; fu_pump : Z;
  fu_crank_rpm : f32; fu_crank_temp : f32; fu_crank_amt : f32;
  fu_rho_air : f32; fu_rho_fuel : f32 }.

(** src/calculations.h 26-30 dwell_type. *)
Inductive dwell_type : Type := FIXED_DUTY | FIXED_TIME | BRV.

(** The part of struct config (src/config.h 16-52) that calculations.c reads; the tables are pointers
    that may be NULL. *)
Record ccfg : Type := CCfg {
  k_timing : option table2; k_ve : option table2; k_lambda : option table2;
  k_idt : option table1; k_pwc : option table1; k_ete : option table2; k_dwell : option table1;
  k_tip_amt : option table2; k_tip_dur : option table1;
  k_fuel : fueling; k_dwell_type : dwell_type; k_dwell_us : f32; k_min_fire : Z;
  k_overboost : f32; k_rpm_stop : Z; k_rpm_start : Z }.

(** The sensor values read (src/sensors.h 8-20); [s_tpsrate] is sensors[SENSOR_TPS].derivative. *)
Record sens : Type := Sens {
  s_map : f32; s_iat : f32; s_clt : f32; s_brv : f32; s_tps : f32; s_tpsrate : f32; s_frt : f32; s_ego : f32 }.

(** src/calculations.h 39-58 struct calculated_values. *)
Record cvals : Type := Cvals {
  cv_advance : f32; cv_dwell : Z; cv_rpm_cut : Z; cv_boost_cut : Z; cv_over_cut : Z;
  cv_fueling : Z; cv_tipin : f32; cv_airmass : f32; cv_fuelvol : f32;
  cv_idt : f32; cv_pwc : f32; cv_lambda : f32; cv_ve : f32; cv_ete : f32 }.
Definition set_cuts (v : cvals) (r b o : Z) : cvals :=
  Cvals (cv_advance v) (cv_dwell v) r b o (cv_fueling v) (cv_tipin v) (cv_airmass v) (cv_fuelvol v)
        (cv_idt v) (cv_pwc v) (cv_lambda v) (cv_ve v) (cv_ete v).
Definition b2z (b : bool) : Z := if b then 1 else 0.

(** src/calculations.c 8-16 *)
Definition fuel_overduty (k : ccfg) (rpm : Z) (v : cvals) : res (bool * cvals) :=
  t <- time_from_rpm_diff rpm (f_of_Z 720) ;;
  max_pw <- (if fu_inj (k_fuel k) =? 0 then Err DivByZero else Ok (t / fu_inj (k_fuel k))) ;;
  pw <- time_from_us (cv_fueling v) ;;
  let cut := max_pw <=? pw in
  Ok (cut, set_cuts v (cv_rpm_cut v) (cv_boost_cut v) (b2z cut)).

(** src/calculations.c 18-26 *)
Definition rpm_cut (k : ccfg) (rpm : Z) (v : cvals) : bool * cvals :=
  let c := if k_rpm_stop k <=? rpm then 1 else cv_rpm_cut v in
  let c := if rpm <? k_rpm_start k then 0 else c in
  (negb (c =? 0), set_cuts v c (cv_boost_cut v) (cv_over_cut v)).

(** src/calculations.c 28-32 *)
Definition boost_cut (k : ccfg) (s : sens) (v : cvals) : bool * cvals :=
  let cut := fgt (s_map s) (k_overboost k) in
  (cut, set_cuts v (cv_rpm_cut v) (b2z cut) (cv_over_cut v)).

(** src/calculations.c 34-36, with C's short-circuit evaluation; 38-40 fuel_cut is the same. *)
Definition ignition_cut (k : ccfg) (rpm : Z) (s : sens) (v : cvals) : res (bool * cvals) :=
  let '(r, v) := rpm_cut k rpm v in
  if r : bool then Ok (true, v) else
  ' (o, v) <- fuel_overduty k rpm v ;;
  if o : bool then Ok (true, v) else Ok (boost_cut k s v).
Definition fuel_cut := ignition_cut.

Definition deref {A} (p : option A) : res A := match p with Some a => Ok a | None => Err NullDeref end.

(** src/calculations.c 42-59; a dwell value outside the enum leaves dwell_us alone and is not modelled. *)
Definition calculate_ignition (nd : bool) (k : ccfg) (rpm : Z) (s : sens) (v : cvals) : res cvals :=
  t <- deref (k_timing k) ;;
  adv <- interpolate_table_twoaxis nd t (f_of_Z rpm) (s_map s) ;;
  dw <- match k_dwell_type k with
        | FIXED_DUTY => x <- time_from_rpm_diff rpm (f_of_Z 45) ;; Ok (x / (TICKRATE / 1000000))
        | FIXED_TIME => f_to_u32 (k_dwell_us k)
        | BRV => t <- deref (k_dwell k) ;; x <- interpolate_table_oneaxis nd t (s_brv s) ;; f_to_u32 (fmul (f_of_Z 1000) x)
        end ;;
  Ok (Cvals adv dw (cv_rpm_cut v) (cv_boost_cut v) (cv_over_cut v) (cv_fueling v) (cv_tipin v) (cv_airmass v) (cv_fuelvol v)
        (cv_idt v) (cv_pwc v) (cv_lambda v) (cv_ve v) (cv_ete v)).

(** src/calculations.c 61-66 *)
Definition kelvin_offset : f32 := flit 27315 100.
Definition air_density (u : fueling) (iat : f32) : f32 :=
  fmul (fu_rho_air u) (fdiv kelvin_offset (fadd iat kelvin_offset)).

(** src/calculations.c 68-73 *)
Definition fuel_density (u : fueling) (frt : f32) : f32 :=
  fsub (fu_rho_fuel u) (fdiv (fmul (fsub frt (f_of_Z 15)) (f_of_Z 950)) (f_of_Z 1000000)).

(** src/calculations.c 75-85 *)
Definition calculate_airmass (u : fueling) (ve map iat : f32) : f32 :=
  fmul (fmul (fmul (fdiv ve (f_of_Z 100)) (fdiv map (f_of_Z 100))) (fu_cyl u)) (air_density u iat).

(** src/calculations.c 87-94 *)
Definition calculate_fuel_volume (u : fueling) (airmass frt : f32) : f32 :=
  fdiv (fdiv airmass (fu_stoich u)) (fuel_density u frt).

(** The static variable of calculate_tipin_enrichment (src/calculations.c 98-103). *)
Record tipin : Type := Tipin { tp_time : Z; tp_length : Z; tp_amount : f32; tp_active : bool }.
Definition tipin_init : tipin := Tipin 0 0 f_zero false.

(** src/calculations.c 113-126, given the table's answers.  The duration table is only read when a
    new event starts. *)
Definition tipin_update (now : Z) (amount : f32) (duration : res f32) (c : tipin) : res tipin :=
  let active := tp_active c && time_in_range now (tp_time c) (w32 (tp_time c + tp_length c)) in
  if fgt amount (tp_amount c) || negb active then
    d <- duration ;; us <- f_to_u32 (fmul d (f_of_Z 1000)) ;; len <- time_from_us us ;;
    Ok (Tipin now len amount true)
  else Ok (Tipin (tp_time c) (tp_length c) (tp_amount c) active).

(** src/calculations.c 96-129; current_time() is taken to be the same at its two calls.  The [int rpm]
    parameter: a conversion from uint32_t (two's complement). *)
Definition calculate_tipin_enrichment (nd : bool) (k : ccfg) (now : Z) (tps tpsrate : f32) (rpm : Z) (c : tipin) : res (f32 * tipin) :=
  match k_tip_amt k, k_tip_dur k with
  | Some ta, Some td =>
      amount <- interpolate_table_twoaxis nd ta tpsrate tps ;;
      c <- tipin_update now amount (interpolate_table_oneaxis nd td (f_of_Z (s32 rpm))) c ;;
      Ok (tp_amount c, c)
  | _, _ => Ok (f_zero, c)
  end.

(** An optional table: the looked up value or a default (src/calculations.c 147-173, 196-201). *)
Definition table2_or (nd : bool) (t : option table2) (x y dflt : f32) : res f32 :=
  match t with Some t => interpolate_table_twoaxis nd t x y | None => Ok dflt end.
Definition table1_or (nd : bool) (t : option table1) (x dflt : f32) : res f32 :=
  match t with Some t => interpolate_table_oneaxis nd t x | None => Ok dflt end.

(** src/calculations.c 188-194 *)
Definition raw_pulse_us (u : fueling) (fuelvol tip : f32) : f32 :=
  fdiv (fmul (fdiv (fadd fuelvol (fdiv tip (f_of_Z 1000))) (fu_cc_min u)) (f_of_Z 60000000)) (f_of_Z (fu_inj u)).

(** src/calculations.c 208-209 *)
Definition total_pulse_us (raw ete pwc idt : f32) : f32 :=
  fadd (fadd (fmul raw ete) (fmul pwc (f_of_Z 1000))) (fmul idt (f_of_Z 1000)).

(** src/calculations.c 131-210 *)
Definition calculate_fueling (nd : bool) (k : ccfg) (now rpm : Z) (s : sens) (v : cvals) (c : tipin) : res (cvals * tipin) :=
  let u := k_fuel k in
  ve <- table2_or nd (k_ve k) (f_of_Z rpm) (s_map s) (f_of_Z 100) ;;
  lambda <- table2_or nd (k_lambda k) (f_of_Z rpm) (s_map s) (f_of_Z 1) ;;
  idt <- table1_or nd (k_idt k) (s_brv s) (f_of_Z 1) ;;
  ete <- table2_or nd (k_ete k) (s_clt s) (s_map s) (f_of_Z 1) ;;
  let ete := if flt (f_of_Z rpm) (fu_crank_rpm u) && flt (s_clt s) (fu_crank_temp u) then fu_crank_amt u else ete in
  ' (tip, c) <- calculate_tipin_enrichment nd k now (s_tps s) (s_tpsrate s) rpm c ;;
  let airmass := calculate_airmass u ve (s_map s) (s_iat s) in
  let fuelvol := fdiv (calculate_fuel_volume u airmass (s_frt s)) lambda in
  let raw := raw_pulse_us u fuelvol tip in
  pwc <- table1_or nd (k_pwc k) (fdiv raw (f_of_Z 1000)) f_zero ;;
  us <- f_to_u32 (total_pulse_us raw ete pwc idt) ;;
  Ok (Cvals (cv_advance v) (cv_dwell v) (cv_rpm_cut v) (cv_boost_cut v) (cv_over_cut v) us tip airmass fuelvol idt pwc lambda ve ete, c).

(** Zero-initialised calculated_values. *)
Definition cvals_init : cvals := Cvals f_zero 0 0 0 0 0 f_zero f_zero f_zero f_zero f_zero f_zero f_zero f_zero.
