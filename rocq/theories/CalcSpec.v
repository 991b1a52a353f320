(** Specification vocabulary for C31, C33 and C34. *)
Require Import ZArith Reals List Bool.
From Verif Require Import Res Word F32 F32Flocq Table TableSpec Interval Calc.
Import ListNotations.
Open Scope Z_scope.

(** ** Histories of calculations.c calls
    The configuration, the engine speed and the sensor readings may differ at every call. *)
Inductive cact : Type :=
| ActCut (k : ccfg) (rpm : Z) (s : sens)               (* ignition_cut() or fuel_cut() *)
| ActIgn (k : ccfg) (rpm : Z) (s : sens)               (* calculate_ignition() *)
| ActFuel (k : ccfg) (now rpm : Z) (s : sens).         (* calculate_fueling() *)

Definition cstep (nd : bool) (v : cvals) (c : tipin) (a : cact) : res (cvals * tipin) :=
  match a with
  | ActCut k rpm s => ' (_, v) <- ignition_cut k rpm s v ;; Ok (v, c)
  | ActIgn k rpm s => v <- calculate_ignition nd k rpm s v ;; Ok (v, c)
  | ActFuel k now rpm s => calculate_fueling nd k now rpm s v c
  end.
Fixpoint crun (nd : bool) (v : cvals) (c : tipin) (l : list cact) : res (cvals * tipin) :=
  match l with
  | [] => Ok (v, c)
  | a :: l => ' (v, c) <- cstep nd v c a ;; crun nd v c l
  end.

(** The engine speeds the limiter saw, with the limits in force at the time. *)
Record rpm_sample : Type := RpmSample { rs_rpm : Z; rs_stop : Z; rs_start : Z }.
Fixpoint rpm_samples (l : list cact) : list rpm_sample :=
  match l with
  | [] => []
  | ActCut k rpm _ :: l => RpmSample rpm (k_rpm_stop k) (k_rpm_start k) :: rpm_samples l
  | _ :: l => rpm_samples l
  end.

(** The speed reached the stop limit at some sample and has not been below the start limit then or since. *)
Definition rev_limited (h : list rpm_sample) : Prop :=
  exists h1 x h2, h = h1 ++ x :: h2 /\ rs_stop x <= rs_rpm x /\ Forall (fun y => rs_start y <= rs_rpm y) (x :: h2).

(** ** Tip-in: samples at true (unbounded) instants *)
Record tip_sample : Type := TipSample { ts_time : Z; ts_amount : f32; ts_length : Z }.
(** An enrichment: when it started, for how long, and how much. *)
Record enrichment : Type := Enrich { e_start : Z; e_length : Z; e_amount : f32 }.

(** What may be in effect after a sample: the enrichment already in effect if its time is not over and
    the table does not ask for more; otherwise what the table asks for now. *)
Inductive tip_next : option enrichment -> tip_sample -> enrichment -> Prop :=
| tip_first s : tip_next None s (Enrich (ts_time s) (ts_length s) (ts_amount s))
| tip_keep e s : ts_time s <= e_start e + e_length e -> fgt (ts_amount s) (e_amount e) = false -> tip_next (Some e) s e
| tip_start e s : e_start e + e_length e < ts_time s \/ fgt (ts_amount s) (e_amount e) = true ->
    tip_next (Some e) s (Enrich (ts_time s) (ts_length s) (ts_amount s)).
Inductive tip_trace : option enrichment -> list tip_sample -> list enrichment -> Prop :=
| tip_nil e : tip_trace e [] []
| tip_cons e s e' ss es : tip_next e s e' -> tip_trace (Some e') ss es -> tip_trace e (s :: ss) (e' :: es).

(** A call of the tip-in computation: when, with which tables, throttle and speed. *)
Record tip_call : Type := TipCall { tc_cfg : ccfg; tc_now : Z; tc_tps : f32; tc_rate : f32; tc_rpm : Z }.
Fixpoint tip_run (nd : bool) (c : tipin) (l : list tip_call) : res (list f32 * tipin) :=
  match l with
  | [] => Ok ([], c)
  | s :: l =>
      ' (r, c) <- calculate_tipin_enrichment nd (tc_cfg s) (tc_now s) (tc_tps s) (tc_rate s) (tc_rpm s) c ;;
      ' (rs, c) <- tip_run nd c l ;; Ok (r :: rs, c)
  end.
(** What the tables say at a call: the amount for the throttle rate and position, and the duration (in
    milliseconds) for the speed, turned into timer ticks. *)
Definition tip_reads (nd : bool) (s : tip_call) (u : tip_sample) : Prop :=
  exists ta td d us, k_tip_amt (tc_cfg s) = Some ta /\ k_tip_dur (tc_cfg s) = Some td /\
    interpolate_table_twoaxis nd ta (tc_rate s) (tc_tps s) = Ok (ts_amount u) /\
    interpolate_table_oneaxis nd td (f_of_Z (s32 (tc_rpm s))) = Ok d /\
    f_to_u32 (fmul d (f_of_Z 1000)) = Ok us /\ time_from_us us = Ok (ts_length u) /\
    tc_now s = ts_time u mod 2 ^ 32.
(** Calls in order of time, at most 2^31 ticks (9 minutes) after one another, durations below that. *)
Fixpoint tip_paced (t : Z) (l : list tip_sample) : Prop :=
  match l with
  | [] => True
  | u :: l => t <= ts_time u /\ ts_time u < t + 2 ^ 31 /\ 0 <= ts_length u < 2 ^ 31 /\ tip_paced (ts_time u) l
  end.

(** ** Engine configuration and readings in range (C34) *)
Definition opt_usable1 (t : option table1) (lo hi : R) : Prop := match t with Some t => usable1 t lo hi | None => True end.
Definition opt_usable2 (t : option table2) (lo hi : R) : Prop := match t with Some t => usable2 t lo hi | None => True end.
Definition number (x : f32) : Prop := vf x /\ fin x.

Record cfg_in_range (k : ccfg) : Prop := {
  in_ve : opt_usable2 (k_ve k) 0 256;                  (* percent *)
  in_lambda : opt_usable2 (k_lambda k) (1 / 2) 8;
  in_idt : opt_usable1 (k_idt k) 0 64;                 (* milliseconds *)
  in_pwc : opt_usable1 (k_pwc k) 0 64;                 (* milliseconds *)
  in_ete : opt_usable2 (k_ete k) 0 4;
  in_tip_amt : opt_usable2 (k_tip_amt k) 0 1000;       (* mm^3 *)
  in_tip_dur : opt_usable1 (k_tip_dur k) 0 10000;      (* milliseconds *)
  in_timing : exists t lo hi, k_timing k = Some t /\ usable2 t lo hi;
  in_dwell_t : k_dwell_type k = BRV -> exists t, k_dwell k = Some t /\ usable1 t 0 100;  (* milliseconds *)
  in_dwell_us : k_dwell_type k = FIXED_TIME -> iv (k_dwell_us k) 0 1000000;
  in_cyl : iv (fu_cyl (k_fuel k)) 0 4096;              (* cc *)
  in_air : iv (fu_rho_air (k_fuel k)) 0 (1 / 512);     (* g/cc *)
  in_stoich : iv (fu_stoich (k_fuel k)) 4 64;
  in_rho : iv (fu_rho_fuel (k_fuel k)) (1 / 2) 2;      (* g/cc *)
  in_ccmin : iv (fu_cc_min (k_fuel k)) 128 1000000;
  in_inj : 1 <= fu_inj (k_fuel k) <= 16;
  in_crank : iv (fu_crank_amt (k_fuel k)) 0 4 }.
Record sens_in_range (s : sens) : Prop := {
  in_map : iv (s_map s) 0 512;                         (* kPa *)
  in_iat : iv (s_iat s) (-100) 1000;                   (* Celsius *)
  in_frt : iv (s_frt s) (-100) 200;                    (* Celsius *)
  in_clt : number (s_clt s); in_brv : number (s_brv s); in_tps : number (s_tps s); in_rate : number (s_tpsrate s) }.
Definition act_in_range (a : cact) : Prop :=
  match a with
  | ActCut k rpm s | ActIgn k rpm s => cfg_in_range k /\ sens_in_range s /\ 1 <= rpm <= 2 ^ 24
  | ActFuel k now rpm s => cfg_in_range k /\ sens_in_range s /\ 0 <= rpm < 2 ^ 32
  end.
