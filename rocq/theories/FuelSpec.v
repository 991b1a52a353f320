(** The injection as the operator understands it: the specification for C79. *)
Require Import ZArith Reals List Bool.
From Verif Require Import Res Word F32 F32Flocq Table Calc CalcSpec.
Open Scope R_scope.

(** Grams of air in a cylinder: volumetric efficiency (percent) of its volume, at the
    manifold pressure (kPa, of 100) and at the density air has at its temperature (C). *)
Definition air_grams (u : fueling) (ve map iat : R) : R :=
  R_ (fu_cyl u) * (ve / 100) * (map / 100) * R_ (fu_rho_air u) * (27315 / 100 / (27315 / 100 + iat)).

(** Fuel for it (cm^3): by the stoichiometric ratio, the commanded lambda and the density
    of fuel at its temperature, which falls by 950 millionths of a g/cm^3 per K above 15 C. *)
Definition fuel_cc (u : fueling) (air frt lambda : R) : R :=
  air / (R_ (fu_stoich u) * lambda) / (R_ (fu_rho_fuel u) - 950 / 1000000 * (frt - 15)).

(** The time (us) the injector needs for it and for [tip] mm^3 of enrichment, in each of
    the injections of a cycle. *)
Definition open_us (u : fueling) (cc tip : R) : R :=
  (cc + tip / 1000) * (60 * 1000000) / R_ (fu_cc_min u) / IZR (fu_inj u).

(** What an optional table says. *)
Definition reads2 (nd : bool) (t : option table2) (x y : f32) (dflt : Z) (v : f32) : Prop :=
  match t with Some t => interpolate_table_twoaxis nd t x y = Ok v | None => v = f_of_Z dflt end.
Definition reads1 (nd : bool) (t : option table1) (x : f32) (dflt : Z) (v : f32) : Prop :=
  match t with Some t => interpolate_table_oneaxis nd t x = Ok v | None => v = f_of_Z dflt end.

(** Below the cranking speed and temperature. *)
Definition cranking (k : ccfg) (rpm : Z) (s : sens) : Prop :=
  flt (f_of_Z rpm) (fu_crank_rpm (k_fuel k)) = true /\ flt (s_clt s) (fu_crank_temp (k_fuel k)) = true.

(** To five parts in a million. *)
Definition close (f : f32) (x : R) : Prop := fin f /\ Rabs (R_ f - x) <= x * (5 / 1000000).

(** An engine that breathes: at least 5 % efficiency, 5 kPa, 50 cm^3, and air. *)
Definition breathing (k : ccfg) (s : sens) (ve : R) : Prop :=
  5 <= ve /\ 5 <= R_ (s_map s) /\ 50 <= R_ (fu_cyl (k_fuel k)) /\ / 4096 <= R_ (fu_rho_air (k_fuel k)).
