(** The built-in trigger simulator (src/sim.c). *)
Require Import ZArith List.
From Verif Require Import Res Word F32.
Import ListNotations.
Open Scope Z_scope.

(** sim.c 8-11: what the wheel does at one event: degrees to the next event, and the trigger. *)
Record wheel_event := WEvent { we_degrees : f32; we_trigger : Z }.

(** sim.c 17: [720.0f / (2 * N)], [N] an int. *)
Definition sim_dpt (n : Z) : f32 := fdiv (f_of_Z 720) (f_of_Z (2 * n)).

(** sim.c 13-36 test_wheel_Nminus1_next; the function's static variable is passed and returned.  [n] is the
    configured number of teeth, for which 2 * n is assumed to fit an int. *)
Definition test_wheel_next (n tooth : Z) : wheel_event * Z :=
  let ev := if tooth =? 1 then WEvent (sim_dpt n) 1
            else if tooth =? 36 then WEvent (fmul (f_of_Z 2) (sim_dpt n)) 0
            else WEvent (sim_dpt n) 0 in
  let tooth := tooth + 1 in
  (ev, if n * 2 - 1 <=? tooth then 0 else tooth).

(** The simulator's variables: sim.c 14 (tooth), 38 (test_trigger_rpm), 6 (the time of the callback while it
    is scheduled; the callback list is modelled in Callbacks.v). *)
Record sim := Sim { sm_tooth : Z; sm_rpm : Z; sm_time : option Z }.
Definition sim_init : sim := Sim 0 0 None.

(** What can happen: the speed is set at tick [now] (sim.c 60-65), or the callback runs (sim.c 40-58).
    The result is the trigger and the time handed to decoder_update_scheduling. *)
Inductive sim_act := SetRpm (rpm now : Z) | Fire.

Definition sim_step (n : Z) (m : sim) (a : sim_act) : res (sim * list (Z * Z)) :=
  match a with
  | SetRpm rpm now => Ok (Sim (sm_tooth m) rpm (Some (w32 (now + 10000))), [])
  | Fire =>
    match sm_time m with
    | None => Ok (m, [])
    | Some t =>
      if sm_rpm m =? 0 then Ok (Sim (sm_tooth m) (sm_rpm m) None, []) else
      let (ev, tooth) := test_wheel_next n (sm_tooth m) in
      delay <- time_from_rpm_diff (sm_rpm m) (we_degrees ev) ;;
      Ok (Sim tooth (sm_rpm m) (Some (w32 (t + delay))), [(we_trigger ev, t)])
    end
  end.

Fixpoint sim_run (n : Z) (m : sim) (acts : list sim_act) : res (sim * list (Z * Z)) :=
  match acts with
  | [] => Ok (m, [])
  | a :: acts => ' (m1, e1) <- sim_step n m a ;; ' (m2, e2) <- sim_run n m1 acts ;; Ok (m2, e1 ++ e2)
  end.
