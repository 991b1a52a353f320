(** Specification of the windowed average (C38). *)
Require Import ZArith Reals List.
From Verif Require Import Res Word F32 F32Flocq Sensors.
Import ListNotations.
Open Scope Z_scope.

(** One reading: crank angle, raw value, time. *)
Definition sample : Type := (f32 * f32 * Z)%type.
Definition s_angle (x : sample) : f32 := fst (fst x).
Definition s_raw (x : sample) : f32 := snd (fst x).
Definition s_time (x : sample) : Z := snd x.

Definition crank (a : f32) : Prop := vf a /\ fin a /\ (0 <= R_ a < 720)%R.

(** [x] degrees after the offset is in one of the capture windows: they repeat every c_total degrees. *)
Definition in_capture (c : scfg) (x : R) : Prop :=
  exists k, 0 <= k /\ k * c_total c < 720 /\ (IZR (k * c_total c) <= x < IZR (k * c_total c + c_capture c))%R.
Definition inside (c : scfg) (a : f32) : Prop :=
  exists cur, clamp_angle (fsub a (f_of_Z (c_offset c))) (f_of_Z 720) = Ok cur /\ in_capture c (R_ cur).
(** At least a window's width after the first reading of [g]. *)
Definition past (c : scfg) (g : list sample) (a : f32) : Prop :=
  exists x r since, g = x :: r /\ clamp_angle (fsub a (s_angle x)) (f_of_Z 720) = Ok since /\ (IZR (c_capture c) <= R_ since)%R.

(** [collected c h g]: after the readings [h], [g] are the readings of the window in progress. *)
Inductive collected (c : scfg) : list sample -> list sample -> Prop :=
| col_nil : collected c [] []
| col_out : forall h g x, collected c h g -> ~ inside c (s_angle x) -> collected c (h ++ [x]) []
| col_new : forall h g x, collected c h g -> inside c (s_angle x) -> g = [] \/ past c g (s_angle x) -> collected c (h ++ [x]) [x]
| col_more : forall h g x, collected c h g -> inside c (s_angle x) -> g <> [] -> ~ past c g (s_angle x) -> collected c (h ++ [x]) (g ++ [x]).

(** The mean of converted readings, in C float arithmetic. *)
Definition mean (c : scfg) (g : list sample) : f32 :=
  fdiv (fold_left fadd (map (fun x => sensor_convert_linear c (s_raw x)) g) f_zero) (f_of_Z (Z.of_nat (length g))).

(** A sequence of readings of one sensor. *)
Fixpoint readings (logf : f32 -> f32) (rate rpm : Z) (c : scfg) (s : sdat) (h : list sample) : res sdat :=
  match h with
  | [] => Ok s
  | x :: r => s <- sensor_convert (SEnv logf rate rpm (Ok (s_angle x))) c s (s_raw x) (s_time x) ;; readings logf rate rpm c s r
  end.
