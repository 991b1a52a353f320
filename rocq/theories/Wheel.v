(** A turning missing-tooth wheel, and when its speed is steady: the specification for C25.

    The wheel has [num] equally spaced slots, numbered on and on while it turns; the last slot of
    every turn (slot = num - 1 modulo num) carries no tooth.  [f k] is the tick at which slot [k]
    passes the sensor. *)
Require Import ZArith Reals List.
From Verif Require Import Word F32 F32Flocq Decoder.
Import ListNotations.
Open Scope Z_scope.

(** The slot of tooth number [m], counting teeth from the first of turn 0. *)
Definition slot (num m : Z) : Z := num * (m / (num - 1)) + m mod (num - 1).

(** The pulses of [n] teeth starting with tooth number [s]. *)
Definition tooth_time (num : Z) (f : Z -> Z) (m : Z) : Z := f (slot num m).
Definition wheel_teeth (num : Z) (f : Z -> Z) (s : Z) (n : nat) : list dev :=
  map (fun j => Trigger 0 (w32 (tooth_time num f (s + Z.of_nat j)))) (seq 0 n).

(** The number of the first tooth that ends a gap and has at least [r] teeth before it, when the first
    tooth seen is [s]. *)
Definition first_gap (num r s : Z) : Z := (num - 1) * ((s + r + num - 2) / (num - 1)).

(** Slot times between [a] and [b] ticks: at least 16 ticks, at most eight seconds, a speed of at
    least 3 RPM, and a spread well inside the tolerance [tol]. *)
Record band (dpt tol : R) (a b : Z) : Prop := {
  bd_range : 16 <= a <= b /\ b < 2 ^ 25;
  bd_rpm : (3 <= 2000000 / 3 * dpt / IZR b)%R;
  bd_tol : (8 <= IZR a * tol)%R;
  bd_spread : (IZR b <= IZR a * (1 + tol / 2 - / 131072))%R }.

(** The speed is steady from slot [k0] on: over any 2 turns the slot times stay within a band. *)
Definition steady (num : Z) (dpt tol : R) (f : Z -> Z) (k0 : Z) : Prop :=
  forall k, exists a b, band dpt tol a b /\ forall i, k0 <= i -> k - 2 * num <= i <= k + 1 -> a <= f (i + 1) - f i <= b.

(** Tooth [g] is the first one behind a gap that has at least [r] teeth before it since tooth [s]. *)
Definition is_first_gap (num r s g : Z) : Prop :=
  g mod (num - 1) = 0 /\ s + r <= g /\ forall m, s + r <= m -> m mod (num - 1) = 0 -> g <= m.

(** A decoder configured for the wheel that watches it from power-on: the configured tooth spacing and
    tolerance make sense, the wheel is steady from the first tooth seen, and that tooth comes late enough
    after power-on that the zeroed tooth history cannot be taken for teeth. *)
Record turning (c : dcfg) (f : Z -> Z) (s : Z) : Prop := {
  tn_required : 2 <= dc_required c <= dc_num c - 1 /\ dc_required c <= 36;
  tn_window : 0 <= dc_window c <= 36;
  tn_num : dc_num c < 2 ^ 32;
  tn_dpt : vf (dc_dpt c) /\ fin (dc_dpt c) /\ (/ 100 <= R_ (dc_dpt c) <= 359)%R;
  tn_turn : (IZR (dc_num c) * R_ (dc_dpt c) <= 360 + R_ (dc_dpt c) / 2)%R;
  tn_tol : vf (dc_max_change c) /\ fin (dc_max_change c) /\ (0 < R_ (dc_max_change c) <= 3 / 5)%R;
  tn_steady : steady (dc_num c) (R_ (dc_dpt c)) (R_ (dc_max_change c)) f (slot (dc_num c) s);
  tn_early : forall i, slot (dc_num c) s <= i <= slot (dc_num c) s + dc_required c + 1 ->
    2 * dc_required c * (f (i + 1) - f i) <= tooth_time (dc_num c) f s;
  tn_nowrap : tooth_time (dc_num c) f (s + dc_required c) < W }.
