(** A turning wheel with equally spaced teeth and a cam pulse every [num] teeth: the specification for C26.

    Teeth are numbered on and on while the wheel turns; [f m] is the tick at which tooth [m] passes the
    sensor.  Every tooth whose number is a multiple of [num] is followed, before the next tooth, by a
    cam pulse at [cam m]. *)
Require Import ZArith Reals List.
From Verif Require Import Word F32 F32Flocq Decoder DecoderEven.
Import ListNotations.
Open Scope Z_scope.

Definition tooth_events (num : Z) (f cam : Z -> Z) (m : Z) : list dev :=
  Trigger 0 (w32 (f m)) :: if m mod num =? 0 then [Trigger 1 (w32 (cam m))] else [].
(** [n] teeth from number [s] on, each with its cam pulse if it has one. *)
Definition even_events (num : Z) (f cam : Z -> Z) (s : Z) (n : nat) : list dev :=
  flat_map (fun j => tooth_events num f cam (s + Z.of_nat j)) (seq 0 n).

(** Tooth [g] is the first one with a cam pulse by which [r] teeth have been seen, starting at [s]. *)
Definition is_first_cam (num r s g : Z) : Prop :=
  g mod num = 0 /\ s + r - 1 <= g /\ forall m, s + r - 1 <= m -> m mod num = 0 -> g <= m.

(** Tooth periods between [a] and [b] ticks: faster than the minimum RPM, slower than 524288 RPM, no tooth
    later than half a period after it is due, and a spread well inside the tolerance [tol]. *)
Record eband (dpt tol : R) (min_rpm a b : Z) : Prop := {
  eb_range : 5 <= a <= b /\ b <= 2 ^ 26;
  eb_max : (true_rpm dpt a <= 524288)%R;
  eb_min : (IZR min_rpm + 3 <= true_rpm dpt b)%R;
  eb_tol : (true_rpm dpt a + 8 <= true_rpm dpt b * (1 + tol))%R;
  eb_late : (IZR b + 2 <= 149 / 100 * IZR a)%R }.

(** A decoder configured for the wheel, and a wheel steady over the averaging window. *)
Record even_turning (c : dcfg) (f : Z -> Z) (s : Z) : Prop := {
  et_window : dc_window c < dc_required c <= 36;
  et_num : 2 <= dc_num c < 2 ^ 32 - 1;
  et_measurable : measurable c;
  et_dpt : (R_ (dc_dpt c) <= 719)%R;
  et_steady : forall k, exists a b, eband (R_ (dc_dpt c)) (R_ (dc_max_change c)) (dc_min_rpm c) a b /\
    forall i, s <= i -> k - dc_window c <= i <= k -> a <= f (i + 1) - f i <= b }.
