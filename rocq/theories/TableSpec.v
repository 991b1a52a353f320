(** Vocabulary for the table properties, independent of how lookups are computed. *)
Require Import ZArith Reals List Bool.
Require Import Coq.Floats.SpecFloat.
From Flocq Require Import Core.
From Verif Require Import Res Word F32 F32Flocq Table.
Open Scope Z_scope.

(** The i-th element of a C array (0 outside; only used inside bounds). *)
Definition elt (l : list f32) (i : Z) : f32 := nth (Z.to_nat i) l f_zero.
Definition elt2 (d : list (list f32)) (r c : Z) : f32 := nth (Z.to_nat c) (nth (Z.to_nat r) d nil) f_zero.

(** Storage shape of a C table: arrays of 24 (24x24) floats, all well-formed. *)
Definition wf_axis (a : axis) : Prop :=
  length (ax_values a) = 24%nat /\ Forall vf (ax_values a) /\ 0 <= ax_num a <= 255.
Definition wf_table1 (t : table1) : Prop :=
  wf_axis (t1_cols t) /\ length (t1_data t) = 24%nat /\ Forall vf (t1_data t).
Definition wf_table2 (t : table2) : Prop :=
  wf_axis (t2_cols t) /\ wf_axis (t2_rows t) /\ length (t2_data t) = 24%nat /\
  Forall (fun r => length r = 24%nat /\ Forall vf r) (t2_data t).

(** A finite number of ordinary magnitude (no intermediate can overflow). *)
Definition sane (x : f32) : Prop := vf x /\ fin x /\ (Rabs (R_ x) <= bpow radix2 100)%R.

(** The used part of the axis is strictly ascending and sane. *)
Definition ascending (a : axis) : Prop :=
  (forall i, 0 <= i < ax_num a -> sane (elt (ax_values a) i)) /\
  (forall i, 0 <= i -> i + 1 < ax_num a -> (R_ (elt (ax_values a) i) < R_ (elt (ax_values a) (i + 1)))%R).

Definition not_nan (x : f32) : Prop := x <> S754_nan.

(** A lookup value that is at breakpoint i, or beyond the end of the axis it ends. *)
Definition at_breakpoint (a : axis) (val : f32) (i : Z) : Prop :=
  feq val (elt (ax_values a) i) = true \/
  (i = 0 /\ flt val (elt (ax_values a) 0) = true) \/
  (i = ax_num a - 1 /\ fgt val (elt (ax_values a) (ax_num a - 1)) = true).

(** A lookup value inside the i-th cell of the axis. *)
Definition in_cell (a : axis) (val : f32) (i : Z) : Prop :=
  0 <= i /\ i + 1 < ax_num a /\
  fge val (elt (ax_values a) i) = true /\ flt val (elt (ax_values a) (i + 1)) = true.

(** What lies in storage just past the axis is a number other than the last breakpoint. *)
Definition good_tail (a : axis) : Prop :=
  sane (elt (ax_values a) (ax_num a)) /\
  feq (elt (ax_values a) (ax_num a)) (elt (ax_values a) (ax_num a - 1)) = false.
