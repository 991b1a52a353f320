(** src/table.c and src/table.h: lookup tables. *)
Require Import ZArith List Bool.
From Verif Require Import Res Word F32.
Import ListNotations.
Open Scope Z_scope.

(** src/table.h 6 MAX_AXIS_SIZE. *)
Definition MAX_AXIS_SIZE : Z := 24.

(** src/table.h 9-13 struct table_axis.  The name is not modelled here (it plays no
    role in lookups).  [ax_num] is an unsigned char; [ax_values] has 24 entries. *)
Record axis : Type := Axis { ax_num : Z; ax_values : list f32 }.

(** src/table.h 15-19 struct table_1d (title omitted). *)
Record table1 : Type := Table1 { t1_cols : axis; t1_data : list f32 }.

(** src/table.h 21-26 struct table_2d (title omitted); data[row][col]. *)
Record table2 : Type := Table2 { t2_rows : axis; t2_cols : axis; t2_data : list (list f32) }.

(** src/table.c 14-20, the search loop.  [middle] is always x1 + len / 2 at the loop
    head, so it is not a separate variable.  [fuel] bounds the iterations; running
    out of it is reported (and proved impossible). *)
Fixpoint find_cell_loop (fuel : nat) (values : list f32) (value : f32) (x1 len : Z) : res Z :=
  if 1 <? len then
    match fuel with
    | O => Err Diverges
    | S fuel' =>
        let middle := x1 + len / 2 in
        v <- get values middle ;;
        let x1' := if fge value v then middle else x1 in
        find_cell_loop fuel' values value x1' ((len + 1) / 2)
    end
  else Ok x1.

(** src/table.c 5-22 axis_find_cell_lower.  Asserts are skipped under NDEBUG. *)
Definition axis_find_cell_lower (ndebug : bool) (a : axis) (value : f32) : res Z :=
  _ <- (if ndebug then Ok tt
   else _ <- c_assert ndebug (0 <? ax_num a) ;;
        v0 <- get (ax_values a) 0 ;;
        _ <- c_assert ndebug (fge value v0) ;;
        vn <- get (ax_values a) (ax_num a - 1) ;;
        c_assert ndebug (fle value vn)) ;;
  find_cell_loop (Z.to_nat (ax_num a)) (ax_values a) value 0 (ax_num a).

(** src/table.c 27-35 (and 51-66): clamping a lookup value to the axis. *)
Definition clamp_to_axis (a : axis) (val : f32) : res f32 :=
  v0 <- get (ax_values a) 0 ;;
  let val1 := if flt val v0 then v0 else val in
  vn <- get (ax_values a) (ax_num a - 1) ;;
  Ok (if fgt val1 vn then vn else val1).

(** src/table.c 24-45 interpolate_table_oneaxis. *)
Definition interpolate_table_oneaxis (ndebug : bool) (t : table1) (val0 : f32) : res f32 :=
  let a := t1_cols t in
  val <- clamp_to_axis a val0 ;;
  index <- axis_find_cell_lower ndebug a val ;;
  x1 <- get (ax_values a) index ;;
  x2 <- get (ax_values a) (index + 1) ;;
  let partial := fdiv (fsub val x1) (fsub x2 x1) in
  first_val <- get (t1_data t) index ;;
  second_val <- get (t1_data t) (index + 1) ;;
  Ok (fadd (fmul (fsub second_val first_val) partial) first_val).

(** t->data[r][c] with both indices checked (src/table.c 76-79). *)
Definition get2 (d : list (list f32)) (r c : Z) : res f32 :=
  row <- get d r ;; get row c.

(** src/table.c 47-82 interpolate_table_twoaxis. *)
Definition interpolate_table_twoaxis (ndebug : bool) (t : table2) (x0 y0 : f32) : res f32 :=
  let xa := t2_cols t in
  let ya := t2_rows t in
  x <- clamp_to_axis xa x0 ;;
  y <- clamp_to_axis ya y0 ;;
  xi <- axis_find_cell_lower ndebug xa x ;;
  yi <- axis_find_cell_lower ndebug ya y ;;
  x1 <- get (ax_values xa) xi ;;
  x2 <- get (ax_values xa) (xi + 1) ;;
  y1 <- get (ax_values ya) yi ;;
  y2 <- get (ax_values ya) (yi + 1) ;;
  d11 <- get2 (t2_data t) yi xi ;;
  d12 <- get2 (t2_data t) yi (xi + 1) ;;
  d21 <- get2 (t2_data t) (yi + 1) xi ;;
  d22 <- get2 (t2_data t) (yi + 1) (xi + 1) ;;
  let wx1 := fdiv (fsub x2 x) (fsub x2 x1) in
  let wx2 := fdiv (fsub x x1) (fsub x2 x1) in
  let xy1 := fadd (fmul wx1 d11) (fmul wx2 d12) in
  let xy2 := fadd (fmul wx1 d21) (fmul wx2 d22) in
  let wy1 := fdiv (fsub y2 y) (fsub y2 y1) in
  let wy2 := fdiv (fsub y y1) (fsub y2 y1) in
  Ok (fadd (fmul wy1 xy1) (fmul wy2 xy2)).

(** src/table.c 84-94 table_valid_axis: the loop [for i in 0 .. num-2]. *)
Fixpoint valid_axis_loop (n : nat) (values : list f32) (i : Z) : res bool :=
  match n with
  | O => Ok true
  | S n' =>
      a <- get values i ;;
      b <- get values (i + 1) ;;
      if fgt a b then Ok false else valid_axis_loop n' values (i + 1)
  end.
Definition table_valid_axis (a : axis) : res bool :=
  if MAX_AXIS_SIZE <? ax_num a then Ok false
  else valid_axis_loop (Z.to_nat (ax_num a - 1)) (ax_values a) 0.

(** src/table.c 96-102. *)
Definition table_valid_oneaxis (t : table1) : res bool := table_valid_axis (t1_cols t).

(** src/table.c 104-113. *)
Definition table_valid_twoaxis (t : table2) : res bool :=
  c <- table_valid_axis (t2_cols t) ;;
  if c then table_valid_axis (t2_rows t) else Ok false.
