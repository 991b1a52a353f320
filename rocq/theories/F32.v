(** C [float] as IEEE-754 binary32 (bit exact, round to nearest even), built on the
    standard library's axiom-free [SpecFloat]; float helpers of util.c. *)
Require Import ZArith List Bool.
Require Import Coq.Floats.SpecFloat.
From Verif Require Import Res Word.
Open Scope Z_scope.

Definition f32 : Type := spec_float.
Definition fprec : Z := 24.
Definition femax : Z := 128.

(** C operators on float operands (FLT_EVAL_METHOD 0, no contraction: the project
    compiles with -std=c11). *)
Definition fadd (x y : f32) : f32 := SFadd fprec femax x y.
Definition fsub (x y : f32) : f32 := SFsub fprec femax x y.
Definition fmul (x y : f32) : f32 := SFmul fprec femax x y.
Definition fdiv (x y : f32) : f32 := SFdiv fprec femax x y.
Definition fneg (x : f32) : f32 := SFopp x.
Definition flt (x y : f32) : bool := SFltb x y.
Definition fle (x y : f32) : bool := SFleb x y.
Definition fgt (x y : f32) : bool := SFltb y x.
Definition fge (x y : f32) : bool := SFleb y x.
Definition feq (x y : f32) : bool := SFeqb x y.

(** Conversion of an integer (int or uint32_t) to float: round to nearest even. *)
Definition f_of_Z (z : Z) : f32 := binary_normalize fprec femax z 0 false.

(** A decimal literal n/d, correctly rounded (n and d below 2^24). *)
Definition flit (n d : Z) : f32 := fdiv (f_of_Z n) (f_of_Z d).

Definition f_zero : f32 := S754_zero false.
Definition f_nan : f32 := S754_nan.

(** Truncation toward zero of a finite float; None for NaN and infinities. *)
Definition f_trunc (x : f32) : option Z :=
  match x with
  | S754_zero _ => Some 0
  | S754_finite s m e =>
      let a := if 0 <=? e then Zpos m * 2 ^ e else Zpos m / 2 ^ (- e) in
      Some (if s then - a else a)
  | S754_infinity _ | S754_nan => None
  end.

(** Float to integer conversion, C11 6.3.1.4: undefined unless the truncated value
    is representable. *)
Definition f_to_range (lo hi : Z) (x : f32) : res Z :=
  match f_trunc x with
  | Some z => if (lo <=? z) && (z <=? hi) then Ok z else Err FloatToInt
  | None => Err FloatToInt
  end.
Definition f_to_u32 : f32 -> res Z := f_to_range 0 (W - 1).
Definition f_to_int : f32 -> res Z := f_to_range (- HALF) (HALF - 1).
Definition f_to_u16 : f32 -> res Z := f_to_range 0 65535.

(** targets/stm32f4.mk 13, gd32f4.mk 80, hosted.mk 4, test.mk 5: TICKRATE=4000000
    on every target. *)
Definition TICKRATE : Z := 4000000.

(** src/util.c 5 tick_degree_rpm_ratio = TICKRATE / 6.0f. *)
Definition tick_degree_rpm_ratio : f32 := fdiv (f_of_Z TICKRATE) (f_of_Z 6).

(** src/util.c 7-11 rpm_from_time_diff. *)
Definition rpm_from_time_diff (t1 : Z) (deg : f32) : res Z :=
  let ticks_per_degree := fdiv (f_of_Z t1) deg in
  f_to_u32 (fdiv tick_degree_rpm_ratio ticks_per_degree).

(** src/util.c 13-16 time_from_rpm_diff. *)
Definition time_from_rpm_diff (rpm : Z) (deg : f32) : res Z :=
  let ticks_per_degree := fdiv tick_degree_rpm_ratio (f_of_Z rpm) in
  f_to_u32 (fmul ticks_per_degree deg).

(** src/util.c 18-21 degrees_from_time_diff. *)
Definition degrees_from_time_diff (t rpm : Z) : f32 :=
  let ticks_per_degree := fdiv tick_degree_rpm_ratio (f_of_Z rpm) in
  fdiv (f_of_Z t) ticks_per_degree.

(** src/util.c 23-26 time_from_us: [us * (TICKRATE / 1000000.0f)]. *)
Definition time_from_us (us : Z) : res Z :=
  f_to_u32 (fmul (f_of_Z us) (fdiv (f_of_Z TICKRATE) (f_of_Z 1000000))).

(** A C loop [while (cond s) s = body s], run for at most 2^k iterations.  A state
    that the body does not change is reported as divergence at once (it would loop
    forever), as is exhausting the 2^k iterations. *)
Inductive loop_out (S : Type) : Type :=
| LDone (s : S)
| LMore (s : S)
| LStuck.
Arguments LDone {S} s.
Arguments LMore {S} s.
Arguments LStuck {S}.

Section Loop.
  Variable cond : f32 -> bool.
  Variable body : f32 -> f32.

  Definition loop1 (s : f32) : loop_out f32 :=
    if cond s then
      let s' := body s in
      if feq s' s then LStuck else LMore s'
    else LDone s.

  Fixpoint loopk (k : nat) (s : f32) : loop_out f32 :=
    match k with
    | O => loop1 s
    | S k' =>
        match loopk k' s with
        | LMore s' => loopk k' s'
        | r => r
        end
    end.

  Definition while_f (s : f32) : res f32 :=
    match loopk 64 s with
    | LDone r => Ok r
    | LMore _ | LStuck => Err Diverges
    end.
End Loop.

(* Conversion must never run the loop. *)
Strategy 1000 [while_f loopk].

(** src/util.c 47-55 clamp_angle:
    [while (ang < 0) ang += max; while (ang >= max) ang -= max;].
    Both loops are followed exactly; a loop that reaches a fixed point of its body
    (float absorption, infinities) is reported as [Diverges]. *)
Definition clamp_angle (ang max : f32) : res f32 :=
  a1 <- while_f (fun a => flt a f_zero) (fun a => fadd a max) ang ;;
  while_f (fun a => fge a max) (fun a => fsub a max) a1.
