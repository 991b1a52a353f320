(** Specification of the knock filter (C62): the second-order recurrence over one block, for any arithmetic,
    and the power of one frequency in a block of real samples. *)
Require Import ZArith Reals List.
Import ListNotations.

Section Arith.
Variable A : Type.
Variables add sub mul : A -> A -> A.
Variables zero two : A.
Definition recur (cr : A) (st : A * A) (x : A) : A * A :=
  let (s1, s2) := st in (sub (add x (mul (mul cr two) s1)) s2, s1).
Definition power (cr : A) (block : list A) : A :=
  let (s1, s2) := fold_left (recur cr) block (zero, zero) in
  sub (add (mul s1 s1) (mul s2 s2)) (mul (mul (mul s1 s2) cr) two).
End Arith.

Open Scope R_scope.
(** Sum of x_k cos (w k) and of x_k sin (w k), k counting from [k]. *)
Fixpoint cos_sum (w : R) (l : list R) (k : nat) : R := match l with [] => 0 | x :: r => x * cos (w * INR k) + cos_sum w r (S k) end.
Fixpoint sin_sum (w : R) (l : list R) (k : nat) : R := match l with [] => 0 | x :: r => x * sin (w * INR k) + sin_sum w r (S k) end.
Definition spectral_power (w : R) (l : list R) : R := cos_sum w l 0 ^ 2 + sin_sum w l 0 ^ 2.
