(** Outcomes of C code.  Undefined behaviour, failed assertions and loops that
    never terminate are distinct outcomes; no C operation is assumed to be safe. *)
Require Import ZArith List Bool.
Import ListNotations.
Open Scope Z_scope.

(** What can go wrong when a C function runs (C11 undefined behaviour, abort()
    through assert, and non-termination). *)
Inductive err : Type :=
| OutOfBounds      (* array access outside the declared array *)
| DivByZero        (* integer division by zero *)
| FloatToInt       (* float to integer conversion out of range, C11 6.3.1.4 *)
| ShiftTooWide     (* shift count >= width, C11 6.5.7 *)
| AssertFailed     (* assert() failed in a build without NDEBUG *)
| NullDeref        (* NULL pointer dereference *)
| Diverges.        (* the loop never terminates *)

Inductive res (A : Type) : Type :=
| Ok (a : A)
| Err (e : err).
Arguments Ok {A} a.
Arguments Err {A} e.

Definition bind {A B} (r : res A) (f : A -> res B) : res B :=
  match r with
  | Ok a => f a
  | Err e => Err e
  end.

Notation "x <- r ;; k" := (bind r (fun x => k))
  (at level 61, r at next level, right associativity).
Notation "' p <- r ;; k" := (bind r (fun p => k))
  (at level 61, p pattern, r at next level, right associativity).

(** C array read with bounds check; the index is a C [int]. *)
Definition get {A} (l : list A) (i : Z) : res A :=
  if i <? 0 then Err OutOfBounds
  else match nth_error l (Z.to_nat i) with
       | Some a => Ok a
       | None => Err OutOfBounds
       end.

Fixpoint upd_nat {A} (l : list A) (i : nat) (a : A) : list A :=
  match l, i with
  | [], _ => []
  | _ :: t, O => a :: t
  | h :: t, S j => h :: upd_nat t j a
  end.

(** C array write with bounds check. *)
Definition put {A} (l : list A) (i : Z) (a : A) : res (list A) :=
  if (i <? 0) || (Z.of_nat (length l) <=? i) then Err OutOfBounds
  else Ok (upd_nat l (Z.to_nat i) a).

(** [assert(c)]: a no-op when built with -DNDEBUG (gd32f4 and stm32f4 targets),
    aborts otherwise (hosted and unit test targets). *)
Definition c_assert (ndebug c : bool) : res unit :=
  if ndebug then Ok tt else if c then Ok tt else Err AssertFailed.
