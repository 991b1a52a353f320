(** 32-bit unsigned arithmetic and the time comparisons of util.c. *)
Require Import ZArith List Bool.
Open Scope Z_scope.

Definition W : Z := 4294967296.          (* 2^32 *)
Definition HALF : Z := 2147483648.          (* 2^31 *)

(** Conversion to [uint32_t]: src/platform.h 12-16 (timeval_t is uint32_t; the
    TIMER64 build option is not modelled). *)
Definition w32 (z : Z) : Z := z mod W.

(** Conversion of a [uint32_t] to [signed int] (two's complement, as gcc does). *)
Definition s32 (z : Z) : Z := if z <? HALF then z else z - W.

(** src/util.c 29-32 time_before: [signed int res = n - x; return res < 0]. *)
Definition time_before (n x : Z) : bool := s32 (w32 (n - x)) <? 0.

(** src/util.c 34-37 time_before_or_equal. *)
Definition time_before_or_equal (n x : Z) : bool := s32 (w32 (n - x)) <=? 0.

(** src/util.c 39-41 time_in_range: unsigned [(val - t1) <= (t2 - t1)]. *)
Definition time_in_range (val t1 t2 : Z) : bool := w32 (val - t1) <=? w32 (t2 - t1).

(** src/util.c 43-45 time_diff. *)
Definition time_diff (later earlier : Z) : Z := w32 (later - earlier).
