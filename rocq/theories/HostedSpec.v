(** What the simulator's outputs should do. *)
Require Import ZArith List Bool Permutation.
From Verif Require Import Outputs Hosted OutputRun Word.
Import ListNotations.
Open Scope Z_scope.

(** qsort, given a comparison function that orders the elements consistently, returns
    the same elements, each no later than the next. *)
Definition sorts (qsort : list entry -> list entry) : Prop :=
  forall l, (forall a b, In a l -> In b l -> output_event_compare a b <= 0 \/ output_event_compare b a <= 0) ->
    (forall a b c, In a l -> In b l -> In c l ->
       output_event_compare a b <= 0 -> output_event_compare b c <= 0 -> output_event_compare a c <= 0) ->
    Permutation l (qsort l) /\
    forall x a b y, qsort l = x ++ a :: b :: y -> output_event_compare a b <= 0.

(** Ticks from the start of a window to a time. *)
Definition ticks_from (start t : Z) : Z := (t - start) mod 2 ^ 32.

(** All edges of all outputs. *)
Definition edges (os : list output) : list entry := flat_map (fun o => [o_start o; o_stop o]) os.

(** [e] is waiting and due in the window of 128 ticks from [start]. *)
Definition due (start : Z) (e : entry) : Prop := e_state e = SCHEDULED /\ ticks_from start (e_time e) < 128.

(** No two due edges want different levels on the same pin in the same tick. *)
Definition no_clash (start : Z) (os : list output) : Prop :=
  forall a b, In a (edges os) -> In b (edges os) -> due start a -> due start b ->
    e_pin a = e_pin b -> e_time a = e_time b -> e_val a = e_val b.

(** The level of pin [p] after tick [k] of the window: that of the latest due edge on
    the pin up to that tick, or the level before the window. *)
Definition level (start before : Z) (os : list output) (p k : Z) (b : bool) : Prop :=
  (exists e, In e (edges os) /\ due start e /\ e_pin e = p /\ ticks_from start (e_time e) <= k /\ e_val e = b /\
     forall e', In e' (edges os) -> due start e' -> e_pin e' = p -> ticks_from start (e_time e') <= k ->
       ticks_from start (e_time e') <= ticks_from start (e_time e))
  \/ ((forall e, In e (edges os) -> due start e -> e_pin e = p -> k < ticks_from start (e_time e))
      /\ b = Z.testbit before p).
