(** What should reach the decoder. *)
Require Import ZArith List Bool Sorting.Sorted.
From Verif Require Import Word Decoder Captures.
Import ListNotations.
Open Scope Z_scope.

(** Edges in the order in which they happened; of two in the same tick, input 0 counts
    as the first. *)
Definition earlier (a b : edge) : Prop := snd a < snd b \/ snd a = snd b /\ fst a = false /\ fst b = true.
Definition in_order (es : list edge) : Prop := StronglySorted earlier es.

Definition input_no (i : bool) : Z := if i then 1 else 0.

(** The decoder's view of the edges. *)
Definition as_triggers (es : list edge) : list dev := map (fun e => Trigger (input_no (fst e)) (w32 (snd e))) es.

(** The times of the edges on one input, and of the triggers for it. *)
Definition times_on (i : bool) (es : list edge) : list Z :=
  flat_map (fun e => if Bool.eqb (fst e) i then [w32 (snd e)] else []) es.
Definition triggers_on (i : bool) (ds : list dev) : list Z :=
  flat_map (fun d => match d with Trigger n t => if n =? input_no i then [t] else [] | _ => [] end) ds.

(** At most one edge per input; all within half a turn of the counter. *)
Definition one_each (es : list edge) : Prop := forall i, (length (times_on i es) <= 1)%nat.
Definition close (es : list edge) : Prop := forall a b, In a es -> In b es -> snd a - snd b < 2 ^ 31.

(** No edge while the handler looks at the registers. *)
Definition quiet (g : nat -> list edge) : Prop := forall k, g k = [].

Inductive subsequence {A} : list A -> list A -> Prop :=
| sub_nil : subsequence [] []
| sub_skip a l m : subsequence l m -> subsequence l (a :: m)
| sub_take a l m : subsequence l m -> subsequence (a :: l) (a :: m).

(** The edges an input should capture: rising, falling. *)
Definition wanted (i : freq_input) : bool * bool :=
  match fi_type i with
  | IN_NONE => (false, false)
  | _ => match fi_edge i with RISING_EDGE => (true, false) | FALLING_EDGE => (false, true) | BOTH_EDGES => (true, true) end
  end.
