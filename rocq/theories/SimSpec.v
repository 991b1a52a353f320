(** What the simulated wheel should look like: the specification for C53.

    A wheel of [n] tooth positions per turn, numbered on and on.  Position 1 of every turn carries no tooth;
    on every other turn the cam pulse is there. *)
Require Import ZArith List.
Open Scope Z_scope.

(** The trigger that pulses at position [k], if any: 0 is the crank, 1 the cam. *)
Definition pulse_at (n k : Z) : option Z :=
  if k mod (2 * n) =? 1 then Some 1 else if k mod n =? 1 then None else Some 0.

(** [pos] lists the positions with a pulse in order, without leaving one out, from position 0 on. *)
Definition enumerates (n : Z) (pos : nat -> Z) : Prop :=
  pos O = 0 /\ forall j, pulse_at n (pos j) <> None /\ pos j < pos (S j) /\ forall k, pos j < k < pos (S j) -> pulse_at n k = None.
