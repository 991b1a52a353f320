(** What the frequency inputs should report: the specification for C78. *)
Require Import ZArith Reals List Bool.
From Verif Require Import Freq.
Import ListNotations.
Open Scope Z_scope.

(** The edges the handler gets to see: the last one before each time it runs, if there
    was one since it last ran. *)
Fixpoint seen_edges (pending : option Z) (h : list ch2_step) : list Z :=
  match h with
  | [] => []
  | Edge t :: h' => seen_edges (Some t) h'
  | Handler :: h' => match pending with Some t => t :: seen_edges None h' | None => seen_edges None h' end
  end.

(** All edges, and a handler that runs after every edge before the next. *)
Definition edges (h : list ch2_step) : list Z := flat_map (fun e => match e with Edge t => [t] | Handler => [] end) h.
Fixpoint prompt (waiting : bool) (h : list ch2_step) : Prop :=
  match h with
  | [] => waiting = false
  | Edge _ :: h' => waiting = false /\ prompt true h'
  | Handler :: h' => prompt false h'
  end.

(** [x] is [y] up to one part in two million. *)
Definition nearly (x y : R) : Prop := (Rabs (x - y) <= y / 2000000)%R.
