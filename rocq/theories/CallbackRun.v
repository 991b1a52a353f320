(** Executions of the callback facility: any history of scheduling requests and timer
    interrupts, started from the initial state. *)
Require Import ZArith List Bool.
Require Import Verif.Res Verif.Word Verif.Callbacks Verif.CallbackSpec.
Import ListNotations.
Open Scope Z_scope.

(** The ids currently in the table, first to run first. *)
Definition listing (s : cbs) : list Z := firstn (Z.to_nat (cb_n s)) (cb_arr s).

Definition request (e : Z * Z) : happening := Requested (fst e) (snd e).

Fixpoint body_ok (k : nat) (h : list happening) (b : list (Z * Z)) : Prop :=
  match b with
  | [] => True
  | (id, t) :: b' => 0 <= id < Z.of_nat k /\ (forall j u, j <> id -> pending h j = Some u -> close t u) /\
                     body_ok k (Requested id t :: h) b'
  end.

(** Executions of the facility with [k] callback objects.  The timer interrupt is
    taken when the armed compare value has been reached (hardware guarantee quoted in
    src/platform.h 24-30) and at least one callback is pending. *)
Inductive reach (nd : bool) (k : nat) : list happening -> cbs -> Prop :=
| R_init : reach nd k [] (cbs_init k)
| R_sched h s id t s' : reach nd k h s -> 0 <= id < Z.of_nat k ->
    (forall j u, j <> id -> pending h j = Some u -> close t u) ->
    schedule_callback nd s id (w32 t) = Ok s' -> reach nd k (Requested id t :: h) s'
| R_exec h s now c b id s' : reach nd k h s ->
    (exists j u, pending h j = Some u) -> cb_armed s = Some c -> time_before_or_equal c (w32 now) = true ->
    (forall j u, pending h j = Some u -> close u now) ->
    (forall i, body_ok k (Ran i now :: h) b) ->
    timer_execute nd (w32 now) (fun _ => run_body nd b) s = Ok (id, s') ->
    reach nd k (rev (map request b) ++ Ran id now :: h) s'.
