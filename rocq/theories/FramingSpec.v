(** What the properties of request framing say, in terms of the bytes received, the
    requests processed and the clock. *)
Require Import ZArith List Bool.
Require Import Verif.Framing.
Import ListNotations.
Open Scope Z_scope.

(** [m] is exactly one request: a map, complete, with nothing after it. *)
Definition request (p : parser) (m : list Z) : Prop :=
  starts_map p m = true /\ validate p m = Complete (len m).

(** The initial byte of a map: any, and those that hold the number of entries in the
    initial byte itself (fewer than 24 entries, or an indefinite number). *)
Definition map_byte (x : Z) : Prop := 160 <= x <= 191.
Definition short_map_byte (x : Z) : Prop := 160 <= x <= 183 \/ x = 191.

(** What is relied on from the CBOR library. *)
Record reads_cbor (p : parser) : Prop := {
  (** a complete value lies within the bytes given, and is a request by itself *)
  rc_complete : forall b n, starts_map p b = true -> validate p b = Complete n ->
    0 < n <= len b /\ request p (firstn (Z.to_nat n) b);
  (** bytes after a request do not matter *)
  rc_extend : forall m x, request p m ->
    starts_map p (m ++ x) = true /\ validate p (m ++ x) = Complete (len m);
  (** the beginning of a request is reported as truncated *)
  rc_prefix : forall q x, request p (q ++ x) -> x <> [] -> starts_map p q = true ->
    validate p q = Incomplete;
  (** the initial byte tells a map from anything else *)
  rc_map : forall x b, short_map_byte x -> starts_map p (x :: b) = true;
  rc_other : forall x b, ~ map_byte x -> starts_map p (x :: b) = false;
}.

(** A client's input: requests, each with a one-byte map head and fitting the buffer,
    each possibly preceded by bytes that cannot start a map. *)
Definition sendable (p : parser) (jm : list Z * list Z) : Prop :=
  let '(junk, m) := jm in
  Forall (fun x => ~ map_byte x) junk /\
  request p m /\ len m <= 16384 /\
  (exists x r, m = x :: r /\ short_map_byte x).

Definition stream (items : list (list Z * list Z)) : list Z :=
  concat (map (fun jm => fst jm ++ snd jm) items).

(** The clock readings from the [a]-th up to (not including) the [b]-th all lie
    within five seconds (20,000,000 ticks of 0.25 us; the counter may wrap). *)
Definition within_5s (clock : nat -> Z) (a b : nat) : Prop :=
  forall i j, (a <= i <= j)%nat -> (j < b)%nat -> (clock j - clock i) mod 2 ^ 32 <= 20000000.

