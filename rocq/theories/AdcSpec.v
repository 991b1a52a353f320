(** The converters, from their data sheets, and what a reading should be.

    [world k c] is the 12 bit code for the voltage of channel [c] during transfer [k];
    transfers are numbered from 0 on and on, and [sent k] is the command word of
    transfer [k]: the sequence is sent over and over by a circular DMA.  A buffer is the
    responses of one pass of the sequence. *)
Require Import ZArith List.
Import ListNotations.
Open Scope Z_scope.

Definition codes (world : Z -> Z -> Z) : Prop := forall k c, 0 <= world k c < 4096.
Definition sent (seq : list Z) (k : Z) : Z := nth (Z.to_nat (k mod Z.of_nat (length seq))) seq 0.
(** The transfers of pass [n], and the responses to them. *)
Definition transfers (seq : list Z) (n : Z) : list Z :=
  map (fun j => n * Z.of_nat (length seq) + Z.of_nat j) (List.seq 0 (length seq)).
Definition buffer (seq : list Z) (response : Z -> Z) (n : Z) : list Z := map response (transfers seq n).

(** TLV2553 (SLAS354C): the top four bits of a command select the channel, and the
    response to the next transfer is the result, left justified in 16 bits. *)
Definition tlv_channel (command : Z) : Z := command / 4096.
Definition tlv_response (world : Z -> Z -> Z) (sent : Z -> Z) (k : Z) : Z :=
  16 * world (k - 1) (tlv_channel (sent (k - 1))).

(** AD7888: bits 11-13 of a command select the channel, and the response to the next
    transfer is the result after four leading zeros. *)
Definition ad_channel (command : Z) : Z := (command / 2048) mod 8.
Definition ad_response (world : Z -> Z -> Z) (sent : Z -> Z) (k : Z) : Z :=
  world (k - 1) (ad_channel (sent (k - 1))).

(** MAX11632 with clock mode 11: a command byte with the top bit set starts a conversion
    of the channel in bits 3-6; the next two bytes are the result after four leading
    zeros.  The command is the first byte of a transfer, so that the upper four bits of
    the result are in the second byte of the same response and the lower eight in the
    first byte of the next.  [idle] are the bytes after any other command. *)
Definition max_channel (command : Z) : option Z :=
  let byte := command / 256 in
  if 128 <=? byte then Some ((byte / 8) mod 16) else None.
Definition max_result (world : Z -> Z -> Z) (idle : Z -> Z) (sent : Z -> Z) (k : Z) : Z :=
  match max_channel (sent k) with Some c => world k c | None => idle k end.
Definition max_response (world : Z -> Z -> Z) (idle : Z -> Z) (sent : Z -> Z) (k : Z) : Z :=
  256 * (max_result world idle sent (k - 1) mod 256) + max_result world idle sent k / 256.
