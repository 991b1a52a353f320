(** When a byte string is one well-formed CBOR data item (RFC 8949, section 3 and
    appendix C), as a machine that reads one byte at a time, and the instance of
    [Framing.parser] it gives.  This is a specification of what the external library
    tinycbor decides; it does not model the library's code. *)
Require Import ZArith List Bool.
Require Import Verif.Framing.
Import ListNotations.
Open Scope Z_scope.

(** What is still to be read, innermost first. *)
Inductive todo : Type :=
| Items (n : Z)                    (* n more data items *)
| ItemsToBreak (inpair : bool) (pairs : bool)
                                   (* items up to a break; pairs = map entries *)
| Bytes (n : Z)                    (* n more bytes of a string *)
| Chunks (major : Z)               (* string chunks up to a break *)
| Arg (major : Z) (n : Z) (acc : Z).
                                   (* n more bytes of an item's argument; major 8 is
                                      a simple value in a second byte, at least 32 *)

Inductive outcome : Type :=
| More (st : list todo)
| Finished
| Bad.

(** Remove what is already satisfied. *)
Fixpoint settle (st : list todo) : list todo :=
  match st with
  | Items n :: st' => if n <=? 0 then settle st' else st
  | Bytes n :: st' => if n <=? 0 then settle st' else st
  | _ => st
  end.

Definition next (st : list todo) : outcome :=
  match settle st with
  | [] => Finished
  | st' => More st'
  end.

(** One data item has been started: account for it in the enclosing container. *)
Definition count (st : list todo) : list todo :=
  match st with
  | Items n :: st' => Items (n - 1) :: st'
  | ItemsToBreak inpair pairs :: st' => ItemsToBreak (if pairs then negb inpair else inpair) pairs :: st'
  | _ => st
  end.

(** The item with this major type and argument follows. *)
Definition item (major arg : Z) (st : list todo) : outcome :=
  if major <? 2 then next st
  else if major <? 4 then next (Bytes arg :: st)
  else if major =? 4 then next (Items arg :: st)
  else if major =? 5 then next (Items (2 * arg) :: st)
  else if major =? 6 then next (Items 1 :: st)
  else next st.

(** The initial byte of an item (the enclosing container has been accounted for). *)
Definition initial (x : Z) (st : list todo) : outcome :=
  let major := x / 32 in
  let info := x mod 32 in
  if info <? 24 then item major info st
  else if info <? 28 then More (Arg (if x =? 248 then 8 else major) (2 ^ (info - 24)) 0 :: st)
  else if info <? 31 then Bad
  else if (major =? 2) || (major =? 3) then More (Chunks major :: st)
  else if major =? 4 then More (ItemsToBreak false false :: st)
  else if major =? 5 then More (ItemsToBreak false true :: st)
  else Bad.

Definition feed (st : list todo) (x : Z) : outcome :=
  match st with
  | [] => Finished
  | Bytes n :: st' => next (Bytes (n - 1) :: st')
  | Arg major n acc :: st' =>
      let acc := 256 * acc + x in
      if 1 <? n then More (Arg major (n - 1) acc :: st')
      else if (major =? 8) && (acc <? 32) then Bad
      else item major acc st'
  | Chunks major :: st' =>
      if x =? 255 then next st'
      else if x / 32 =? major then
        if x mod 32 <? 24 then next (Bytes (x mod 32) :: st)
        else if x mod 32 <? 28 then More (Arg major (2 ^ (x mod 32 - 24)) 0 :: st)
        else Bad
      else Bad
  | ItemsToBreak inpair pairs :: st' =>
      if x =? 255 then if inpair then Bad else next st'
      else initial x (count st)
  | Items n :: st' => initial x (count st)
  end.

Fixpoint scan (st : list todo) (b : list Z) (n : Z) : verdict :=
  match b with
  | [] => Incomplete
  | x :: b' =>
      match feed st x with
      | More st' => scan st' b' (n + 1)
      | Finished => Complete (n + 1)
      | Bad => Invalid
      end
  end.

(** A map head is present: the initial byte and all bytes of its argument, which
    cbor_parser_init reads before it succeeds. *)
Definition map_head (b : list Z) : bool :=
  match b with
  | [] => false
  | x :: _ =>
      (x / 32 =? 5) &&
      ((x mod 32 <? 24) || (x mod 32 =? 31)
       || ((x mod 32 <? 28) && (2 ^ (x mod 32 - 24) <? len b)))
  end.

Definition cbor : parser := Parser map_head (fun b => scan [Items 1] b 0).
