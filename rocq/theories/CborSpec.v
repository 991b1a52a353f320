(** The grammar of well-formed CBOR data items, RFC 8949 section 3 and appendix C,
    as an inductive definition. *)
Require Import ZArith List Bool.
Import ListNotations.
Open Scope Z_scope.

Definition byte (x : Z) : Prop := 0 <= x < 256.

(** Bytes as a number, most significant first. *)
Definition number (l : list Z) : Z := fold_left (fun a x => 256 * a + x) l 0.

(** An item's head: the initial byte and the bytes that follow it; its argument. *)
Inductive head (major : Z) : list Z -> Z -> Prop :=
| head_short a : 0 <= a < 24 -> head major [32 * major + a] a
| head_long i l : 0 <= i < 4 -> length l = Z.to_nat (2 ^ i) -> Forall byte l ->
    head major (32 * major + 24 + i :: l) (number l).

(** A definite-length string (major type 2: bytes, 3: text). *)
Definition string (major : Z) (b : list Z) : Prop :=
  exists h a s, head major h a /\ Z.of_nat (length s) = a /\ Forall byte s /\ b = h ++ s.

(** [wf b]: one item.  [wfs n b]: n items in a row. *)
Inductive wf : list Z -> Prop :=
| wf_number major h a : major = 0 \/ major = 1 -> head major h a -> wf h
| wf_string major b : major = 2 \/ major = 3 -> string major b -> wf b
| wf_chunks major cs : major = 2 \/ major = 3 -> Forall (string major) cs ->
    wf (32 * major + 31 :: concat cs ++ [255])
| wf_array h a b : head 4 h a -> wfs (Z.to_nat a) b -> wf (h ++ b)
| wf_array_open n b : wfs n b -> wf (159 :: b ++ [255])
| wf_map h a b : head 5 h a -> wfs (2 * Z.to_nat a) b -> wf (h ++ b)
| wf_map_open n b : wfs (2 * n) b -> wf (191 :: b ++ [255])
| wf_tag h a b : head 6 h a -> wf b -> wf (h ++ b)
| wf_simple h a : head 7 h a -> (forall x, h = [248; x] -> 32 <= x) -> wf h
with wfs : nat -> list Z -> Prop :=
| wfs_none : wfs 0 []
| wfs_more n b c : wf b -> wfs n c -> wfs (S n) (b ++ c).
