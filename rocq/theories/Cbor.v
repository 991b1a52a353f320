(** CBOR items as the console sees them through the tinycbor library, which is
    not part of the repository: the query functions below follow its documented
    behaviour (cbor.h); strings are modelled as single chunks. *)
Require Import ZArith List Bool String Ascii.
From Verif Require Import Res Word F32.
Import ListNotations.
Open Scope Z_scope.

(** A decoded item.  Integers lie in [-2^64, 2^64); arrays record whether their
    length is known in advance; half and double precision values are given by
    their bits and by their value. *)
Inductive cbor : Type :=
| CInt (z : Z)
| CBytes (s : string)
| CText (s : string)
| CArray (definite : bool) (l : list cbor)
| CMap (l : list (cbor * cbor))
| CTag (t : Z) (v : cbor)
| CBool (b : bool)
| CNull
| CUndef
| CSimple (n : Z)
| CHalf (bits : Z)
| CFloat (x : f32)
| CDouble (x : SpecFloat.spec_float).

(** A CborValue: an item, or None at the end of a container and for
    CborInvalidType. *)
Definition cvalue := option cbor.

(** cbor_value_skip_tag *)
Fixpoint untag (v : cbor) : cbor :=
  match v with CTag _ v => untag v | _ => v end.

(** cbor_value_text_string_equals: tags are skipped; anything but a text string
    compares unequal. *)
Definition text_equals (v : cvalue) (s : string) : bool :=
  match v with
  | Some v => match untag v with CText t => String.eqb t s | _ => false end
  | None => false
  end.

(** cbor_value_map_find_value: the value of the first pair whose key is the
    given text; CborInvalidType when there is none (no error is returned). *)
Fixpoint find_pair (l : list (cbor * cbor)) (id : string) : cvalue :=
  match l with
  | [] => None
  | (k, v) :: l => if text_equals (Some k) id then Some v else find_pair l id
  end.

Definition is_map (v : cvalue) : bool := match v with Some (CMap _) => true | _ => false end.
Definition is_array (v : cvalue) : bool := match v with Some (CArray _ _) => true | _ => false end.
Definition map_find (v : cvalue) (id : string) : cvalue :=
  match v with Some (CMap l) => find_pair l id | _ => None end.

(** cbor_value_get_int_checked: None (CborErrorDataTooLarge) unless it fits in an int. *)
Definition int_checked (z : Z) : option Z :=
  if (- HALF <=? z) && (z <? HALF) then Some z else None.

(** cbor_value_get_int: truncates the 64-bit magnitude to an int, then negates. *)
Definition to_int (z : Z) : Z := let z := z mod W in if z <? HALF then z else z - W.
Definition int_truncated (z : Z) : Z :=
  if 0 <=? z then to_int z else to_int (- to_int (- z - 1) - 1).

(** Conversion of a double to a float, C11 6.3.1.5 with IEC 60559 (Annex F). *)
Definition f_of_double (x : SpecFloat.spec_float) : f32 :=
  match x with
  | SpecFloat.S754_finite s m e => SpecFloat.binary_round fprec femax s m e
  | x => x
  end.

(** What the console writes. *)
Inductive enc : Type :=
| EText (s : string)
| EInt (z : Z)
| EFloat (x : f32)
| EBool (b : bool)
| ENull
| EArr (l : list enc)          (* indefinite length *)
| EMap (l : list enc)          (* indefinite length; keys and values alternate *)
| EMapN (n : Z) (l : list enc) (* definite length *).

(** Size of an encoded item: RFC 7049 section 2.1. *)
Definition head_size (n : Z) : Z :=
  if n <? 24 then 1 else if n <? 256 then 2 else if n <? 65536 then 3 else if n <? W then 5 else 9.
Fixpoint enc_size (e : enc) : Z :=
  match e with
  | EText s => head_size (Z.of_nat (String.length s)) + Z.of_nat (String.length s)
  | EInt z => head_size (if z <? 0 then - z - 1 else z)
  | EFloat _ => 5
  | EBool _ | ENull => 1
  | EArr l | EMap l => 2 + fold_right (fun x n => enc_size x + n) 0 l
  | EMapN n l => head_size n + fold_right (fun x n => enc_size x + n) 0 l
  end.
