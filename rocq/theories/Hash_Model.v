(** Model of bits_sha1 (/repo/src/util/bits.c:489-494). *)
From Verif Require Import Base Bits_Model Sha1_Model.
Local Open Scope nat_scope.

(** conversion to [int] *)
Definition i32 (z : Z) : Z := ((z + 2 ^ 31) mod 2 ^ 32 - 2 ^ 31)%Z.

(** src/util/bits.c:489-494: hash the BYTE_LEN(bitlen) bytes of the block (the
    length is cast to int; a negative length hashes nothing). *)
Definition bits_sha1 (bits : bits_t) : res (list N) :=
  let len := Z.to_nat (i32 (Z.of_nat (BYTE_LEN (bitlen bits)))) in
  if len <=? length (buf bits) then sha1_msg (firstn len (buf bits)) else UB.
