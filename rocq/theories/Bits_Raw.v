(** C03: bits_to_rawlen is the number of bytes that bits_to_raw gives. *)
From Verif Require Import Base Bits_Model.
Local Open Scope nat_scope.

(** Whenever bits_to_raw gives bytes there are as many of them as bits_to_rawlen says, which is the least number that holds
    all bits; the NULL pointer comes with 0. *)
Theorem C03_rawlen : forall b r, bits_to_raw b = Ok r ->
  length (match r with Some d => d | None => [] end) = bits_to_rawlen b /\ bitlen b <= 8 * bits_to_rawlen b < bitlen b + 8.
Proof.
  intros b r E. unfold bits_to_raw, bits_to_rawlen, BYTE_LEN in *. split.
  - destruct (Nat.eqb_spec (bitlen b) 0) as [Z|Z].
    + replace r with (@None (list N)) by congruence. rewrite Z. reflexivity.
    + unfold memdup in E. destruct (_ <=? length (buf b)) eqn:L; [|discriminate E]. cbn [bind] in E.
      apply Nat.leb_le in L. assert (R : r = Some (firstn (if bitlen b mod 8 =? 0 then bitlen b / 8 else bitlen b / 8 + 1) (buf b))) by congruence.
      rewrite R. apply firstn_length_le. exact L.
  - pose proof (Nat.div_mod (bitlen b) 8 ltac:(lia)). pose proof (Nat.mod_upper_bound (bitlen b) 8 ltac:(lia)). destruct (Nat.eqb_spec (bitlen b mod 8) 0); lia.
Qed.
Print Assumptions C03_rawlen.
(** 11 bits in two bytes *)
Example C03_rawlen_example : exists b, bits_from_raw [171; 205; 239]%N 11 = Ok b /\ bits_to_raw b = Ok (Some [171; 205]%N) /\ bits_to_rawlen b = 2.
Proof. eexists. split; [reflexivity|]. split; reflexivity. Qed.
