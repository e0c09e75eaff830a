(** bits_sha1 hashes the bit string, padded with zeros to whole bytes. *)
From Verif Require Import Base Bits_Model Bits_Spec Bits_Proofs Bits_Ops Bits_Ops2 Bits_Ops3 Bits_Round
  Sha1_Spec Sha1_Model Sha1_Proofs Hash_Model.
Local Open Scope nat_scope.
Ltac Zify.zify_post_hook ::= Z.div_mod_to_equations.

(** The bits actually hashed: the string followed by zeros up to a whole byte. *)
Definition to_byte (l : list bool) : list bool := l ++ repeat false ((8 - length l mod 8) mod 8).

Lemma be_nth n v i : i < n -> nth i (be n v) false = N.testbit v (N.of_nat (n - 1 - i)).
Proof.
  intros H. unfold be. set (g := fun i => N.testbit v (N.of_nat (n - 1 - i))).
  rewrite nth_indep with (d' := g 0) by (rewrite map_length, seq_length; assumption).
  rewrite map_nth, seq_nth by assumption. reflexivity.
Qed.

Lemma nth_bits_of_bytes a : forall i, i < 8 * length a -> nth i (bits_of_bytes a) false = getb a i.
Proof.
  induction a as [|x a IH]; intros i Hi; [cbn in Hi; lia|].
  unfold bits_of_bytes. cbn [flat_map]. fold (bits_of_bytes a). unfold getb.
  destruct (Nat.lt_ge_cases i 8) as [L|L].
  - rewrite app_nth1 by (rewrite be_length; assumption). rewrite be_nth by assumption.
    replace (i / 8) with 0 by lia. replace (i mod 8) with i by lia. cbn [nth]. reflexivity.
  - rewrite app_nth2 by (rewrite be_length; assumption). rewrite be_length, IH by (cbn [Datatypes.length] in Hi; lia).
    unfold getb. replace (i / 8) with (S ((i - 8) / 8)) by lia. cbn [nth]. replace ((i - 8) mod 8) with (i mod 8) by lia. reflexivity.
Qed.

Lemma bits_of_bytes_getb a n : n <= 8 * length a -> firstn n (bits_of_bytes a) = map (getb a) (seq 0 n).
Proof.
  intros H. apply nth_ext with (d := false) (d' := getb a 0).
  - rewrite firstn_length, bits_of_bytes_length, map_length, seq_length. lia.
  - rewrite firstn_length, bits_of_bytes_length. intros i Hi. rewrite nth_firstn by lia.
    rewrite nth_bits_of_bytes by lia. rewrite map_nth, seq_nth by lia. reflexivity.
Qed.

Lemma to_byte_length l : length (to_byte l) = 8 * BYTE_LEN (length l).
Proof. unfold to_byte. rewrite app_length, repeat_length, byte_len_spec. lia. Qed.

Lemma i32_small z : (0 <= z < 2 ^ 31)%Z -> i32 z = z.
Proof. intros H. unfold i32. rewrite Z.mod_small; lia. Qed.

Lemma bits_of_bytes_firstn n : forall a, bits_of_bytes (firstn n a) = firstn (8 * n) (bits_of_bytes a).
Proof.
  induction n as [|n IH]; intros [|x a]; try reflexivity.
  cbn [firstn]. unfold bits_of_bytes. cbn [flat_map]. fold (bits_of_bytes (firstn n a)). fold (bits_of_bytes a).
  rewrite firstn_app, be_length. rewrite (firstn_all2 (be 8 x)) by (rewrite be_length; lia).
  rewrite IH. f_equal. f_equal. lia.
Qed.

Lemma bits_sha1_ok b : WF b -> Clean b -> (Z.of_nat (BYTE_LEN (bitlen b)) < 2 ^ 31)%Z ->
  exists d, bits_sha1 b = Ok d /\ length d = 20 /\ Forall (fun x => (x < 256)%N) d /\
    bits_of_bytes d = sha1 (to_byte (bits_of b)).
Proof.
  intros (W1 & W2 & W3) C HL. unfold bits_sha1. rewrite i32_small, Nat2Z.id by lia.
  destruct (Nat.leb_spec (BYTE_LEN (bitlen b)) (length (buf b))) as [L|L]; [|lia].
  destruct (sha1_msg_ok (firstn (BYTE_LEN (bitlen b)) (buf b))) as (d & E & LD & BD & SD).
  { apply bytes_firstn. assumption. }
  exists d. repeat split; auto. rewrite SD. f_equal.
  rewrite bits_of_bytes_firstn, bits_of_bytes_getb by lia.
  apply nth_ext with (d := getb (buf b) 0) (d' := false).
  - rewrite map_length, seq_length, to_byte_length. unfold bits_of. rewrite map_length, seq_length. reflexivity.
  - rewrite map_length, seq_length. intros i Hi. rewrite map_nth, seq_nth by assumption. cbn [Nat.add].
    unfold to_byte. destruct (Nat.lt_ge_cases i (bitlen b)) as [Lt|Ge].
    + rewrite app_nth1 by (rewrite bits_of_length; assumption). rewrite nth_bits_of by assumption. reflexivity.
    + rewrite app_nth2 by (rewrite bits_of_length; assumption). rewrite nth_repeat_false. apply C. lia.
Qed.

Lemma to_byte_id l : length l mod 8 = 0 -> to_byte l = l.
Proof. intros H. unfold to_byte. rewrite H. apply app_nil_r. Qed.

(** numbers *)
Lemma bval_nbval l : bval l = Z.of_N (nbval l).
Proof.
  unfold bval, nbval. change 0%Z with (Z.of_N 0). generalize 0%N. induction l as [|x l IH]; intros a; cbn [fold_left]; [reflexivity|].
  rewrite <- IH. f_equal. destruct x; cbn [Z.b2z N.b2n]; lia.
Qed.

Lemma be_bval n l : length l = n -> be n (Z.to_N (bval l)) = l.
Proof. intros <-. rewrite bval_nbval, N2Z.id. apply be_nbval. Qed.

Lemma raw20_ok d : length d = 20 -> Forall (fun x => (x < 256)%N) d ->
  exists b, bits_from_raw d 160 = Ok b /\ WF b /\ Clean b /\ bsign b = false /\ bitlen b = 160 /\ bits_of b = bits_of_bytes d.
Proof.
  intros L B. destruct (bits_from_raw_ok d 160 B ltac:(lia)) as (b & E & W & S & BO).
  exists b. assert (LB : bitlen b = 160) by (rewrite <- bits_of_length, BO, map_length, seq_length; reflexivity).
  pose proof E as E0. unfold bits_from_raw in E0. cbn -[BYTE_LEN memdup] in E0.
  destruct (memdup d (BYTE_LEN 160)) as [d'| | |]; cbn [bind] in E0; try discriminate. injection E0 as <-.
  split; [exact E|]. split; [exact W|]. split; [|split; [exact S|split; [exact LB|]]].
  - intros i Hi. cbn [bitlen allocated] in Hi. change (BYTE_LEN 160) with 20 in Hi. lia.
  - rewrite BO. rewrite <- bits_of_bytes_getb by lia. apply firstn_all2. rewrite bits_of_bytes_length. lia.
Qed.
