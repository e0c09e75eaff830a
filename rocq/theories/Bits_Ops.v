(** Each bit-string operation computes its list-of-bits meaning. *)
From Coq Require Import Ascii String.
From Verif Require Import Base Bits_Model Bits_Spec Bits_Proofs.
Local Open Scope nat_scope.
Local Open Scope list_scope.
Ltac Zify.zify_post_hook ::= Z.div_mod_to_equations.

(** Result of a successful operation. *)
Definition good (r : res bits_t) (sg : bool) (l : list bool) : Prop :=
  exists b, r = Ok b /\ WF b /\ Clean b /\ bsign b = sg /\ bits_of b = l.
(** Same without the padding guarantee. *)
Definition goodish (r : res bits_t) (sg : bool) (l : list bool) : Prop :=
  exists b, r = Ok b /\ WF b /\ bsign b = sg /\ bits_of b = l.

Lemma bits_of_eq b b' : bits_of b = bits_of b' -> bitlen b = bitlen b'.
Proof. intros H. rewrite <- !bits_of_length, H. reflexivity. Qed.

(** Packaging a fresh buffer filled by an OR loop. *)
Lemma or_loop_new f g n sg :
  (forall i b, i < n -> length b = BYTE_LEN n -> bytes b ->
     exists v, f i b = OR_BIT b i v /\ (v < 2)%N /\ N.eqb v 1 = g i \/
               f i b = Ok b /\ g i = false) ->
  good (do b <- for_to n f (buf (bits_new n)); Ok (mkBits b sg n (BYTE_LEN n)))
       sg (map g (seq 0 n)).
Proof.
  intros Hf. unfold bits_new; cbn [buf].
  destruct (or_loop f g n (repeat 0%N (BYTE_LEN n))) as (b' & E & HL & HB & HG).
  - apply bytes_repeat0.
  - rewrite repeat_length. apply byte_len_ge.
  - intros i b. rewrite repeat_length. apply Hf.
  - rewrite E. cbn [bind]. eexists; split; [reflexivity|].
    rewrite repeat_length in HL. unfold WF, Clean; cbn [buf bitlen allocated bsign].
    repeat split; auto; try lia.
    + intros i Hi. rewrite HG, getb_repeat0. destruct (Nat.ltb_spec i n); [lia|reflexivity].
    + unfold bits_of; cbn [buf bitlen]. apply map_ext_in. intros i Hi. apply in_seq in Hi.
      rewrite HG, getb_repeat0. destruct (Nat.ltb_spec i n); [reflexivity|lia].
Qed.

Lemma map_nth_seq {A} (d : A) l : map (fun i => nth i l d) (seq 0 (length l)) = l.
Proof.
  apply nth_ext with (d := d) (d' := d); rewrite map_length, seq_length; [auto|].
  intros i Hi. rewrite nth_indep with (d' := nth 0 l d) by (rewrite map_length, seq_length; lia).
  rewrite (map_nth (fun i => nth i l d)), seq_nth by lia. reflexivity.
Qed.

(** ** Numbers *)
Lemma bval_app l m : bval (l ++ m) = (bval l * 2 ^ Z.of_nat (length m) + bval m)%Z.
Proof.
  unfold bval. rewrite fold_left_app. generalize (fold_left (fun a b => 2 * a + Z.b2z b)%Z l 0%Z).
  assert (G : forall m a, fold_left (fun a b => 2 * a + Z.b2z b)%Z m a =
     (a * 2 ^ Z.of_nat (length m) + fold_left (fun a b => 2 * a + Z.b2z b)%Z m 0)%Z).
  { clear. induction m as [|x m IH]; intros a; cbn [fold_left Datatypes.length].
    - rewrite Z.mul_1_r. lia.
    - rewrite IH. rewrite (IH (2 * 0 + Z.b2z x)%Z). rewrite Nat2Z.inj_succ, Z.pow_succ_r by lia. ring. }
  intros a. apply G.
Qed.

Lemma bval_cons x m : bval (x :: m) = (Z.b2z x * 2 ^ Z.of_nat (length m) + bval m)%Z.
Proof. change (x :: m) with ([x] ++ m). rewrite bval_app. unfold bval at 1. cbn [fold_left]. ring. Qed.

Lemma bval_nil : bval [] = 0%Z. Proof. reflexivity. Qed.

Lemma bval_bound l : (0 <= bval l < 2 ^ Z.of_nat (length l))%Z.
Proof.
  induction l as [|x l IH]; [cbn; lia|].
  rewrite bval_cons. cbn [Datatypes.length]. rewrite Nat2Z.inj_succ, Z.pow_succ_r by lia.
  destruct x; cbn [Z.b2z]; lia.
Qed.

Lemma bval_repeat_false n l : bval (repeat false n ++ l) = bval l.
Proof.
  induction n; [reflexivity|]. cbn [repeat app]. rewrite bval_cons, IHn. cbn [Z.b2z]. lia.
Qed.

Lemma bval_zeros n : bval (repeat false n) = 0%Z.
Proof. rewrite <- (app_nil_r (repeat false n)), bval_repeat_false. reflexivity. Qed.

Lemma bval_inj l m : length l = length m -> bval l = bval m -> l = m.
Proof.
  revert m; induction l as [|x l IH]; intros [|y m]; cbn [Datatypes.length]; try discriminate; [auto|].
  intros HL HV. injection HL as HL. rewrite !bval_cons, HL in HV.
  pose proof (bval_bound l) as B1. pose proof (bval_bound m) as B2. rewrite HL in B1.
  assert (x = y) as -> by (destruct x, y; cbn [Z.b2z] in HV; try reflexivity; lia).
  f_equal. apply IH; [assumption|lia].
Qed.

Lemma pos_bits_app p acc : pos_bits p acc = pos_bits p [] ++ acc.
Proof.
  revert acc. induction p as [p IH|p IH|]; intros acc; cbn [pos_bits].
  - rewrite IH, (IH [true]), <- app_assoc. reflexivity.
  - rewrite IH, (IH [false]), <- app_assoc. reflexivity.
  - reflexivity.
Qed.

Lemma bval_pos_bits p : bval (pos_bits p []) = Zpos p.
Proof.
  induction p as [p IH|p IH|]; cbn [pos_bits]; try (rewrite pos_bits_app, bval_app, IH);
    cbn -[Z.mul]; lia.
Qed.

Lemma bval_binary_zv i : bval (binary_zv i) = Z.abs i.
Proof. destruct i; cbn [binary_zv Z.abs]; [reflexivity| |]; apply bval_pos_bits. Qed.

Lemma pos_bits_head p : exists t, pos_bits p [] = true :: t.
Proof.
  induction p as [p IH|p IH|]; cbn [pos_bits]; [| |exists []; reflexivity];
    rewrite pos_bits_app; destruct IH as (t & ->); eexists; reflexivity.
Qed.

Lemma binary_zv_head i : binary_zv i = [] \/ exists t, binary_zv i = true :: t.
Proof. destruct i; cbn; auto using pos_bits_head. Qed.

(** length of the binary expansion: the least n with |i| < 2^n *)
Lemma binary_zv_length i n : length (binary_zv i) <= n <-> (Z.abs i < 2 ^ Z.of_nat n)%Z.
Proof.
  rewrite <- bval_binary_zv. split; intros H.
  - eapply Z.lt_le_trans; [apply bval_bound|]. apply Z.pow_le_mono_r; lia.
  - destruct (binary_zv_head i) as [->|(t & E)]; [cbn; lia|]. rewrite E in *.
    rewrite bval_cons in H. cbn [Z.b2z Datatypes.length] in *.
    pose proof (bval_bound t). destruct (Nat.le_gt_cases (S (length t)) n) as [L|L]; [assumption|].
    assert (2 ^ Z.of_nat n <= 2 ^ Z.of_nat (length t))%Z by (apply Z.pow_le_mono_r; lia). lia.
Qed.

(** src/util/bits.c bits_from_i *)
Lemma bits_from_i_ok i : good (bits_from_i i) (i <? 0)%Z (binary_zv i).
Proof.
  unfold bits_from_i.
  rewrite <- (map_nth_seq false (binary_zv i)) at 3.
  apply or_loop_new. intros j b Hj HL HB.
  destruct (nth j (binary_zv i) false) eqn:E.
  - exists 1%N. left. repeat split; lia.
  - exists 0%N. right. auto.
Qed.

Definition from_i_len_bits (i : Z) (n : nat) : list bool :=
  if length (binary_zv i) <=? n then lpad n (binary_zv i) else firstn n (binary_zv i).

Lemma nth_repeat_any {A} (a d : A) n i : i < n -> nth i (repeat a n) d = a.
Proof. intros H. rewrite nth_indep with (d' := a) by (rewrite repeat_length; lia). apply nth_repeat. Qed.

Lemma bits_from_i_len_ok i n : good (bits_from_i_len i n) (i <? 0)%Z (from_i_len_bits i n).
Proof.
  unfold bits_from_i_len. set (v := binary_zv i).
  set (off := if length v <? n then n - length v else 0).
  (* the loop writes bit j+off at iteration j *)
  set (g := fun p => if p <? off then false else if p - off <? length v then nth (p - off) v false else false).
  assert (L : exists b', for_to n (fun j b =>
      if (j <? length v) && nth j v false then OR_BIT b (j + off) 1 else Ok b) (buf (bits_new n)) = Ok b'
      /\ length b' = BYTE_LEN n /\ bytes b' /\
      forall p, getb b' p = (p <? n + off) && g p).
  { destruct (for_to_inv (fun k b' => length b' = BYTE_LEN n /\ bytes b' /\
       forall p, getb b' p = (p <? k + off) && g p)
       (fun j b => if (j <? length v) && nth j v false then OR_BIT b (j + off) 1 else Ok b)
       n (buf (bits_new n))) as (t & Ht & HL & HB & HG).
    - cbn [buf bits_new]. split; [apply repeat_length|]. split; [apply bytes_repeat0|].
      intros p. rewrite getb_repeat0. unfold g.
      destruct (Nat.ltb_spec p (0 + off)), (Nat.ltb_spec p off); auto; lia.
    - intros j t Hj (HL & HB & HG).
      destruct (Nat.ltb_spec j (length v)) as [Lj|Lj]; cbn [andb].
      + destruct (nth j v false) eqn:E.
        * assert (Hpos : j + off < n) by (unfold off; destruct (Nat.ltb_spec (length v) n); lia).
          destruct (OR_BIT_ok t (j + off) 1%N) as (a' & Ea & La & Ba & Ga);
            [pose proof (byte_len_ge n); lia|assumption|lia|].
          exists a'. repeat split; auto; [lia|].
          intros p. rewrite Ga, !HG.
          destruct (Nat.eqb_spec p (j + off)) as [->|D].
          -- unfold g. replace (j + off - off) with j by lia. rewrite E.
             destruct (Nat.ltb_spec (j + off) (S j + off)); [|lia].
             destruct (Nat.ltb_spec (j + off) off); [lia|].
             destruct (Nat.ltb_spec j (length v)); [|lia].
             rewrite orb_true_r. reflexivity.
          -- destruct (Nat.ltb_spec p (j + off)), (Nat.ltb_spec p (S j + off)); auto; lia.
        * exists t. repeat split; auto. intros p. rewrite HG.
          destruct (Nat.eqb_spec p (j + off)) as [->|D].
          -- unfold g. replace (j + off - off) with j by lia. rewrite E.
             destruct (j <? length v), (j + off <? off); rewrite ?andb_false_r; reflexivity.
          -- destruct (Nat.ltb_spec p (j + off)), (Nat.ltb_spec p (S j + off)); auto; lia.
      + exists t. repeat split; auto. intros p. rewrite HG. unfold g.
        destruct (Nat.ltb_spec p off), (Nat.ltb_spec (p - off) (length v)),
          (Nat.ltb_spec p (j + off)), (Nat.ltb_spec p (S j + off)); auto; lia.
    - exists t. auto. }
  destruct L as (b' & E & HL & HB & HG). rewrite E. cbn [bind]. eexists; split; [reflexivity|].
  cbn [bits_new bitlen allocated].
  assert (G : forall p, p < n -> getb b' p = nth p (from_i_len_bits i n) false).
  { intros p Hp. rewrite HG. unfold from_i_len_bits. fold v. unfold g, off.
    destruct (Nat.leb_spec (length v) n) as [Lv|Lv].
    - unfold lpad. destruct (Nat.ltb_spec (length v) n) as [L2|L2].
      + destruct (Nat.ltb_spec p (n + (n - length v))); [|lia]. cbn [andb].
        destruct (Nat.ltb_spec p (n - length v)).
        * rewrite app_nth1 by (rewrite repeat_length; lia). rewrite nth_repeat_any by lia. reflexivity.
        * rewrite app_nth2 by (rewrite repeat_length; lia). rewrite repeat_length.
          destruct (Nat.ltb_spec (p - (n - length v)) (length v)); [reflexivity|lia].
      + replace (n - length v) with 0 by lia. cbn [repeat app].
        rewrite Nat.add_0_r, Nat.sub_0_r.
        destruct (Nat.ltb_spec p n), (Nat.ltb_spec p 0), (Nat.ltb_spec p (length v)); try lia. reflexivity.
    - destruct (Nat.ltb_spec (length v) n); [lia|]. rewrite Nat.add_0_r, Nat.sub_0_r.
      destruct (Nat.ltb_spec p n), (Nat.ltb_spec p 0), (Nat.ltb_spec p (length v)); try lia.
      rewrite nth_firstn_lt by lia. reflexivity. }
  unfold WF, Clean; cbn [buf bitlen allocated bsign]. repeat split; auto; try lia.
  - intros p Hp. rewrite HG. unfold g, off.
    destruct (Nat.ltb_spec (length v) n).
    + destruct (Nat.ltb_spec p (n - length v)), (Nat.ltb_spec (p - (n - length v)) (length v)); try lia.
      all: rewrite ?andb_false_r; auto.
    + rewrite Nat.add_0_r. destruct (Nat.ltb_spec p n); [lia|reflexivity].
  - apply bits_of_ext; cbn [bitlen buf].
    + unfold from_i_len_bits. fold v. destruct (Nat.leb_spec (length v) n).
      * unfold lpad. rewrite app_length, repeat_length. lia.
      * apply firstn_length_le. lia.
    + assumption.
Qed.

Lemma from_i_len_fits i n : (Z.abs i < 2 ^ Z.of_nat n)%Z ->
  length (from_i_len_bits i n) = n /\ bval (from_i_len_bits i n) = Z.abs i.
Proof.
  intros H. apply binary_zv_length in H. unfold from_i_len_bits.
  destruct (Nat.leb_spec (length (binary_zv i)) n); [|lia]. unfold lpad. split.
  - rewrite app_length, repeat_length. lia.
  - rewrite bval_repeat_false. apply bval_binary_zv.
Qed.

(** ** Text constructors *)
Lemma bits_from_bin_ok s :
  good (bits_from_bin s) false (map (fun c => Ascii.eqb c "1"%char) s).
Proof.
  unfold bits_from_bin.
  replace (map (fun c => Ascii.eqb c "1"%char) s)
    with (map (fun i => Ascii.eqb (nth i s zero) "1"%char) (seq 0 (length s))).
  2:{ rewrite <- (map_map (fun i => nth i s zero) (fun c => Ascii.eqb c "1"%char)), map_nth_seq. reflexivity. }
  apply or_loop_new. intros i b Hi HL HB. rewrite (rd_nth zero) by assumption. cbn [bind].
  destruct (Ascii.eqb (nth i s zero) "1"%char) eqn:E.
  - exists 1%N. left. repeat split; lia.
  - exists 0%N. right. auto.
Qed.

Lemma bits_from_bitvec_ok v :
  good (bits_from_bitvec v) false (map (fun x => x =? 1)%Z v).
Proof.
  unfold bits_from_bitvec.
  replace (map (fun x => x =? 1)%Z v)
    with (map (fun i => nth i v 0 =? 1)%Z (seq 0 (length v))).
  2:{ rewrite <- (map_map (fun i => nth i v 0%Z) (fun x => x =? 1)%Z), map_nth_seq. reflexivity. }
  apply or_loop_new. intros i b Hi HL HB. rewrite (rd_nth 0%Z) by assumption. cbn [bind].
  destruct (nth i v 0 =? 1)%Z eqn:E.
  - exists 1%N. left. repeat split; lia.
  - exists 0%N. right. auto.
Qed.

Lemma bits_from_raw_ok a n : bytes a -> n <= 8 * length a ->
  goodish (bits_from_raw a n) false (map (getb a) (seq 0 n)).
Proof.
  intros Hb Hn. unfold bits_from_raw. destruct (Nat.ltb_spec 0 n) as [L|L].
  - assert (BYTE_LEN n <= length a) by (apply byte_len_le; assumption).
    rewrite memdup_ok by assumption. cbn [bind]. eexists; split; [reflexivity|].
    unfold WF; cbn [buf bitlen allocated bsign]. rewrite firstn_length. repeat split; try lia.
    + apply bytes_firstn; assumption.
    + unfold bits_of; cbn [buf bitlen]. apply map_ext_in. intros i Hi. apply in_seq in Hi.
      apply getb_firstn. pose proof (byte_len_ge n). lia.
  - assert (n = 0) by lia. subst. eexists; split; [reflexivity|].
    unfold WF; cbn. repeat split; auto.
Qed.

(** nibbles *)
Definition nib_bits (v : N) : list bool :=
  [N.testbit v 3; N.testbit v 2; N.testbit v 1; N.testbit v 0].
Definition hex_bits (s : list ascii) : list bool := flat_map (fun c => nib_bits (nibble_of c)) s.

Lemma nibble_lt c : (nibble_of c < 16)%N.
Proof.
  unfold nibble_of. set (n := N_of_ascii c).
  destruct ((48 <=? n)%N && (n <=? 57)%N) eqn:?; [lia|].
  destruct ((97 <=? n)%N && (n <=? 102)%N) eqn:?; [lia|].
  destruct ((65 <=? n)%N && (n <=? 70)%N) eqn:?; lia.
Qed.

Lemma nth_flat_map4 {A B} (f : A -> list B) (Hf : forall a, length (f a) = 4) (da : A) (d : B) s :
  forall i, i < 4 * length s -> nth i (flat_map f s) d = nth (i mod 4) (f (nth (i / 4) s da)) d.
Proof.
  induction s as [|c s IH]; intros i Hi; cbn [Datatypes.length] in Hi; [lia|].
  cbn [flat_map]. destruct (Nat.lt_ge_cases i 4) as [L|L].
  - rewrite app_nth1 by (rewrite Hf; assumption).
    replace (i mod 4) with i by lia. replace (i / 4) with 0 by lia. reflexivity.
  - rewrite app_nth2 by (rewrite Hf; assumption). rewrite Hf, IH by lia.
    replace (i / 4) with (S ((i - 4) / 4)) by lia.
    replace ((i - 4) mod 4) with (i mod 4) by lia. reflexivity.
Qed.

Lemma flat_map_length4 {A B} (f : A -> list B) s :
  (forall a, length (f a) = 4) -> length (flat_map f s) = 4 * length s.
Proof. intros H. induction s; cbn; [reflexivity|]. rewrite app_length, H, IHs. lia. Qed.

Lemma nth_nib_bits v k : k < 4 -> nth k (nib_bits v) false = N.testbit v (N.of_nat (3 - k)).
Proof. intros H. destruct k as [|[|[|[|k]]]]; [reflexivity..|lia]. Qed.

Lemma shl_nib_byte v k : (v < 16)%N -> k <= 4 -> (N.shiftl v (N.of_nat k) < 256)%N.
Proof.
  intros Hv Hk. rewrite N.shiftl_mul_pow2.
  assert (2 ^ N.of_nat k <= 2 ^ 4)%N by (apply N.pow_le_mono_r; lia). nia.
Qed.

Lemma bits_from_hex_ok s : good (bits_from_hex s) false (hex_bits s).
Proof.
  unfold bits_from_hex. set (n := length s).
  set (g := fun p => nth p (hex_bits s) false).
  destruct (for_to_inv (fun k b' => length b' = BYTE_LEN (n * 4) /\ bytes b' /\
     forall p, getb b' p = (p <? 4 * k) && g p)
     (fun i b =>
      do c <- rd s i;
      do x <- rd b (i / 2);
      wr b (i / 2) (N.lor x (N.shiftl (nibble_of c) (N.of_nat ((1 - i mod 2) * 4))) mod 256)%N)
     n (buf (bits_new (n * 4)))) as (t & Ht & HL & HB & HG).
  - cbn [buf bits_new]. split; [apply repeat_length|]. split; [apply bytes_repeat0|].
    intros p. rewrite getb_repeat0. reflexivity.
  - intros j t Hj (HL & HB & HG). pose proof (byte_len_ge (n * 4)) as HBL.
    rewrite (rd_nth zero) by assumption. cbn [bind].
    rewrite (rd_nth 0%N) by lia. cbn [bind]. rewrite wr_ok by lia.
    eexists; split; [reflexivity|].
    assert (Hlt : (N.lor (nth (j / 2) t 0) (N.shiftl (nibble_of (nth j s zero)) (N.of_nat ((1 - j mod 2) * 4))) < 256)%N).
    { apply lor_byte; [apply bytes_nth; assumption|]. apply shl_nib_byte; [apply nibble_lt|lia]. }
    rewrite N.mod_small by assumption. repeat split.
    + rewrite upd_length; assumption.
    + apply bytes_upd; assumption.
    + intros p. rewrite getb_upd by lia.
      destruct (Nat.eqb_spec (p / 8) (j / 2)) as [E|D].
      * rewrite N.lor_spec.
        assert (T : N.testbit (nth (j / 2) t 0%N) (N.of_nat (7 - p mod 8)) = getb t p)
          by (unfold getb; rewrite E; reflexivity).
        rewrite T, HG.
        destruct (Nat.eq_dec (p / 4) j) as [Ej|Dj].
        -- (* this nibble *)
           destruct (Nat.ltb_spec p (4 * j)), (Nat.ltb_spec p (4 * S j)); try lia. cbn [andb orb].
           unfold g, hex_bits. rewrite (nth_flat_map4 (fun c => nib_bits (nibble_of c)) (fun _ => eq_refl) zero) by (fold n; lia).
           rewrite nth_nib_bits by lia. rewrite Ej.
           rewrite N.shiftl_spec_high by lia. f_equal. lia.
        -- rewrite orb_comm.
           replace (N.testbit (N.shiftl (nibble_of (nth j s zero)) (N.of_nat ((1 - j mod 2) * 4)))
                     (N.of_nat (7 - p mod 8))) with false.
           2:{ symmetry. destruct (Nat.lt_ge_cases (7 - p mod 8) ((1 - j mod 2) * 4)) as [L|L].
               - apply N.shiftl_spec_low. lia.
               - rewrite N.shiftl_spec_high by lia.
                 apply (testbit_lt _ 4); [apply nibble_lt|]. lia. }
           cbn [orb].
           destruct (Nat.ltb_spec p (4 * j)), (Nat.ltb_spec p (4 * S j)); auto; lia.
      * rewrite HG.
        destruct (Nat.ltb_spec p (4 * j)), (Nat.ltb_spec p (4 * S j)); auto; lia.
  - rewrite Ht. cbn [bind bits_new bsign bitlen allocated]. eexists; split; [reflexivity|].
    unfold WF, Clean; cbn [buf bitlen allocated bsign]. repeat split; auto; try lia.
    + intros i Hi. rewrite HG. destruct (Nat.ltb_spec i (4 * n)); [lia|reflexivity].
    + apply bits_of_ext; cbn [bitlen buf].
      * unfold hex_bits. rewrite flat_map_length4 by reflexivity. fold n. lia.
      * intros i Hi. rewrite HG. destruct (Nat.ltb_spec i (4 * n)); [reflexivity|lia].
Qed.

(** ** Readers *)
Lemma GET_WF b i : WF b -> i < bitlen b -> GET_BIT (buf b) i = Ok (N.b2n (nth i (bits_of b) false)).
Proof.
  intros (H1 & H2 & H3) Hi. rewrite nth_bits_of by assumption. apply GET_BIT_ok.
  apply byte_len_le in H2. lia.
Qed.

Lemma bits_to_i_ok b : WF b -> bits_to_i b = Ok (bsign b, bval (bits_of b)).
Proof.
  intros H. unfold bits_to_i.
  destruct (for_to_inv (fun k v => v = (bval (firstn k (bits_of b)) * 2 ^ Z.of_nat (bitlen b - k))%Z)
    (fun i result =>
      do g <- GET_BIT (buf b) i;
      if negb (N.eqb g 0) then Ok (result + 2 ^ Z.of_nat (bitlen b - i - 1))%Z
      else Ok result) (bitlen b) 0%Z) as (t & Ht & HV).
  - reflexivity.
  - intros j t Hj ->. rewrite GET_WF by assumption. cbn [bind].
    assert (S1 : firstn (S j) (bits_of b) = firstn j (bits_of b) ++ [nth j (bits_of b) false]).
    { assert (LL : j < length (bits_of b)) by (rewrite bits_of_length; assumption).
      revert LL. generalize (bits_of b). clear. induction j; intros [|x l] L; cbn in *; try lia; auto.
      f_equal. apply IHj. lia. }
    rewrite S1, bval_app. cbn [Datatypes.length].
    replace (bitlen b - j - 1) with (bitlen b - S j) by lia.
    replace (bitlen b - j) with (S (bitlen b - S j)) by lia.
    rewrite Nat2Z.inj_succ, Z.pow_succ_r by lia.
    destruct (nth j (bits_of b) false); cbn [N.b2n N.eqb negb]; eexists; (split; [reflexivity|]);
      change (2 ^ Z.of_nat 1)%Z with 2%Z; change (bval [true]) with 1%Z;
      change (bval [false]) with 0%Z; ring.
  - rewrite Ht. cbn [bind]. rewrite HV, Nat.sub_diag.
    rewrite firstn_all2 by (rewrite bits_of_length; lia). rewrite Z.mul_1_r. reflexivity.
Qed.

Lemma bits_to_bitvec_ok b : WF b -> bits_to_bitvec b = Ok (map Z.b2z (bits_of b)).
Proof.
  intros H. unfold bits_to_bitvec.
  destruct (for_to_inv (fun k v => length v = bitlen b /\
     forall i, nth i v 0%Z = if (i <? k) then Z.b2z (nth i (bits_of b) false) else 0%Z)
    (fun i v => do g <- GET_BIT (buf b) i;
       if negb (N.eqb g 0) then wr v i 1%Z else Ok v) (bitlen b) (repeat 0%Z (bitlen b)))
    as (t & Ht & HL & HV).
  - split; [apply repeat_length|]. intros i. cbn [Nat.ltb Nat.leb].
    destruct (Nat.lt_ge_cases i (bitlen b)); [apply nth_repeat|].
    apply nth_overflow. rewrite repeat_length. assumption.
  - intros j t Hj (HL & HV). rewrite GET_WF by assumption. cbn [bind].
    destruct (nth j (bits_of b) false) eqn:E; cbn [N.b2n N.eqb negb].
    + rewrite wr_ok by lia. eexists; split; [reflexivity|]. split; [rewrite upd_length; assumption|].
      intros i. rewrite upd_nth by lia. rewrite HV.
      destruct (Nat.eqb_spec i j), (Nat.ltb_spec i j), (Nat.ltb_spec i (S j)); subst; auto; try lia.
      rewrite E. reflexivity.
    + exists t. repeat split; auto. intros i. rewrite HV.
      destruct (Nat.ltb_spec i j), (Nat.ltb_spec i (S j)); auto; try lia.
      replace i with j by lia. rewrite E. reflexivity.
  - rewrite Ht. f_equal. apply nth_ext with (d := 0%Z) (d' := Z.b2z false).
    + rewrite map_length, bits_of_length. assumption.
    + intros i Hi. rewrite HV. rewrite map_nth. destruct (Nat.ltb_spec i (bitlen b)); [reflexivity|lia].
Qed.

Lemma bits_to_raw_ok b : WF b -> bitlen b <> 0 ->
  exists a, bits_to_raw b = Ok (Some a) /\ length a = BYTE_LEN (bitlen b) /\ bytes a /\
    map (getb a) (seq 0 (bitlen b)) = bits_of b.
Proof.
  intros (H1 & H2 & H3) Hn. unfold bits_to_raw. destruct (Nat.eqb_spec (bitlen b) 0); [lia|].
  rewrite memdup_ok by lia. cbn [bind]. eexists; split; [reflexivity|].
  rewrite firstn_length. repeat split; [lia|apply bytes_firstn; assumption|].
  unfold bits_of. apply map_ext_in. intros i Hi. apply in_seq in Hi. apply getb_firstn.
  pose proof (byte_len_ge (bitlen b)). lia.
Qed.
