(** C69: the search for a family curve and its random parameter. *)
From Verif Require Import Base Random_Model Random_Props Family_Model.
Local Open Scope Z_scope.

(** A run of the equation step over a list of calls (address of the curve, field): the coefficients
    and the statics at the end. *)
Fixpoint eq_run (st : bstate) (calls : list (Z * Z)) : list (Z * Z) * bstate :=
  match calls with
  | [] => ([], st)
  | (c, p) :: r => let '(ab, st') := family_gen_equation_iter c p st in
                   let '(l, st2) := eq_run st' r in (ab :: l, st2)
  end.

(** ** Specification: curves as (address, fields of its attempts); the n-th attempt, counted from
    [first], is a = 0, b = n in the field of the attempt. *)
Fixpoint attempts (first : Z) (ps : list Z) : list (Z * Z) :=
  match ps with [] => [] | p :: r => (0, first mod p) :: attempts (first + 1) r end.
Definition calls_of (curves : list (Z * list Z)) : list (Z * Z) := flat_map (fun x => map (pair (fst x)) (snd x)) curves.
Fixpoint moves (last : option Z) (curves : list (Z * list Z)) : Prop :=
  match curves with
  | [] => True
  | (c, ps) :: r => last <> Some c /\ ps <> [] /\ moves (Some c) r
  end.

Lemma eq_run_app st l m : eq_run st (l ++ m) =
  (fst (eq_run st l) ++ fst (eq_run (snd (eq_run st l)) m), snd (eq_run (snd (eq_run st l)) m)).
Proof.
  revert st. induction l as [|(c, p) l IH]; intros st; cbn [app eq_run]; [cbn [fst snd app]; now rewrite <- surjective_pairing|].
  destruct (family_gen_equation_iter c p st) as (ab, st'). rewrite IH. destruct (eq_run st' l) as (x, y). reflexivity.
Qed.

Lemma same_run c ps : forall b, eq_run (Bs (Some b) (Some c)) (map (pair c) ps) =
  (attempts (b + 1) ps, Bs (Some (b + Z.of_nat (length ps))) (Some c)).
Proof.
  induction ps as [|p ps IH]; intros b; cbn [map eq_run attempts length]; [rewrite Z.add_0_r; reflexivity|].
  unfold family_gen_equation_iter. cbn [b_val b_curve]. rewrite Z.eqb_refl, IH. rewrite Zmod_0_l. replace (b + 1 + Z.of_nat (length ps)) with (b + Z.of_nat (S (length ps))) by lia. reflexivity.
Qed.

Lemma first_run st c p ps : b_val st = None \/ b_curve st <> Some c ->
  eq_run st (map (pair c) (p :: ps)) = (attempts 1 (p :: ps), Bs (Some (1 + Z.of_nat (length ps))) (Some c)).
Proof.
  intros H. cbn [map eq_run attempts].
  assert (E : family_gen_equation_iter c p st = ((0 mod p, 1 mod p), Bs (Some 1) (Some c))).
  { unfold family_gen_equation_iter. destruct (b_val st); [|reflexivity]. destruct H as [H|H]; [discriminate|].
    destruct (b_curve st) as [k|]; [|reflexivity]. destruct (Z.eqb_spec k c) as [->|]; [contradiction|reflexivity]. }
  rewrite E, same_run, Zmod_0_l. reflexivity.
Qed.

(** Full statement: every curve gets b = 1, 2, 3, ... Missing: a curve at the address of the one
    before it, see [C69_same_address_refuted]. *)
Theorem C69_search_partial curves : forall st, (b_val st = None \/ moves (b_curve st) curves) -> moves None curves ->
  fst (eq_run st (calls_of curves)) = flat_map (fun x => attempts 1 (snd x)) curves.
Proof.
  induction curves as [|(c, ps) r IH]; intros st H M; [reflexivity|]. destruct M as (_ & N & M).
  unfold calls_of. cbn [flat_map fst snd]. rewrite eq_run_app. destruct ps as [|p ps]; [contradiction|].
  rewrite first_run by (destruct H as [H|(H & _)]; [now left|now right]). cbn [fst snd]. f_equal.
  apply IH; [right; exact M|]. clear - M. destruct r as [|(c', ps') r]; [exact I|]. destruct M as (_ & M). split; [discriminate|exact M].
Qed.
Example C69_search_ex : moves None [(4096, [103; 103; 103]); (8192, [373; 373])] /\
  fst (eq_run (Bs None None) (calls_of [(4096, [103; 103; 103]); (8192, [373; 373])])) = [(0, 1); (0, 2); (0, 3); (0, 1); (0, 2)].
Proof. split; [cbn; repeat split; discriminate|reflexivity]. Qed.

(** A curve at the address of the curve before it (which has been freed) goes on with that one's b. *)
Theorem C69_same_address_refuted : exists curves, length curves = 2%nat /\ Forall (fun x => snd x <> []) curves /\
  fst (eq_run (Bs None None) (calls_of curves)) <> flat_map (fun x => attempts 1 (snd x)) curves.
Proof. exists [(4096, [103; 103]); (4096, [103; 103])]. split; [reflexivity|]. split; [repeat constructor; discriminate|discriminate]. Qed.
Theorem C69_same_address st c p ps qs : b_val st = None \/ b_curve st <> Some c ->
  fst (eq_run st (calls_of [(c, p :: ps); (c, qs)])) = attempts 1 (p :: ps ++ qs).
Proof.
  intros H. unfold calls_of. cbn [flat_map fst snd]. rewrite app_nil_r, <- map_app.
  change ((p :: ps) ++ qs) with (p :: ps ++ qs). now rewrite first_run.
Qed.
Example C69_same_address_ex : b_val (Bs None None) = None /\
  fst (eq_run (Bs None None) (calls_of [(4096, [103; 103]); (4096, [103])])) = [(0, 1); (0, 2); (0, 3)].
Proof. split; reflexivity. Qed.

(** The random parameter: its size, up to the outcome 2^bits (C62), whatever the sign bit. *)
Theorem C69_seed_partial bits t sign : 1 <= bits < 2 ^ 63 ->
  exists i, random_int bits t = Ok i /\ 0 < i /\ (has_bits i bits \/ i = 2 ^ bits) /\
    family_gen_seed_random i sign = (if sign =? 0 then 1 else -1) * i.
Proof.
  intros H. destruct (C62_int_partial bits t H) as (i & E & R). exists i. split; [exact E|].
  assert (0 < 2 ^ (bits - 1)) by (apply Z.pow_pos_nonneg; lia). assert (0 < 2 ^ bits) by (apply Z.pow_pos_nonneg; lia).
  split; [unfold has_bits in R; lia|]. split; [exact R|]. unfold family_gen_seed_random. destruct (sign =? 0); lia.
Qed.
(** every number of that size, positive or negative, can be drawn *)
Theorem C69_seed_any bits z : 1 <= bits < 2 ^ 63 -> has_bits (Z.abs z) bits ->
  exists t sign i, (sign = 0 \/ sign = 1) /\ random_int bits t = Ok i /\ family_gen_seed_random i sign = z.
Proof.
  intros H B. exists (Z.abs z - 2 ^ (bits - 1)), (if z <? 0 then 1 else 0), (Z.abs z).
  split; [destruct (z <? 0); tauto|]. split.
  - unfold random_int. rewrite range_ok by exact H. apply genrand_any. unfold has_bits in B. lia.
  - unfold family_gen_seed_random. destruct (Z.ltb_spec z 0); cbn [Z.eqb]; lia.
Qed.
Example C69_seed_ex : 1 <= 8 < 2 ^ 63 /\ has_bits (Z.abs (-133)) 8 /\ random_int 8 5 = Ok 133 /\
  family_gen_seed_random 133 1 = -133 /\ family_gen_seed_random 133 0 = 133.
Proof. unfold has_bits. repeat split; try lia; reflexivity. Qed.
Theorem C69_seed_refuted : exists bits t i, 1 <= bits /\ random_int bits t = Ok i /\ ~ has_bits (Z.abs (family_gen_seed_random i 1)) bits.
Proof. exists 8, 128, 256. split; [lia|]. split; [reflexivity|]. unfold has_bits. intros (_ & H). vm_compute in H. discriminate. Qed.

Print Assumptions C69_search_partial.
Print Assumptions C69_same_address_refuted.
Print Assumptions C69_same_address.
Print Assumptions C69_seed_partial.
Print Assumptions C69_seed_any.
Print Assumptions C69_seed_refuted.
