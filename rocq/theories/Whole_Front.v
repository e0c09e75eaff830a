(** The stages before that of the curve, one by one: the seed, the field and the coefficients. *)
From Coq Require Import Ascii Znumtheory.
From Verif Require Import Base Poly_Model Random_Model Random_Props Cli_Model Ec Whole_Model Whole_Spec Whole_Stages.
From Verif Require Plan_Model Engine_Model CurveText_Spec Input_Model Input_Props.
Local Open Scope Z_scope.
Local Open Scope list_scope.

Lemma prime_fits cfg f (a b : Z) : every (prime_over (c_bits cfg)) f a b -> field_fits cfg f.
Proof. destruct f as [p|c]; [|intros []]. intros (A & B). split; [intros _; cbn [field_size]; lia|exact A]. Qed.

Section Front.
Variable P : pari.
Variable cfg : config.
Hypothesis PO : pari_ok P (c_bits cfg).
Notation bits := (c_bits cfg).
Hypothesis Hb : 3 <= bits < 2 ^ 61.
Hypothesis FP : c_field cfg = FIELD_PRIME.
Variable tries : nat.
Variable delim : ascii.
Notation gen := (generator P cfg tries delim).

Lemma bits_over p : prime p -> has_bits p bits -> field_over bits p /\ 3 < p.
Proof.
  intros A (B & C). assert (4 <= 2 ^ (bits - 1)) by (change 4 with (2 ^ 2); apply Z.pow_le_mono_r; lia). split; [split; [exact A|lia]|lia].
Qed.
Lemma random_prime_cases fuel : forall t, random_prime (randomprime P) (isprime P) fuel bits t <> UB.
Proof.
  induction fuel as [|f IH]; intros t; cbn [random_prime]; [discriminate|]. destruct (range bits) as [x y].
  destruct (randomprime P x y (t 0%nat)) as [q|]; [|discriminate]. destruct (isprime P q); [discriminate|apply IH].
Qed.
Lemma field_random arg d t c : match gen Plan_Model.field_gen_random arg d t c with
  | Ok (c', r) => r = 1 /\ exists p, c' = set_field (Prime p) c /\ prime p /\ has_bits p bits /\ field_over bits p
  | UB => False
  | _ => True
  end.
Proof.
  cbn [generator]. rewrite FP. change (FIELD_PRIME =? FIELD_PRIME) with true. cbv iota. pose proof (random_prime_cases tries (d_seq d)) as NU.
  destruct (random_prime (randomprime P) (isprime P) tries bits (d_seq d)) as [q| | |] eqn:R; cbn [bind]; try exact I; [|congruence].
  destruct (C62_prime (randomprime P) (isprime P) (pc_randomprime _ _ PO) (pc_isprime _ _ PO) _ bits _ _ ltac:(lia) R) as (A & B).
  split; [reflexivity|]. exists q. split; [reflexivity|]. split; [exact A|]. split; [exact B|]. now apply bits_over.
Qed.
Lemma a_random arg d t c p : k_field c = Some (Prime p) -> field_over bits p -> exists a, gen Plan_Model.a_gen_random arg d t c = Ok (set_a (Int a) c, 1) /\ 0 <= a < p.
Proof.
  intros K (L & _). apply prime_ge_2 in L. cbn [generator]. rewrite K. cbn [need bind Whole_Model.genrand]. destruct (C62_field_element p (d_one d) ltac:(lia)) as (x & -> & X). exists x. auto.
Qed.
Lemma b_random arg d t c p : k_field c = Some (Prime p) -> field_over bits p -> exists b, gen Plan_Model.b_gen_random arg d t c = Ok (set_b (Int b) c, 1) /\ 0 <= b < p.
Proof.
  intros K (L & _). apply prime_ge_2 in L. cbn [generator]. rewrite K. cbn [need bind Whole_Model.genrand]. destruct (C62_field_element p (d_one d) ltac:(lia)) as (x & -> & X). exists x. auto.
Qed.

(** ** Parameters that are typed in *)
Section Typed.
Hypothesis DL : Input_Props.delimiter delim.
Lemma field_input arg d t c : match gen Plan_Model.field_gen_input arg d t c with
  | Ok (c', r) => (r = 1 /\ exists p, c' = set_field (Prime p) c /\ field_over bits p /\ typed delim t (fun v => v = p)) \/ r = Engine_Model.INT_MIN \/ (r = 0 /\ c' = c)
  | _ => False
  end.
Proof.
  cbn [generator]. rewrite FP. change (negb (FIELD_PRIME =? FIELD_PRIME)) with false. cbv iota. unfold put_field. set (s := field_stream t).
  destruct (Input_Props.C47_prime_partial (isprime P) delim bits s DL ltac:(lia) eq_refl (pc_isprime _ _ PO)) as (_ & _ & H).
  unfold Input_Model.field_gen_input_prime in *. destruct (Input_Model.input_prime (isprime P) delim bits s) as (v, s') eqn:E.
  pose proof (Input_Props.C54_prime (isprime P) delim bits s v s' ltac:(lia) eq_refl (pc_isprime _ _ PO) E) as B.
  destruct (Z.eqb_spec v (-1)); [right; right; auto|]. destruct (Z.eqb_spec v (-2)); [right; left; reflexivity|]. cbn [fst] in *.
  destruct (B n n0) as (Pv & R). left. split; [reflexivity|]. exists v. split; [reflexivity|]. split; [split; [exact Pv|lia]|].
  intros u r closed x It N. destruct (H u r closed x It N) as (_ & [(X & _)|(X & _)]); [congruence|]. exfalso. apply X. exists v. reflexivity.
Qed.
Lemma coefficient_input (t : str) p : 1 < p -> let o := fst (Input_Model.a_gen_input delim bits (Prime p) (field_stream t)) in
  (exists x, o = Input_Model.Value x /\ 0 <= CurveText_Spec.elem_int x < p /\ typed delim t (fun v => v <= 2 ^ bits /\ CurveText_Spec.elem_int x = v mod p)) \/
  o = Input_Model.Stop \/ (o = Input_Model.Again /\ refused delim bits t).
Proof.
  intros Lp. cbv zeta. set (s := field_stream t). destruct (Input_Props.C47_coefficient_partial delim bits (Prime p) s DL ltac:(lia) eq_refl) as (_ & _ & H).
  unfold Input_Model.a_gen_input in *. destruct (Input_Model.input_int delim bits s) as (v, s').
  destruct (Z.eqb_spec v (-1)); [|destruct (Z.eqb_spec v (-2))]; cbn [fst] in *.
  - right; right. split; [reflexivity|]. intros u r closed x It N. destruct (H u r closed x It N) as (_ & [(X & _)|(_ & X)]); [discriminate X|exact X].
  - right; left. reflexivity.
  - left. eexists. split; [reflexivity|]. split; [cbn; apply Z.mod_pos_bound; lia|]. intros u r closed x It N.
    destruct (H u r closed x It N) as (_ & [(X & Y)|(X & _)]); [|exfalso; apply X; eexists; reflexivity]. injection X as X. split; [exact Y|]. cbn. congruence.
Qed.
End Typed.
End Front.
