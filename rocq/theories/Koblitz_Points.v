(** C44: the tabulated orders count the points of the curves, over the field of any irreducible polynomial. *)
From Coq Require Import Ascii String.
From Verif Require Import Base Ec Irr_Spec Poly_Model Cli_Model Plan_Model Plan_Spec Plan_Props Koblitz_Model Koblitz_Props.
From Verif Require Ec_F2m Irr_Props GF2 Kb_Count Poly_Props.
Local Open Scope Z_scope.

Lemma size_degree bits c : 0 <= bits -> length c = Z.to_nat (bits + 1) -> nth (Z.to_nat bits) c 0 = 1 -> field_size (Binary c) = 2 ^ bits.
Proof.
  intros B L N. cbn [field_size]. unfold Ec_F2m.bsize. f_equal.
  assert (T : forall n, N.testbit (to_N c) n = coef c (N.to_nat n)) by (intros n; rewrite <- (Irr_Props.to_N_bit c (N.to_nat n)), N2Nat.id; reflexivity).
  assert (Hi : N.testbit (to_N c) (Z.to_N bits) = true) by (rewrite T; unfold coef; rewrite Z_N_nat, N; reflexivity).
  assert (Z0 : to_N c <> 0%N) by (intros E; rewrite E, N.bits_0 in Hi; discriminate).
  pose proof (N.bit_log2 _ Z0) as Tp. destruct (N.lt_trichotomy (N.log2 (to_N c)) (Z.to_N bits)) as [X|[X|X]]; [|lia|].
  - rewrite (N.bits_above_log2 _ _ X) in Hi. discriminate.
  - rewrite T in Tp. unfold coef in Tp. rewrite nth_overflow in Tp by lia. discriminate.
Qed.
Lemma binaryr_degree m c : m <> 1060 -> field_binaryr m = Ok c -> length c = Z.to_nat (m + 1) /\ field_size (Binary c) = 2 ^ m.
Proof.
  intros N H. unfold field_binaryr in H. destruct (poly_exists m) eqn:E; [|discriminate]. unfold poly_exists in E. apply andb_true_iff in E. destruct E as (E1 & E2). apply Z.leb_le in E1, E2.
  unfold poly_find_gen in H. destruct (Poly_Props.C41_found_partial m ltac:(lia) N) as (p & Fp & M & TP). rewrite Fp in H. cbn [bind] in H.
  destruct (Poly_Props.C41_coefficients p TP) as (v & Gv & Lv & Cv). rewrite H in Gv. injection Gv as <-. rewrite M in *.
  split; [exact Lv|]. apply size_degree; [lia|exact Lv|]. rewrite Cv by lia. now rewrite Z.eqb_refl.
Qed.

(** y^2 + x y = x^3 + a x^2 + 1 over GF(2)[z] modulo [c] *)
Theorem C44_points e c : In e koblitz_curves -> irreducible_poly c -> field_size (Binary c) = 2 ^ k_m e -> points (Binary c) (k_a e) 1 = k_order e.
Proof.
  intros I Ir S. destruct (C44_orders e I) as (A & O). pose proof (Irr_Props.irreducible_to_N c Ir) as IN. pose proof (Kb_Count.koblitz_count (Irr_Props.to_N c) (k_a e) IN A) as C.
  cbn [field_size] in S. unfold Ec_F2m.bsize in S. pose proof (table_small e I) as B. apply Z.pow_inj_r in S; [|lia|lia|lia]. rewrite S in C. cbn [points].
  apply points_fun in C. apply points_fun in O. congruence.
Qed.
(** With the field that the program makes for the degree: it is one, and the points are as tabulated. *)
Theorem C44_table e : In e koblitz_curves -> exists c, field_binaryr (k_m e) = Ok c /\ irreducible_poly c /\ length c = Z.to_nat (k_m e + 1) /\ points (Binary c) (k_a e) 1 = k_order e.
Proof.
  intros I. assert (H : forallb (fun e => existsb (Z.eqb (k_m e)) Irr_Props.checked_degrees) koblitz_curves = true) by (vm_compute; reflexivity).
  rewrite forallb_forall in H. specialize (H e I). apply existsb_exists in H. destruct H as (m & M & E). apply Z.eqb_eq in E. rewrite E in *.
  pose proof Irr_Props.checked as C. rewrite forallb_forall in C. destruct (Irr_Props.chk_ok m (C m M)) as (c & F & Ir). exists c. split; [exact F|]. split; [exact Ir|].
  pose proof (table_small e I) as B. destruct (binaryr_degree m c ltac:(lia) F) as (D & Sz). split; [exact D|]. apply C44_points; [exact I|exact Ir|]. rewrite E. exact Sz.
Qed.
Example C44_example : In (K 163 1 0x800000000000000000004021145c1981b33f14bde) koblitz_curves.
Proof. repeat (try (left; reflexivity); right). Qed.
(** the count in a field where it can be done one by one *)
Example C44_example_small : irreducible_poly [1; 1; 0; 1] /\ points (Binary [1; 1; 0; 1]) 1 1 = 14 /\ koblitz_points 3 1 14.
Proof.
  split; [destruct (Irr_Props.C42_irreducible_partial 3 ltac:(lia)) as (c & E & Ir & _); vm_compute in E; injection E as <-; exact Ir|].
  split; [vm_compute; reflexivity|]. apply points_fun. vm_compute. reflexivity.
Qed.

(** ** C45 *)
Lemma wr_one v i v' : wr v i 1 = Ok v' -> nth i v' 0 = 1 /\ forall j, nth j v 0 = 1 -> nth j v' 0 = 1.
Proof.
  unfold wr. destruct (i <? length v)%nat eqn:L; [|discriminate]. apply Nat.ltb_lt in L. intros [= <-]. split; [|intros j J]; rewrite upd_nth by exact L.
  - now rewrite Nat.eqb_refl.
  - destruct (_ =? _)%nat; [reflexivity|exact J].
Qed.
Lemma input_top irr bits m e1 e2 e3 poly : field_input_binary irr bits m e1 e2 e3 = Ok (Some poly) -> nth (Z.to_nat bits) poly 0 = 1.
Proof.
  unfold field_input_binary. intros H. destruct (Z.eqb_spec m bits) as [->|]; [|discriminate]. cbn [negb] in H.
  destruct ((e1 =? -1) || (bits <? e1)); [discriminate|]. destruct ((e2 =? -1) || (bits <? e2)); [discriminate|].
  destruct ((e3 =? -1) || (bits <? e3)); [discriminate|]. destruct ((e1 =? 0) && (e2 =? 0) && (e3 =? 0)); [discriminate|].
  assert (O : forall (b : bool) (v : list Z) i v', (if b then wr v i 1 else Ok v) = Ok v' -> nth (Z.to_nat bits) v 0 = 1 -> nth (Z.to_nat bits) v' 0 = 1).
  { intros [] v i v' W; [apply wr_one in W; apply W|congruence]. }
  apply bind_some in H. destruct H as (v1 & W1 & H). apply wr_one in W1. destruct W1 as (W1 & _).
  apply bind_some in H. destruct H as (v2 & W2 & H). apply O in W2; [|exact W1].
  apply bind_some in H. destruct H as (v3 & W3 & H). apply O in W3; [|exact W2].
  apply bind_some in H. destruct H as (v4 & W4 & H). apply O in W4; [|exact W3].
  apply bind_some in H. destruct H as (v5 & W5 & H). apply wr_one in W5. apply W5 in W4. destruct (irr v5); [|discriminate]. injection H as <-. exact W4.
Qed.
(** Full statement: in every accepted configuration whose order stage is order_gen_koblitz, the order assigned is the
    number of points of the curve. Missing: prime fields and the twist method, where it is false, see [C45_refuted] and
    [C45_twist_refuted]. Here: binary fields without a twist, where the points of the curve over the field of the run
    are counted. *)
Theorem C45_points_partial np os args c set order_prime su gf poly :
  cli np os args = Some (c, set) -> c_method c = METHOD_DEFAULT ->
  snd (main_job c order_prime) = JExhaustive su (c_count c) ->
  gen_at su ORDER = Some Plan_Model.order_gen_koblitz ->
  gen_at su FIELD = Some gf -> binary_field_of gf (c_bits c) poly -> irreducible_poly poly ->
  exists ga a, gen_at su A = Some ga /\ coefficient_of ga = Some (Int a) /\ (a = 0 \/ a = 1) /\
    (exists gb, gen_at su B = Some gb /\ coefficient_of gb = Some (Int 1)) /\ field_size (Binary poly) = 2 ^ c_bits c /\
    Koblitz_Model.order_gen_koblitz (c_bits c) (Int a) (points (Binary poly) a 1) = Ok (points (Binary poly) a 1).
Proof.
  intros H Hm Hj Ho Hf Hb Ir. destruct (C45_binary_partial np os args c set order_prime su gf poly H Hm Hj Ho Hf Hb) as (ga & a & Ga & Ca & Aa & Gb & L & Q).
  exists ga, a. split; [exact Ga|]. split; [exact Ca|]. split; [exact Aa|]. split; [exact Gb|].
  assert (S : field_size (Binary poly) = 2 ^ c_bits c).
  { destruct gf; try (destruct Hb; fail); cbn [binary_field_of] in Hb.
    - pose proof (random_degree _ _ Hb) as (B & _). destruct (Z.eq_dec (c_bits c) 1060) as [E|N]; [exfalso; revert Hb; rewrite E; vm_compute; discriminate|]. now apply binaryr_degree.
    - destruct Hb as (irr & m & e1 & e2 & e3 & F & Hb). pose proof (input_top _ _ _ _ _ _ _ Hb) as T. destruct (input_degree _ _ _ _ _ _ _ Hb) as (-> & Lp).
      apply size_degree; [|exact Lp|exact T]. destruct poly; [destruct (Z.to_nat (c_bits c)); discriminate T|]. cbn [length] in L. lia. }
  split; [exact S|]. apply Q. pose proof (Irr_Props.irreducible_to_N poly Ir) as IN. pose proof (Kb_Count.koblitz_count (Irr_Props.to_N poly) a IN Aa) as C.
  cbn [field_size] in S. unfold Ec_F2m.bsize in S. destruct poly as [|x poly]; [destruct Ir as (X & _); exfalso; revert IN; cbn; intros (IN & _); lia|]. cbn [length] in L.
  apply Z.pow_inj_r in S; [|lia|lia|lia]. rewrite S in C. exact C.
Qed.
Example C45_points_example : exists c set su poly, cli 4 [OF2m; ORandom None; OKoblitz (Some (lit "1"))] [lit "163"] = Some (c, set) /\
  c_method c = METHOD_DEFAULT /\ snd (main_job c false) = JExhaustive su (c_count c) /\ gen_at su ORDER = Some Plan_Model.order_gen_koblitz /\
  gen_at su FIELD = Some field_gen_random /\ binary_field_of field_gen_random (c_bits c) poly /\ irreducible_poly poly.
Proof.
  destruct (Irr_Props.C42_irreducible_partial 163 ltac:(lia)) as (poly & E & Ir & _).
  eexists _, _, _, poly. split; [vm_compute; reflexivity|]. split; [reflexivity|]. split; [vm_compute; reflexivity|].
  split; [reflexivity|]. split; [reflexivity|]. split; [exact E|exact Ir].
Qed.
Print Assumptions C44_points.
Print Assumptions C44_table.
Print Assumptions C45_points_partial.
