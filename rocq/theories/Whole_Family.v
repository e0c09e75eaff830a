(** C83: a whole run of the method for pairing-friendly curves y^2 = x^3 + b. *)
From Coq Require Import Ascii String Znumtheory.
From Verif Require Import Base Fp Abelian Ec Poly_Model Points_Model Points_Props Gens_Props Random_Model Random_Props Cli_Model Json_Spec CurveText_Spec Primes.
From Verif Require Import Whole_Model Whole_Spec Whole_Group Whole_Stages Whole_Proofs Whole_Front Whole_Run Whole_Default Whole_FamilySpec Shell_Fields.
From Verif Require ZPoly Poly_Props Bits_Model Bits_Spec Bits_Ops Bits_Round Input_Model Input_Props Family_Model Family_Props Plan_Model Engine_Model Shell_Model Shell_Spec Hex_Props.
Local Open Scope Z_scope.
Local Open Scope list_scope.

(** ** The plan *)
Record in_family (cfg : config) : Prop := {
  if_method : c_method cfg = METHOD_FAMILY;
  if_algo : c_seed_algo cfg = 0;
  if_family : sextic (c_family cfg);
  if_bits : 1 <= c_bits cfg < 2 ^ 61;
  if_type : 0 <= c_points_type cfg <= 4;
  if_amount : 0 <= c_points_amount cfg < 2 ^ 64;
  if_smooth : 0 <= c_smooth_value cfg < 2 ^ 63
}.
Lemma family_tail cfg : in_family cfg -> in_tail (family_cfg cfg).
Proof. intros [M L A B T N D]. constructor; try assumption; [discriminate|]. split; discriminate. Qed.
Definition fseed_f (cfg : config) : Plan_Model.gen_f := if negb (c_random cfg =? 0) then Plan_Model.family_gen_seed_random else Plan_Model.family_gen_seed_input.
Lemma family_plan cfg u : in_family cfg -> snd (Plan_Model.exhaustive_init cfg u) = Plan_Model.mkSetup
  [Some (fseed_f cfg); Some Plan_Model.family_gen_field; Some Plan_Model.gen_skip; Some Plan_Model.family_gen_equation_iter;
   Some Plan_Model.curve_gen_any; Some Plan_Model.family_gen_order; Some Plan_Model.gens_gen_any; Some (points_f cfg); Some (meta_f cfg)]
  [None; None; None; None; None; order_arg cfg; gens_arg cfg; points_arg cfg; None]
  [None; None; None; None; Some [Plan_Model.curve_check_nonzero]; None; None; hex_cell cfg; None]
  [None; None; None; None; None; None; None; hex_arg cfg; None]
  [Some Plan_Model.seed_unroll; Some Plan_Model.unroll_skip; Some Plan_Model.unroll_skip; Some Plan_Model.unroll_skip;
   Some Plan_Model.curve_unroll; Some Plan_Model.unroll_skip; Some Plan_Model.gens_unroll; Some Plan_Model.points_unroll; None].
Proof.
  intros [M L A _ T _ _].
  assert (HP : forall g, Plan_Model.points_init cfg g = Plan_Model.put Plan_Model.POINTS (points_f cfg) g).
  { intros g. unfold Plan_Model.points_init, points_f.
    assert (TT : c_points_type cfg = 0 \/ c_points_type cfg = 1 \/ c_points_type cfg = 2 \/ c_points_type cfg = 3 \/ c_points_type cfg = 4) by lia.
    destruct TT as [->|[->|[->|[->| ->]]]]; [reflexivity|reflexivity| |reflexivity|reflexivity].
    destruct (c_points_amount cfg =? 0); reflexivity. }
  assert (HM : forall g, (if c_metadata cfg then Plan_Model.put Plan_Model.METADATA Plan_Model.metadata_gen g else Plan_Model.put Plan_Model.METADATA Plan_Model.gen_skip g)
             = Plan_Model.put Plan_Model.METADATA (meta_f cfg) g).
  { intros g. unfold meta_f. destruct (c_metadata cfg); reflexivity. }
  assert (HF : (c_family cfg =? FAMILY_KSS16) || (c_family cfg =? FAMILY_KSS40) = false).
  { unfold sextic in A. cbn [In] in A. destruct A as [<-|[<-|[<-|[<-|[<-|[]]]]]]; reflexivity. }
  assert (HG : exists u', Plan_Model.exhaustive_ginit cfg u = (u', [Some (fseed_f cfg); Some Plan_Model.family_gen_field; Some Plan_Model.gen_skip; Some Plan_Model.family_gen_equation_iter;
   Some Plan_Model.curve_gen_any; Some Plan_Model.family_gen_order; Some Plan_Model.gens_gen_any; Some (points_f cfg); Some (meta_f cfg)])).
  { unfold Plan_Model.exhaustive_ginit, fseed_f. rewrite M, L, HF. cbv zeta.
    change (negb (0 =? 0)) with false;    change (METHOD_FAMILY =? METHOD_TWIST) with false; change (METHOD_FAMILY =? METHOD_SEED) with false; change (METHOD_FAMILY =? METHOD_FAMILY) with true; cbn iota.
    cbv beta iota; rewrite HM, HP; destruct (negb (c_random cfg =? 0)); eexists; reflexivity. }
  destruct HG as (u1 & HG). unfold Plan_Model.exhaustive_init. rewrite HG. clear HG HP HM.
  unfold Plan_Model.exhaustive_cinit, Plan_Model.exhaustive_ainit, Plan_Model.exhaustive_uinit, Plan_Model.hex_args, order_arg, gens_arg, points_arg, hex_cell, hex_arg.
  rewrite M, L. change (METHOD_FAMILY =? METHOD_SEED) with false. change (METHOD_FAMILY =? METHOD_FAMILY) with true. rewrite orb_true_r.
  cbn iota. cbn [snd]. f_equal.
  - destruct (c_points_type cfg =? POINTS_RANDOM), (c_cofactor cfg), (c_smooth cfg); reflexivity.
  - destruct (c_hex_check cfg); reflexivity.
  - destruct (c_hex_check cfg); reflexivity.
Qed.

(** ** Arithmetic *)
Ltac each_family H := unfold sextic in H; cbn [In] in H; destruct H as [<-|[<-|[<-|[<-|[<-|[]]]]]].
Ltac numbers := cbv beta iota zeta delta [family_numbers Z.eqb Pos.eqb FAMILY_BN FAMILY_BLS12 FAMILY_BLS24 FAMILY_KSS16 FAMILY_KSS18 FAMILY_KSS36 FAMILY_KSS40] in *.
Lemma numbers_unique family z p r p' r' : sextic family -> family_numbers family z p r -> family_numbers family z p' r' -> p = p' /\ r = r'.
Proof. intros S. each_family S; numbers; intros (A & B) (C & D); rewrite <- A in C; rewrite <- B in D; clear - C D; lia. Qed.
Lemma callgen_some f x v : Family_Model.den f <> 0 -> Family_Model.closure_callgen1 f x = Some v <-> Family_Model.den f * v = Family_Model.num f x.
Proof.
  intros N. unfold Family_Model.closure_callgen1. destruct (Z.eqb_spec (Family_Model.num f x mod Family_Model.den f) 0) as [E|E].
  - pose proof (Z.div_mod (Family_Model.num f x) _ N) as X. rewrite E in X. split; [intros [= <-]; lia|]. intros Y. f_equal. rewrite <- Y, Z.mul_comm. apply Z.div_mul. exact N.
  - split; [discriminate|]. intros Y. exfalso. apply E. rewrite <- Y, Z.mul_comm. apply Z.mod_mul. exact N.
Qed.
(** the formulas of the program are these numbers *)
Lemma store_numbers family : sextic family -> exists s, Family_Model.store family = Some s /\ forall z p r,
  (Family_Model.closure_callgen1 (Family_Model.pz s) (Family_Model.nz s z) = Some p /\ Family_Model.closure_callgen1 (Family_Model.rz s) (Family_Model.nz s z) = Some r) <-> family_numbers family z p r.
Proof.
  intros S. each_family S; (eexists; split; [reflexivity|]); intros z p r; rewrite !callgen_some by discriminate; cbn [Family_Model.den Family_Model.num Family_Model.pz Family_Model.rz Family_Model.nz]; numbers;
    rewrite ?Z.mul_1_l; reflexivity.
Qed.
Lemma sextic_families family : sextic family -> In family Family_Props.families.
Proof. intros S. each_family S; cbn; tauto. Qed.
Lemma sextic_degree family : sextic family -> Family_Props.degree_of family = family_degree family.
Proof. intros S. each_family S; reflexivity. Qed.

Ltac nn := match goal with
  | |- 0 <= _ * _ => apply Z.mul_nonneg_nonneg; nn
  | |- 0 <= _ ^ _ => apply Z.pow_nonneg; lia
  | |- _ => lia end.
(** the field of a BLS curve *)
Lemma bls_large z p s : prime p -> (z = 0 \/ s = z ^ 2 \/ s = z ^ 4) -> 3 * p = (z - 1) ^ 2 * (s ^ 2 - s + 1) + 3 * z -> (z = 0 -> s = 0) -> 17 < p.
Proof.
  intros Pp Hs E S0. pose proof (prime_ge_2 p Pp) as P2.
  assert (C : z = 0 \/ z = 1 \/ z = -1 \/ z = 2 \/ 3 <= z \/ z <= -2) by lia.
  assert (Q : 3 <= z \/ z <= -2 -> 13 <= s ^ 2 - s + 1).
  { intros B. assert (4 <= z ^ 2) by (clear - B; nia). assert (4 <= s).
    { destruct Hs as [->|[->| ->]]; [lia|assumption|]. replace (z ^ 4) with (z ^ 2 * z ^ 2) by ring. nia. }
    clear - H0. nia. }
  destruct C as [->|[->|[->|[->|C]]]].
  - rewrite (S0 eq_refl) in E. clear - E. change (3 * p = 1) in E. lia.
  - destruct Hs as [X|[->| ->]]; [discriminate X| |]; change (3 * p = 3) in E; clear - E P2; lia.
  - destruct Hs as [X|[->| ->]]; [discriminate X| |]; change (3 * p = 1) in E; clear - E; lia.
  - destruct Hs as [X|[->| ->]]; [discriminate X|change (3 * p = 19) in E|change (3 * p = 247) in E]; clear - E; lia.
  - specialize (Q C). assert ((z - 1) ^ 2 * 13 <= (z - 1) ^ 2 * (s ^ 2 - s + 1)) by (apply Z.mul_le_mono_nonneg_l; [apply Z.pow_even_nonneg; exists 1; reflexivity|exact Q]).
    set (X := (z - 1) ^ 2 * (s ^ 2 - s + 1)) in *. clearbody X. clear - C H E. nia.
Qed.
Lemma family_large family z p r : sextic family -> family_prime family z p r -> 17 < p.
Proof.
  intros S (Pp & _ & N). pose proof (prime_ge_2 p Pp) as P2. each_family S; numbers; destruct N as (N & _).
  - assert (C : z = 0 \/ 1 <= z \/ 1 <= - z) by lia. destruct C as [->|[C|C]]; [cbn in N; lia| |].
    + assert (0 <= z ^ 3 * (z - 1)) by nn. assert (0 <= z ^ 2 * (z - 1)) by nn. clear - N H H0 C. nia.
    + set (w := - z) in *. replace z with (- w) in N by (unfold w; lia). clearbody w.
      assert (E : p = 36 * (w ^ 3 * (w - 1)) + 6 * (w * (4 * w - 1)) + 1) by (rewrite N; ring). assert (0 <= w ^ 3 * (w - 1)) by nn.
      set (X := w ^ 3 * (w - 1)) in *. clearbody X. clear - E H C. nia.
  - apply (bls_large z p (z ^ 2) Pp); [right; left; reflexivity|rewrite N; ring|intros ->; reflexivity].
  - apply (bls_large z p (z ^ 4) Pp); [right; right; reflexivity|rewrite N; ring|intros ->; reflexivity].
  - assert (C : 14 <= 42 * z + 14 \/ 28 <= - (42 * z + 14)) by (clear; lia). revert N C. generalize (42 * z + 14). clear. intros n N [C|C].
    + assert (0 <= n ^ 8) by nn. assert (0 <= n ^ 7) by nn. assert (0 <= n ^ 6) by nn. assert (0 <= n ^ 5) by nn. assert (0 <= n ^ 4) by nn. assert (0 <= n ^ 3) by nn. assert (0 <= n ^ 2) by nn. lia.
    + set (m := - n) in *. replace n with (- m) in N by (unfold m; lia). clearbody m.
      assert (E : 21 * p = m ^ 7 * (m - 5) + m ^ 5 * (7 * m - 37) + m ^ 3 * (188 * m - 259) + m * (343 * m - 1763) + 2401) by (rewrite N; ring). clear N.
      assert (0 <= m ^ 7 * (m - 5)) by nn. assert (0 <= m ^ 5 * (7 * m - 37)) by nn. assert (0 <= m ^ 3 * (188 * m - 259)) by nn. assert (0 <= m * (343 * m - 1763)) by nn.
      set (X1 := m ^ 7 * (m - 5)) in *. set (X2 := m ^ 5 * (7 * m - 37)) in *. set (X3 := m ^ 3 * (188 * m - 259)) in *. set (X4 := m * (343 * m - 1763)) in *. clearbody X1 X2 X3 X4. lia.
  - assert (C : 287 <= 777 * z + 287 \/ 490 <= - (777 * z + 287)) by (clear; lia). revert N C. generalize (777 * z + 287). clear. intros n N [C|C].
    + assert (E : 28749 * p = n ^ 13 * (n - 4) + 7 * n ^ 12 + n ^ 7 * (683 * n - 2510) + 4781 * n ^ 6 + n * (117649 * n - 386569) + 823543) by (rewrite N; ring). clear N.
      assert (0 <= n ^ 13 * (n - 4)) by nn. assert (0 <= n ^ 12) by nn. assert (0 <= n ^ 7 * (683 * n - 2510)) by nn. assert (0 <= n ^ 6) by nn. assert (0 <= n * (117649 * n - 386569)) by nn.
      set (X1 := n ^ 13 * (n - 4)) in *. set (X2 := n ^ 12) in *. set (X3 := n ^ 7 * (683 * n - 2510)) in *. set (X4 := n ^ 6) in *. set (X5 := n * (117649 * n - 386569)) in *. clearbody X1 X2 X3 X4 X5. lia.
    + set (m := - n) in *. replace n with (- m) in N by (unfold m; lia). clearbody m.
      assert (E : 28749 * p = m ^ 14 + 4 * m ^ 13 + 7 * m ^ 12 + 683 * m ^ 8 + 2510 * m ^ 7 + 4781 * m ^ 6 + 117649 * m ^ 2 + 386569 * m + 823543) by (rewrite N; ring). clear N.
      assert (0 <= m ^ 14) by nn. assert (0 <= m ^ 13) by nn. assert (0 <= m ^ 12) by nn. assert (0 <= m ^ 8) by nn. assert (0 <= m ^ 7) by nn. assert (0 <= m ^ 6) by nn. assert (0 <= m ^ 2) by nn. lia.
Qed.
(** the order of the subgroup is not a divisor of the degree *)
Lemma family_odd family z p r : sextic family -> family_prime family z p r -> r <> 2 /\ r <> 3.
Proof.
  intros S (_ & _ & N).
  assert (G : forall q l d, prime q -> Family_Props.no_root q l = true -> d * r = ZPoly.peval l z -> r <> q).
  { intros q l d Q NR E ->. pose proof (Family_Props.no_root_ok q l z Q NR) as RP. rewrite <- E in RP. apply rel_prime_sym in RP.
    destruct RP as [_ _ RP]. specialize (RP q (Z.divide_refl q) (Z.divide_factor_r q d)). apply Z.divide_1_r_nonneg in RP; pose proof (prime_ge_2 q Q); lia. }
  each_family S; numbers; destruct N as (_ & N).
  - split; [apply (G 2 [1; 6; 18; 36; 36] 1 prime_2 eq_refl)|apply (G 3 [1; 6; 18; 36; 36] 1 prime_3 eq_refl)]; rewrite N; cbn [ZPoly.peval]; ring.
  - split; [apply (G 2 [1; 0; -1; 0; 1] 1 prime_2 eq_refl)|apply (G 3 [1; 0; -1; 0; 1] 1 prime_3 eq_refl)]; rewrite N; cbn [ZPoly.peval]; ring.
  - split; [apply (G 2 [1; 0; 0; 0; -1; 0; 0; 0; 1] 1 prime_2 eq_refl)|apply (G 3 [1; 0; 0; 0; -1; 0; 0; 0; 1] 1 prime_3 eq_refl)]; rewrite N; cbn [ZPoly.peval]; ring.
  - assert (E : 343 * r = ZPoly.peval (ZPoly.pcomp [343; 0; 0; 37; 0; 0; 1] [14; 42]) z) by (rewrite N, ZPoly.peval_comp; cbn [ZPoly.peval]; ring).
    split; [apply (G 2 _ 343 prime_2) with (2 := E)|apply (G 3 _ 343 prime_3) with (2 := E)]; vm_compute; reflexivity.
  - assert (E : 161061481 * r = ZPoly.peval (ZPoly.pcomp [117649; 0; 0; 0; 0; 0; 683; 0; 0; 0; 0; 0; 1] [287; 777]) z).
    { rewrite N, ZPoly.peval_comp. replace (ZPoly.peval [287; 777] z) with (777 * z + 287) by (cbn [ZPoly.peval]; ring). generalize (777 * z + 287). intros n. cbn [ZPoly.peval]. ring. }
    split; [apply (G 2 _ 161061481 prime_2) with (2 := E)|apply (G 3 _ 161061481 prime_3) with (2 := E)]; vm_compute; reflexivity.
Qed.
Lemma family_embedding family z p r : sextic family -> family_prime family z p r -> embedding_degree p r (family_degree family).
Proof.
  intros S F. pose proof F as (Pp & Pr & N). destruct (family_odd _ _ _ _ S F) as (N2 & N3). destruct (store_numbers _ S) as (s & Es & I). apply I in N. destruct N as (Ep & Er).
  rewrite <- (sextic_degree _ S).
  assert (ND : ~ (r | Family_Props.degree_of family)).
  { intros D. assert (D' : (r | 2 * (2 * (2 * (3 * 3))))).
    { apply (Z.divide_trans _ _ _ D). each_family S; [exists 6|exists 6|exists 3|exists 4|exists 2]; reflexivity. }
    repeat (apply (prime_mult _ Pr) in D'; destruct D' as [D'|D']; [|]); try (apply (prime_div_prime _ _ Pr prime_2) in D'; contradiction); apply (prime_div_prime _ _ Pr prime_3) in D'; contradiction. }
  destruct (Family_Props.C46_embedding family s z p r (sextic_families _ S) Es Ep Er Pr ND) as (A & B).
  split; [each_family S; cbn; lia|]. split; [exact A|]. intros j J. apply B. lia.
Qed.

(** ** The text of the parameter *)
Lemma seed_is z s : Bits_Model.bits_from_i z = Ok s -> family_text z (seed_text s).
Proof.
  intros E. destruct (Bits_Ops.bits_from_i_ok z) as (b & E' & _ & _ & SG & B). rewrite E in E'. injection E' as <-.
  assert (L : Bits_Model.bitlen s = length (Bits_Model.binary_zv z)) by (rewrite <- Bits_Proofs.bits_of_length, B; reflexivity).
  exists ((Bits_Model.bitlen s + 7) / 8)%nat. split; [|split].
  - unfold seed_text. rewrite SG. unfold Bits_Spec.mag. rewrite B, Bits_Ops.bval_binary_zv. reflexivity.
  - change 256 with (2 ^ 8). rewrite <- Z.pow_mul_r by lia. replace (8 * Z.of_nat ((Bits_Model.bitlen s + 7) / 8)) with (Z.of_nat (8 * ((Bits_Model.bitlen s + 7) / 8))) by lia.
    apply Bits_Ops.binary_zv_length. rewrite <- L. pose proof (Nat.div_mod (Bits_Model.bitlen s + 7) 8 ltac:(lia)). pose proof (Nat.mod_upper_bound (Bits_Model.bitlen s + 7) 8 ltac:(lia)). lia.
  - intros N. apply Z.nlt_ge. intros H. change 256 with (2 ^ 8) in H. rewrite <- Z.pow_mul_r in H by lia.
    replace (8 * (Z.of_nat ((Bits_Model.bitlen s + 7) / 8) - 1)) with (Z.of_nat (8 * ((Bits_Model.bitlen s + 7) / 8 - 1))) in H by lia.
    apply Bits_Ops.binary_zv_length in H. rewrite <- L in H. pose proof (Nat.div_mod (Bits_Model.bitlen s + 7) 8 ltac:(lia)). pose proof (Nat.mod_upper_bound (Bits_Model.bitlen s + 7) 8 ltac:(lia)). lia.
Qed.

(** ** The stages *)
Section Stages.
Variable P : pari.
Variable cfg : config.
Hypothesis FO : family_ok P cfg.
Hypothesis IF : in_family cfg.
Variable tries : nat.
Variable delim : ascii.
Hypothesis DL : Input_Props.delimiter delim.
Variable l : list str.
(** nothing disturbs the run *)
Variable alone : Prop.
Notation bits := (c_bits cfg).
Notation ucfg := (family_cfg cfg).
Notation fam := (c_family cfg).
Notation on := (family_on cfg).
Notation gen := (generator P ucfg tries delim).
Notation counted := (counted ucfg on).
Notation gens_fact := (gens_fact ucfg True).
Let PO := pc_family _ _ FO.
Let SX := if_family _ IF.

(** the first [n] values of b will not do *)
Definition tried (n z : Z) : Prop :=
  (0 < n -> exists p r, family_prime fam z p r) /\ forall p r m, family_prime fam z p r -> 1 <= m <= n -> ~ family_good p r (m mod p).
(** [n] values were tried *)
Definition counter (c : curve) (z : Z) : Prop := alone -> exists n, 0 <= n /\ k_static c = (if n =? 0 then None else Some n) /\ tried n z.
Definition seeded (c : curve) (pos : nat) (z : Z) : Prop :=
  (exists s, k_seed c = Some (FamilySeed z s) /\ Bits_Model.bits_from_i z = Ok s) /\ family_given cfg delim (firstn pos l) z.
Definition at_field (c : curve) (z p r : Z) : Prop := k_field c = Some (Prime p) /\ family_prime fam z p r.
Definition at_b (c : curve) (pos : nat) (z p r v : Z) : Prop :=
  seeded c pos z /\ at_field c z p r /\ k_a c = Some (Mod 0 p) /\ k_b c = Some (Mod (v mod p) p) /\ k_static c = Some v /\ (alone -> 1 <= v /\ tried (v - 1) z).
Definition family_front (k : Z) (c : curve) (pos : nat) : Prop :=
  if k <=? 0 then alone -> k_static c = None
  else if k =? 1 then exists z, seeded c pos z /\ counter c z
  else if k <=? 3 then exists z p r, seeded c pos z /\ counter c z /\ at_field c z p r
  else exists z p r v, at_b c pos z p r v.
Definition family_ended (c : curve) (pos : nat) : Prop := exists z p r v, at_b c pos z p r v /\ (r | points (Prime p) 0 (v mod p)).

Lemma seeded_same c c' pos z : same_front c c' -> seeded c pos z -> seeded c' pos z.
Proof. intros (E1 & _) ((s & A & B) & G). split; [|exact G]. exists s. split; [congruence|exact B]. Qed.
Lemma counter_same c c' z : k_static c' = k_static c -> counter c z -> counter c' z.
Proof. intros E H A. rewrite E. exact (H A). Qed.
Lemma at_b_same c c' pos z p r v : same_front c c' -> at_b c pos z p r v -> at_b c' pos z p r v.
Proof.
  intros E (A & (B & C) & D). pose proof (seeded_same _ _ _ _ E A). destruct E as (E1 & E2 & E3 & E4 & E5). destruct D as (D1 & D2 & D3 & D4).
  split; [assumption|]. split; [split; [congruence|exact C]|]. split; [congruence|]. split; [congruence|]. split; [congruence|exact D4].
Qed.
Lemma front_same k c c' pos : same_front c c' -> family_front k c pos -> family_front k c' pos.
Proof.
  intros E S. pose proof E as (E1 & E2 & E3 & E4 & E5). unfold family_front in *. destruct (k <=? 0); [|destruct (k =? 1); [|destruct (k <=? 3)]].
  - rewrite E5. exact S.
  - destruct S as (z & A & B). exists z. split; [exact (seeded_same _ _ _ _ E A)|exact (counter_same _ _ _ E5 B)].
  - destruct S as (z & p & r & A & B & C & D). exists z, p, r. split; [exact (seeded_same _ _ _ _ E A)|]. split; [exact (counter_same _ _ _ E5 B)|]. split; [congruence|exact D].
  - destruct S as (z & p & r & v & A). exists z, p, r, v. exact (at_b_same _ _ _ _ _ _ _ E A).
Qed.
(** a value that will not do *)
Lemma at_b_back k c pos z p r v : 1 <= k <= 3 -> at_b c pos z p r v -> (alone -> ~ family_good p r (v mod p)) -> family_front k c pos.
Proof.
  intros K (A & (B & F) & _ & _ & E & T) N.
  assert (C : counter c z).
  { intros AL. destruct (T AL) as (V & T1 & T2). exists v. split; [lia|]. split; [destruct (Z.eqb_spec v 0); [lia|exact E]|]. split; [intros _; exists p, r; exact F|].
    intros q s m Q M. destruct (Z.eq_dec m v) as [->|NE]; [|apply T2; [exact Q|lia]].
    destruct (numbers_unique _ _ _ _ _ _ SX (proj2 (proj2 Q)) (proj2 (proj2 F))) as (-> & ->). exact (N AL). }
  unfold family_front. destruct (Z.leb_spec k 0); [lia|]. destruct (Z.eqb_spec k 1); [exists z; auto|]. destruct (Z.leb_spec k 3); [|lia]. exists z, p, r. split; [exact A|]. split; [exact C|]. split; assumption.
Qed.
Lemma seeded_on c pos z p r b : seeded c pos z -> family_prime fam z p r -> 0 <= b < p -> on (Prime p) 0 b.
Proof.
  intros (_ & G) F B. split; [reflexivity|]. split; [exact B|]. exists z, r. split; [exact F|]. unfold family_given in G. destruct (negb (c_random cfg =? 0)); [apply G|apply G].
Qed.
Lemma at_b_values c pos z p r v : at_b c pos z p r v -> values on c (Prime p) 0 (v mod p).
Proof.
  intros (A & (B & F) & KA & KB & _). pose proof (family_large _ _ _ _ SX F) as L. split; [exact B|]. split; [apply (seeded_on c pos z p r); [exact A|exact F|apply Z.mod_pos_bound; lia]|].
  split; [split; exact I|]. exists (Mod 0 p), (Mod (v mod p) p). auto.
Qed.
Lemma values_here c pos z p r v f x y : at_b c pos z p r v -> values on c f x y -> f = Prime p /\ x = 0 /\ y = v mod p.
Proof.
  intros (_ & (F & _) & A & B & _) (F' & _ & _ & u & w & A' & B' & <- & <-). rewrite F in F'. rewrite A in A'. rewrite B in B'.
  injection F' as <-. injection A' as <-. injection B' as <-. auto.
Qed.
(** the field is found if there is one *)
Lemma gen_field_iff s z p : Family_Model.store fam = Some s -> Family_Model.family_gen_field (isprime P) s z = Some p <-> exists r, family_prime fam z p r.
Proof.
  intros Es. destruct (store_numbers _ SX) as (s' & Es' & IFF). rewrite Es in Es'. injection Es' as <-. unfold Family_Model.family_gen_field. split.
  - destruct (Family_Model.closure_callgen1 (Family_Model.pz s) (Family_Model.nz s z)) as [q|] eqn:E1; [|discriminate]. destruct (isprime P q) eqn:Q; [|discriminate].
    destruct (Family_Model.closure_callgen1 (Family_Model.rz s) (Family_Model.nz s z)) as [r|] eqn:E2; [|discriminate]. destruct (isprime P r) eqn:R; [|discriminate].
    intros [= <-]. exists r. split; [apply (pc_isprime _ _ PO); exact Q|]. split; [apply (pc_isprime _ _ PO); exact R|]. apply IFF. auto.
  - intros (r & Q & R & N). apply IFF in N. destruct N as (-> & ->). apply (pc_isprime _ _ PO) in Q, R. rewrite Q, R. reflexivity.
Qed.

Lemma fseed_stage d c pos : family_front 0 c pos -> (reads (fseed_f cfg) = true -> (pos < length l)%nat) ->
  exists c', gen (fseed_f cfg) None d (nth pos l []) c = Ok (c', 1) /\ family_front 1 c' (if reads (fseed_f cfg) then Datatypes.S pos else pos).
Proof.
  intros S RD. pose proof (if_bits _ IF) as B.
  assert (X : forall z pos', family_given cfg delim (firstn pos' l) z -> exists c', (do s <- Bits_Model.bits_from_i z; Ok (set_seed (Some (FamilySeed z s)) c, 1)) = Ok (c', 1) /\ family_front 1 c' pos').
  { intros z pos' G. destruct (Bits_Ops.bits_from_i_ok z) as (s & E & _). rewrite E. cbn [bind]. eexists. split; [reflexivity|]. exists z. split; [split; [exists s; auto|exact G]|].
    intros AL. exists 0. split; [lia|]. split; [exact (S AL)|]. split; [lia|]. intros p r m _ M. lia. }
  unfold fseed_f in *. destruct (negb (c_random cfg =? 0)) eqn:R; cbn [reads] in *; cbn [generator]; change (c_bits ucfg) with bits.
  - destruct (C62_int_partial bits (d_one d) ltac:(lia)) as (i & -> & Hi). cbn [bind]. cbv zeta. apply X. unfold family_given. rewrite R. unfold Family_Model.family_gen_seed_random.
    assert (Bi : 2 ^ (bits - 1) <= i <= 2 ^ bits) by (pose proof (pow_double bits ltac:(lia)); pose proof (Z.pow_pos_nonneg 2 (bits - 1) ltac:(lia) ltac:(lia)); unfold has_bits in Hi; lia).
    pose proof (Z.pow_pos_nonneg 2 (bits - 1) ltac:(lia) ltac:(lia)). cbv iota. destruct (d_two d mod 2 =? 0); lia.
  - cbv zeta. apply X. unfold family_given, Family_Model.family_gen_seed_input. rewrite R. set (s := field_stream (nth pos l [])).
    destruct (Input_Model.input_int delim bits s) as (v, s') eqn:E. cbn [fst].
    split; [exact (Input_Props.C54_bound_partial delim bits s v s' ltac:(lia) eq_refl E)|]. exists (firstn pos l), (nth pos l []). split; [apply firstn_next; exact (RD eq_refl)|].
    intros u q closed x It N. unfold Input_Model.input_int in E. rewrite (Input_Props.input_i_number delim bits s u q closed x DL eq_refl It N) in E. injection E as <- _. reflexivity.
Qed.
Lemma ffield_stage d t c pos : family_front 1 c pos ->
  exists c' r, gen Plan_Model.family_gen_field None d t c = Ok (c', r) /\ ((r = 1 /\ family_front 2 c' pos) \/ (r = -1 /\ family_front 0 c' pos)).
Proof.
  intros (z & SE & C). pose proof SE as ((s & KS & _) & _). cbn [generator]. rewrite KS. cbn [need_family bind]. change (c_family ucfg) with fam.
  destruct (store_numbers _ SX) as (st & Es & _). rewrite Es. cbn [need bind]. pose proof (fun p => gen_field_iff st z p Es) as IFF.
  destruct (Family_Model.family_gen_field (isprime P) st z) as [p|].
  - destruct (proj1 (IFF p) eq_refl) as (r & F). eexists _, _. split; [reflexivity|]. left. split; [reflexivity|]. exists z, p, r. split; [exact SE|]. split; [exact C|]. split; [reflexivity|exact F].
  - eexists _, _. split; [reflexivity|]. right. split; [reflexivity|]. intros AL. destruct (C AL) as (n & N0 & K & T & _). destruct (Z.eqb_spec n 0) as [->|NZ]; [exact K|].
    destruct (T ltac:(lia)) as (p & r & F). assert (X : None = Some p) by (apply IFF; exists r; exact F). discriminate X.
Qed.
Lemma fb_stage d t c pos : family_front 3 c pos -> exists c', gen Plan_Model.family_gen_equation_iter None d t c = Ok (c', 1) /\ family_front 4 c' pos.
Proof.
  intros (z & p & r & SE & C & F & N). cbn [generator]. rewrite F. cbn [need_prime need bind].
  pose proof (family_large _ _ _ _ SX N) as LP. unfold Family_Model.family_gen_equation_iter. cbn [Family_Model.b_val Family_Model.b_curve].
  destruct (k_static c) as [u|] eqn:K; cbn [option_map]; rewrite ?Z.eqb_refl; (eexists; split; [reflexivity|]).
  - exists z, p, r, (u + 1). split; [exact SE|]. split; [split; [exact F|exact N]|]. split; [reflexivity|]. split; [reflexivity|]. split; [reflexivity|].
    intros AL. destruct (C AL) as (n & N0 & KN & T). rewrite K in KN. destruct (Z.eqb_spec n 0); [discriminate KN|]. injection KN as ->. split; [lia|]. replace (n + 1 - 1) with n by ring. exact T.
  - exists z, p, r, 1. split; [exact SE|]. split; [split; [exact F|exact N]|]. split; [reflexivity|]. split; [reflexivity|]. split; [reflexivity|].
    intros AL. split; [lia|]. split; [lia|]. intros q s m _ M. lia.
Qed.
Lemma fcurve_ok c pos f a b : family_front 4 c pos -> values on c f a b -> ellinit P f a b = false \/ (ellinit P f a b = true /\ ell_get_disc P f a b = 0) -> family_front 1 c pos.
Proof.
  intros (z & p & r & v & A) V H. apply (at_b_back 1 c pos z p r v ltac:(lia) A). intros _ (NS & _). pose proof (proj1 (proj2 V)) as O. destruct (values_here _ _ _ _ _ _ _ _ _ A V) as (-> & -> & ->).
  destruct A as (_ & (_ & F) & _). pose proof (family_large _ _ _ _ SX F) as LP. pose proof (proj1 F) as Pp.
  assert (ns : curve_ok (Prime p) 0 (v mod p)) by (constructor; [split; [exact Pp|lia]|exact I|exact I|exact NS]).
  rewrite (pc_family_init _ _ FO _ _ _ O ns) in H. destruct H as [H|(_ & H)]; [discriminate H|].
  rewrite (pc_disc _ _ PO _ _ _ O (co_a _ _ _ ns) (co_b _ _ _ ns) (pc_family_init _ _ FO _ _ _ O ns)) in H. unfold discriminant in H.
  apply NS. apply Z.mod_divide; [lia|]. apply Z.mod_divide in H; [|lia].
  apply (prime_mult _ Pp) in H. destruct H as [H|H]; [exfalso|exact H]. assert (H2 : (p | 2 * (2 * (2 * 2)))) by (apply Z.divide_opp_r; exact H).
  repeat (apply (prime_mult _ Pp) in H2; destruct H2 as [H2|H2]; [apply Z.divide_pos_le in H2; lia|]). apply Z.divide_pos_le in H2; lia.
Qed.
Lemma forder_stage d t c f x y pos arg : family_front 4 c pos -> curve_ok f x y -> values on c f x y -> k_curve c = Some (f, x, y) ->
  exists c' r, gen Plan_Model.family_gen_order arg d t c = Ok (c', r) /\
  ((r = 1 /\ c' = set_order (Some (points f x y)) c /\ order_wanted ucfg (points f x y) /\ family_ended c' pos) \/ (r = -2 /\ family_front 3 c' pos)).
Proof.
  intros (z & p & r & v & A) ns V K. pose proof (pc_curve _ _ PO _ _ _ (proj1 (proj2 V)) ns) as PC. destruct (values_here _ _ _ _ _ _ _ _ _ A V) as (-> & -> & ->).
  pose proof A as (((s & KS & _) & _) & (_ & F) & _). cbn [generator]. rewrite K. cbn [need bind]. rewrite KS. cbn [need_family bind]. change (c_family ucfg) with fam.
  destruct (store_numbers _ SX) as (st & Es & IFF). rewrite Es. cbn [need bind]. unfold Family_Model.family_gen_order. rewrite (proj2 (proj2 (IFF z p r) (proj2 (proj2 F)))). cbn [bind].
  rewrite (pc_card _ _ _ _ PC). pose proof (prime_ge_2 _ (proj1 (proj2 F))) as R2. destruct (Z.eqb_spec (points (Prime p) 0 (v mod p) mod r) 0) as [E|E]; (eexists _, _; split; [reflexivity|]).
  - left. split; [reflexivity|]. split; [reflexivity|]. split; [split; [discriminate|split; discriminate]|]. exists z, p, r, v. split; [apply (at_b_same c); [repeat split|exact A]|]. apply Z.mod_divide; [lia|exact E].
  - right. split; [reflexivity|]. apply (at_b_back 3 c pos z p r v ltac:(lia) A). intros _ (_ & D). apply E. apply Z.mod_divide; [lia|exact D].
Qed.
(** the least b *)
Lemma least_b c pos z p r v : at_b c pos z p r v -> family_good p r (v mod p) -> alone -> 0 < v mod p /\ forall b, 0 < b < v mod p -> ~ family_good p r b.
Proof.
  intros (_ & (_ & F) & _ & _ & _ & T) G AL. destruct (T AL) as (V & _ & TN). pose proof (family_large _ _ _ _ SX F) as LP. pose proof (Z.mod_pos_bound v p ltac:(lia)) as VB.
  assert (LV : v mod p <= v) by (apply Z.mod_le; lia). split.
  - destruct (Z.eq_dec (v mod p) 0) as [Z0|]; [exfalso|lia]. rewrite Z0 in G. apply (proj1 G). cbn. reflexivity.
  - intros b Bb. pose proof (TN p r b F ltac:(lia)) as X. rewrite Z.mod_small in X by lia. exact X.
Qed.
End Stages.

(** ** The run *)
Section Run.
Variable P : pari.
Variable cfg : config.
Hypothesis FO : family_ok P cfg.
Hypothesis IF : in_family cfg.
Variable hexw hexp dec : Z -> list ascii.
Hypothesis OK : prints hexw hexp dec.
Hypothesis HX : Hex_Props.prints_hex hexw.
Variable junk : nat -> ascii.
Variable draws : Z -> nat -> draw.
Variable tries fuel : nat.
Variable avma : Z.
Notation setup := (snd (Plan_Model.exhaustive_init cfg [N_method])).
Notation ucfg := (family_cfg cfg).
Notation alone := (undisturbed cfg draws).

Lemma family_fits f a b : family_on cfg f a b -> field_fits ucfg f.
Proof. destruct f as [p|]; [|intros []]. intros (_ & _ & z & r & (Pp & _) & _). split; [discriminate|exact Pp]. Qed.
Lemma family_result d (DL : Input_Props.delimiter d) l i fuel' av r w :
  search P ucfg hexw tries d l (draws i) setup fuel' av = (r, w) ->
  match r with Engine_Model.Returned r => (r = 1 /\ success P ucfg (family_on cfg) hexw (family_ended cfg d l alone) w) \/ (r = 0 /\ failed ucfg True w)
  | Engine_Model.NoFuel => True | _ => False end.
Proof.
  rewrite (family_plan cfg [N_method] IF). pose proof (pc_family _ _ FO) as PO. pose proof (if_family _ IF) as SX.
  assert (SD : seeds (fseed_f cfg) = true) by (unfold fseed_f; destruct (negb _); reflexivity).
  refine (search_result P ucfg (family_on cfg) family_fits PO (family_tail _ IF) hexw tries d l (draws i)
    (fseed_f cfg) Plan_Model.family_gen_field Plan_Model.gen_skip Plan_Model.family_gen_equation_iter Plan_Model.family_gen_order Plan_Model.gens_gen_any
    None None None None (order_arg cfg) (gens_arg cfg) [] []
    Plan_Model.seed_unroll (family_front cfg d l alone) (family_ended cfg d l alone) (family_ended cfg d l alone) (family_ended cfg d l alone) (family_ended cfg d l alone) True
    _ _ _ _ _ _ _ _ _ _ _ _ _ _ _ _ _ _ _ _ _ fuel' av r w).
  - intros E. congruence.
  - intros k c pos _ _ E. congruence.
  - intros (_ & A & _). exact (A i).
  - intros c pos (n & T) _ (A & _). rewrite A in T. discriminate T.
  - exact (fcurve_ok P cfg FO IF d l alone).
  - exact (front_same cfg d l alone).
  - intros c pos (z & p & q & v & A). exists (Prime p), 0, (v mod p). exact (at_b_values cfg IF d l alone _ _ _ _ _ _ A).
  - intros k dr c pos _ K S RD. assert (KK : k = 0 \/ k = 1 \/ k = 2 \/ k = 3) by lia. destruct KK as [->|[->|[->| ->]]].
    + change (fst (front _ _ _ _ _ _ _ _ 0)) with (fseed_f cfg) in *. change (snd (front _ _ _ _ _ _ _ _ 0)) with (@None Plan_Model.arg_t). cbv zeta.
      destruct (fseed_stage P cfg IF tries d DL l alone dr c pos S RD) as (c' & -> & X). left. split; [reflexivity|exact X].
    + change (fst (front _ _ _ _ _ _ _ _ 1)) with Plan_Model.family_gen_field in *. change (snd (front _ _ _ _ _ _ _ _ 1)) with (@None Plan_Model.arg_t). cbv zeta. cbn [reads].
      destruct (ffield_stage P cfg FO IF tries d l alone dr (nth pos l []) c pos S) as (c' & r' & -> & [X|(-> & X)]); [left; exact X|right; right]. split; [lia|]. split; [lia|exact X].
    + change (fst (front _ _ _ _ _ _ _ _ 2)) with Plan_Model.gen_skip in *. change (snd (front _ _ _ _ _ _ _ _ 2)) with (@None Plan_Model.arg_t). cbv zeta. cbn [reads generator]. left. split; [reflexivity|exact S].
    + destruct (fb_stage P cfg IF tries d l alone dr (nth pos l []) c pos S) as (c' & E & X).
      change (fst (front _ _ _ _ _ _ _ _ 3)) with Plan_Model.family_gen_equation_iter in *. change (snd (front _ _ _ _ _ _ _ _ 3)) with (@None Plan_Model.arg_t). cbv zeta. cbn [reads]. rewrite E. left. split; [reflexivity|exact X].
  - reflexivity.
  - intros dr t c p a b pos S V ns K. destruct (forder_stage P cfg FO IF tries d l alone dr t c p a b pos (order_arg cfg) S ns V K) as (c' & r' & -> & X). destruct X as [X|(-> & X)]; [left; exact X|right; split; [lia|exact X]].
  - intros f c p a b pos [].
  - intros c p a b pos S _ _. exact S.
  - reflexivity.
  - intros dr t c p a b pos S (V & ns & Kc & Ko & O).
    destruct (gens_stage P ucfg _ family_fits PO p a b (proj1 (proj2 V)) ns tries d dr t c (gens_arg cfg) ltac:(discriminate) Kc Ko O) as (c' & r' & G0 & [(-> & g & -> & G1 & G2 & G3 & G4)|R]).
    + change (gens_f ucfg) with Plan_Model.gens_gen_any in G0. rewrite G0. left. split; [reflexivity|]. exists (k_seed c), g. split; [reflexivity|]. split.
      * split; [intros _; exact G1|]. split; [exact G2|]. split; [intros ((_ & U) & _); exact (G3 U)|exact G4].
      * destruct S as (z & q & s & v & A & D). exists z, q, s, v. split; [apply (at_b_same cfg d l alone c); [repeat split|exact A]|exact D].
    + exfalso. change (gens_f ucfg) with Plan_Model.gens_gen_any in G0. cbn [generator] in G0. rewrite Kc, Ko in G0. cbn [need bind] in G0. unfold gens_gen_any in G0. injection G0 as _ G0. congruence.
  - intros f c p a b pos g [].
  - intros c p a b pos g M _ _ _ _. exact M.
  - intros c pos _ E. congruence.
  - intros c pos _ E. congruence.
  - intros c pos p a b H (z & q & s & v & A & _) _. apply (at_b_back cfg IF d l alone 1 c pos z q s v ltac:(lia) A). intros (_ & _ & N). contradiction.
  - intros c pos f _ (z & p & s & v & (_ & (KF & F) & _) & _) K. rewrite KF in K. injection K as <-. pose proof (family_large _ _ _ _ SX F). cbn [large]. lia.
  - intros c c' pos SF KO KG (z & p & s & v & A & D). exists z, p, s, v. split; [exact (at_b_same cfg d l alone _ _ _ _ _ _ _ SF A)|exact D].
Qed.
Lemma family_shows d l c : found ucfg hexw (family_on cfg) (fun l => family_ended cfg d l alone) l c -> wanted_family cfg hexw alone d l c.
Proof.
  intros (k & f & ((z & p & r & v & A & D) & SH & (q & Kf & Pf) & (x' & Kx & Px) & (y' & Ky & Py)) & KF & Of & W & _).
  pose proof A as (((s & KS & BS) & G) & (KF' & F) & KA & KB & _). assert (q = Prime p) by congruence. subst q. assert (f = Prime p) by congruence. subst f.
  rewrite KA in Kx. injection Kx as <-. rewrite KB in Ky. injection Ky as <-. cbn [elem_int] in Px, Py. rewrite firstn_all in G.
  pose proof (family_large _ _ _ _ (if_family _ IF) F) as LP. exists z, p, r, (seed_text s). split; [exact G|]. split; [rewrite SH, KS; reflexivity|]. split; [exact (seed_is _ _ BS)|].
  split; [exact F|]. split; [exact Pf|]. split; [exact Px|]. rewrite Py. split; [apply Z.mod_pos_bound; lia|]. split.
  { rewrite (proj1 (proj2 W)), Px, Py. exact D. }
  split; [exact (family_embedding _ _ _ _ (if_family _ IF) F)|]. split; [|exact W].
  apply (least_b cfg IF d l alone k (length l) z p r v A). split; [|exact D]. rewrite <- Px, <- Py. exact (proj1 W).
Qed.

(** C83. Full statement: for every family. Missing: KSS16 and KSS40, whose equation has b = 0 and comes from another
    function; the sizes that are printed fit (fitsb). *)
Theorem C83_run_partial ino readable writable reason io seadata fs kbd d input outer i :
  Shell_Spec.separate ino writable io -> Shell_Spec.input_is ino readable io fs kbd d input ->
  Shell_Model.i_append io = false -> Shell_Spec.out_file ino writable io i -> 0 <= c_count cfg < 2 ^ 64 ->
  let '(w, status) := Shell_Model.main ino readable writable (fun _ => None) reason true io seadata
      (exhaustive_do P cfg hexw hexp dec junk draws tries fuel avma d setup outer) (Shell_Model.fresh fs kbd) in
  status = Some 0 ->
  exists text cs, Shell_Model.files w i = Some text /\ Z.of_nat (length cs) = c_count cfg /\ each (wanted_family cfg hexw alone d) d input cs /\
    (exists v, json text v) /\
    forall v, json text v -> exists ds, v = JArr ds /\ all read_curve ds = Some cs.
Proof.
  intros S I NA O B.
  assert (DL : Input_Props.delimiter d) by (unfold Shell_Spec.input_is in I; unfold Input_Props.delimiter; destruct (Shell_Model.i_input io); destruct I as (-> & _); auto).
  pose proof (run_file P ucfg hexw hexp dec OK HX junk draws tries fuel avma d setup (family_on cfg) (fun l => family_ended cfg d l alone) _
    (fun l i fuel av r w => family_result d DL l i fuel av r w) ino readable writable reason io seadata fs kbd d input outer i S I NA O B) as H.
  change (exhaustive_do P ucfg) with (exhaustive_do P cfg) in H.
  destruct (Shell_Model.main _ _ _ _ _ true io seadata _ (Shell_Model.fresh fs kbd)) as (w, status). intros E.
  destruct (H E) as (text & cs & F & N & EA & J). exists text, cs. split; [exact F|]. split; [exact N|]. split; [|exact J].
  apply (each_impl (found ucfg hexw (family_on cfg) (fun l => family_ended cfg d l alone))) with (2 := EA). intros l c. apply family_shows.
Qed.
(** A search leaves no undefined behaviour behind when nothing filters the digits. *)
Theorem C83_defined d l i r w : Input_Props.delimiter d -> c_hex_check cfg = None ->
  search P cfg hexw tries d l (draws i) setup fuel avma = (r, w) ->
  match r with
  | Engine_Model.Returned 1 => w_wrong w = None /\ exists c, to_output (w_curve w) = Ok c
  | Engine_Model.Returned 0 => w_wrong w <> Some Undefined
  | Engine_Model.NoFuel => True
  | _ => False
  end.
Proof.
  intros DL NH S. exact (search_defined P ucfg hexw draws tries fuel avma d setup (family_on cfg) (fun l => family_ended cfg d l alone) _
    (fun l i fuel av r w => family_result d DL l i fuel av r w) l i r w (conj NH (or_intror eq_refl)) Logic.I S).
Qed.
End Run.
Print Assumptions C83_run_partial.
Print Assumptions C83_defined.
