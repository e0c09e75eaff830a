(** C81: a whole run of the NUMS method. *)
From Coq Require Import Ascii String Znumtheory.
From Verif Require Import Base Fp Abelian Ec Poly_Model Points_Model Points_Props Gens_Props Random_Model Random_Props Cli_Model Json_Spec CurveText_Spec Primes.
From Verif Require Import Whole_Model Whole_Spec Whole_Group Whole_Stages Whole_Proofs Whole_Front Whole_Run Whole_Default Whole_Made Whole_Brainpool Shell_Fields.
From Verif Require Ec_Mod Nums_Model Nums_Proofs Nums_Props Brainpool_Model Brainpool_Proofs Plan_Model Engine_Model Shell_Model Shell_Spec Hex_Props.
Local Open Scope Z_scope.
Local Open Scope list_scope.
Notation nums_value := Nums_Proofs.nums_value.

(** ** The plan *)
Record in_nums (cfg : config) : Prop := {
  in_method : c_method cfg = METHOD_SEED;
  in_algo : c_seed_algo cfg = SEED_NUMS;
  in_bits : 3 <= c_bits cfg < 2 ^ 61;
  in_type : 0 <= c_points_type cfg <= 4;
  in_amount : 0 <= c_points_amount cfg < 2 ^ 64;
  in_cofactor : - 2 ^ 63 <= c_cofactor_value cfg < 2 ^ 63;
  in_smooth : 0 <= c_smooth_value cfg < 2 ^ 63
}.
Lemma nums_range cfg : in_nums cfg -> in_range (brainpool_cfg cfg).
Proof. intros [M A B T N C D]. constructor; try assumption. split; [intros _; split; reflexivity|discriminate]. Qed.
Lemma nums_plan cfg u : in_nums cfg -> snd (Plan_Model.exhaustive_init cfg u) = Plan_Model.mkSetup
  [Some Plan_Model.gen_skip; Some Plan_Model.nums_gen_field; Some Plan_Model.nums_gen_a; Some Plan_Model.nums_gen_b;
   Some Plan_Model.curve_gen_any; Some Plan_Model.nums_gen_order; Some Plan_Model.nums_gen_gens; Some (points_f cfg); Some (meta_f cfg)]
  [None; None; None; None; None; order_arg cfg; gens_arg cfg; points_arg cfg; None]
  [None; None; None; None; Some [Plan_Model.curve_check_nonzero]; None;
   Some [Plan_Model.gens_check_anomalous; Plan_Model.brainpool_check_gens]; hex_cell cfg; None]
  [None; None; None; None; None; None; None; hex_arg cfg; None]
  [Some Plan_Model.seed_unroll; Some Plan_Model.unroll_skip; Some Plan_Model.unroll_skip; Some Plan_Model.unroll_skip;
   Some Plan_Model.curve_unroll; Some Plan_Model.unroll_skip; Some Plan_Model.gens_unroll; Some Plan_Model.points_unroll; None].
Proof.
  intros [M A _ T _ _ _].
  assert (HP : forall g, Plan_Model.points_init cfg g = Plan_Model.put Plan_Model.POINTS (points_f cfg) g).
  { intros g. unfold Plan_Model.points_init, points_f.
    assert (TT : c_points_type cfg = 0 \/ c_points_type cfg = 1 \/ c_points_type cfg = 2 \/ c_points_type cfg = 3 \/ c_points_type cfg = 4) by lia.
    destruct TT as [->|[->|[->|[->| ->]]]]; [reflexivity|reflexivity| |reflexivity|reflexivity].
    destruct (c_points_amount cfg =? 0); reflexivity. }
  assert (HU : forall u g, exists u', Plan_Model.unique_init cfg u g = (u', Plan_Model.put Plan_Model.GENERATORS (gens_f cfg) g)).
  { intros u' g. unfold Plan_Model.unique_init, gens_f. destruct (c_unique cfg); [eauto|]. destruct (c_cofactor cfg); eauto. }
  assert (HM : forall g, (if c_metadata cfg then Plan_Model.put Plan_Model.METADATA Plan_Model.metadata_gen g else Plan_Model.put Plan_Model.METADATA Plan_Model.gen_skip g)
             = Plan_Model.put Plan_Model.METADATA (meta_f cfg) g).
  { intros g. unfold meta_f. destruct (c_metadata cfg); reflexivity. }
  assert (HG : exists u', Plan_Model.exhaustive_ginit cfg u = (u', [Some Plan_Model.gen_skip; Some Plan_Model.nums_gen_field; Some Plan_Model.nums_gen_a; Some Plan_Model.nums_gen_b;
   Some Plan_Model.curve_gen_any; Some Plan_Model.nums_gen_order; Some Plan_Model.nums_gen_gens; Some (points_f cfg); Some (meta_f cfg)])).
  { unfold Plan_Model.exhaustive_ginit. rewrite M, A. cbv zeta.
    change (METHOD_SEED =? METHOD_TWIST) with false; change (SEED_NUMS =? SEED_ANSI) with false; change (SEED_NUMS =? SEED_BRAINPOOL) with false;
      change (SEED_NUMS =? SEED_BRAINPOOL_RFC) with false; change (SEED_NUMS =? SEED_NUMS) with true; change (negb (SEED_NUMS =? 0)) with true; cbn iota.
    destruct (c_prime cfg); [|destruct (c_cofactor cfg) eqn:CF; [|destruct (c_smooth cfg)]].
    all: match goal with |- context [Plan_Model.unique_init _ ?v ?g] => destruct (HU v g) as (u1 & ->) end.
    all: rewrite HM, HP; eexists; reflexivity. }
  destruct HG as (u1 & HG). unfold Plan_Model.exhaustive_init. rewrite HG. clear HG HP HU HM.
  unfold Plan_Model.exhaustive_cinit, Plan_Model.exhaustive_ainit, Plan_Model.exhaustive_uinit, Plan_Model.hex_args, order_arg, gens_arg, points_arg, hex_cell, hex_arg.
  rewrite M, A. change (METHOD_SEED =? METHOD_SEED) with true. change (METHOD_SEED =? METHOD_FAMILY) with false.
  change ((SEED_NUMS =? SEED_BRAINPOOL) || (SEED_NUMS =? SEED_BRAINPOOL_RFC)) with false. change (SEED_NUMS =? SEED_NUMS) with true. change (negb (SEED_NUMS =? 0)) with true.
  cbn [orb]. cbn iota. cbn [snd]. f_equal.
  - destruct (c_points_type cfg =? POINTS_RANDOM), (c_cofactor cfg), (c_smooth cfg); reflexivity.
  - destruct (c_hex_check cfg); reflexivity.
  - destruct (c_hex_check cfg); reflexivity.
Qed.

(** ** Arithmetic *)
Lemma nums_prime_unique bits p q : nums_prime bits p -> nums_prime bits q -> p = q.
Proof. intros (P1 & P2 & P3 & P4) (Q1 & Q2 & Q3 & Q4). apply Z.le_antisymm; [apply Q4|apply P4]; assumption. Qed.
Lemma prime_7 : prime 7.
Proof. apply isprime_b_ok. vm_compute. reflexivity. Qed.
Lemma nums_prime_big bits p : 3 <= bits -> nums_prime bits p -> 7 <= p.
Proof.
  intros B (_ & _ & _ & H). apply H; [exact prime_7|reflexivity|]. assert (2 ^ 3 <= 2 ^ bits) by (apply Z.pow_le_mono_r; lia). change (2 ^ 3) with 8 in *. lia.
Qed.
Lemma nums_a p : 3 < p -> Nums_Model.nums_gen_a p = p - 3.
Proof. intros H. unfold Nums_Model.nums_gen_a. replace (-3) with (p - 3 + (-1) * p) by ring. rewrite Z.mod_add by lia. apply Z.mod_small. lia. Qed.
(** A curve and its twist together have two points for every x, and two at infinity. -1 is no square when p = 3 mod 4. *)
Theorem C81_twist p a b : prime p -> p mod 4 = 3 -> points (Prime p) a b + points (Prime p) a (p - b) = 2 * p + 2.
Proof.
  intros Pp M. cbn [points]. pose proof (prime_ge_2 p Pp) as P2. rewrite (points_mod p Pp a a (p - b) (- b) eq_refl) by (replace (p - b) with (- b + 1 * p) by ring; apply Z.mod_add; lia).
  rewrite !(points_sum p).
  set (f := fun x => roots p (x ^ 3 + a * x + - b)).
  assert (C : forall x y, x mod p = y mod p -> f x = f y).
  { intros x y E. unfold f. apply roots_mod. apply (mod_eq p Pp). apply (mod_eq p Pp) in E. replace (x ^ 3 + a * x + - b - (y ^ 3 + a * y + - b)) with ((x - y) * (x ^ 2 + x * y + y ^ 2 + a)) by ring. now apply Z.divide_mul_l. }
  assert (D : sum (fun x => roots p (x ^ 3 + a * x + b)) (Fp.elements p) + sum (fun x => f (- x)) (Fp.elements p) = 2 * p).
  { rewrite <- sum_add. rewrite (sum_ext _ (fun _ => 2)); [rewrite sum_const, elements_length; lia|]. intros x _. unfold f.
    replace ((- x) ^ 3 + a * - x + - b) with (- (x ^ 3 + a * x + b)) by ring. now apply roots_pair. }
  rewrite (sum_negated p Pp f C) in D. lia.
Qed.
(** y^2 = x^3 + 4 x + 1 and y^2 = x^3 + 4 x - 1 modulo 7 *)
Example C81_twist_ex : prime 7 /\ 7 mod 4 = 3 /\ points (Prime 7) 4 1 = 5 /\ points (Prime 7) 4 (7 - 1) = 11.
Proof. split; [exact prime_7|]. vm_compute. auto. Qed.
Lemma twist_here bits p b : nums_prime bits p -> 2 * p + 2 - points (Prime p) (p - 3) b = points (Prime p) (p - 3) (p - b).
Proof. intros (A & B & _). pose proof (C81_twist p (p - 3) b A B). lia. Qed.

(** ** The stages *)
Section Stages.
Variable P : pari.
Variable cfg : config.
Hypothesis PO : pari_ok P (c_bits cfg).
Hypothesis NO : nums_ok P (c_bits cfg).
Hypothesis IN : in_nums cfg.
Variable tries : nat.
Variable delim : ascii.
(** nothing disturbs the run *)
Variable alone : Prop.
Notation bits := (c_bits cfg).
Notation over := (prime_over (c_bits cfg)).
Notation gen := (generator P (brainpool_cfg cfg) tries delim).
Notation counted := (counted (brainpool_cfg cfg) (every over)).
Notation gens_fact := (gens_fact (brainpool_cfg cfg) True).

Lemma field_here p : nums_prime bits p -> prime p /\ 7 <= p /\ over (Prime p).
Proof. intros H. pose proof (nums_prime_big _ _ (proj1 (in_bits _ IN)) H). destruct H as (A & B & C & _). split; [exact A|]. split; [assumption|]. split; assumption. Qed.

(** the first [n] values of b will not do *)
Definition tried (n : nat) : Prop := forall q m, nums_prime bits q -> (m < n)%nat -> ~ nums_good q (nums_value m mod q).
(** [n] values were tried *)
Definition counter (c : curve) (n : nat) : Prop := alone -> tried n /\ k_static c = match n with O => None | Datatypes.S m => Some (nums_value m) end.
Definition at_field (c : curve) (p : Z) : Prop := k_field c = Some (Prime p) /\ nums_prime bits p.
Definition at_a (c : curve) (p : Z) : Prop := at_field c p /\ k_a c = Some (Mod (p - 3) p).
Definition at_b (c : curve) (p v : Z) : Prop :=
  k_seed c = None /\ at_a c p /\ k_b c = Some (Mod (v mod p) p) /\ k_static c = Some v /\ (alone -> exists n, v = nums_value n /\ tried n).
Definition nums_front (k : Z) (c : curve) (pos : nat) : Prop :=
  if k <=? 1 then k_seed c = None /\ exists n, counter c n
  else if k =? 2 then k_seed c = None /\ (exists n, counter c n) /\ exists p, at_field c p
  else if k =? 3 then k_seed c = None /\ (exists n, counter c n) /\ exists p, at_a c p
  else exists p v, at_b c p v.
Notation npoints p b := (points (Prime p) (p - 3) b).
Definition nums_ordered (c : curve) (pos : nat) : Prop :=
  exists p v, at_b c p v /\ prime (npoints p (v mod p)) /\ prime (2 * p + 2 - npoints p (v mod p)).
Definition nums_made (c : curve) (pos : nat) : Prop :=
  exists p v, at_b c p v /\ prime (npoints p (v mod p)) /\ prime (2 * p + 2 - npoints p (v mod p)) /\
  exists x y o h, first_point (Prime p) (p - 3) (v mod p) x y /\ gens_of c = Some [mkPoint (Some (x, y)) o h].
Definition nums_ended (c : curve) (pos : nat) : Prop :=
  exists p v, at_b c p v /\ nums_good p (v mod p) /\
  exists x y o h, first_point (Prime p) (p - 3) (v mod p) x y /\ gens_of c = Some [mkPoint (Some (x, y)) o h].

Lemma counter_same c c' n : k_static c' = k_static c -> counter c n -> counter c' n.
Proof. intros E H A. rewrite E. exact (H A). Qed.
Lemma at_b_same c c' p v : same_front c c' -> at_b c p v -> at_b c' p v.
Proof. intros (E1 & E2 & E3 & E4 & E5) (A & ((B & B') & C) & D & E & F). split; [congruence|]. split; [split; [split; [congruence|exact B']|congruence]|]. split; [congruence|]. split; [congruence|exact F]. Qed.
Lemma front_same k c c' pos : same_front c c' -> nums_front k c pos -> nums_front k c' pos.
Proof.
  intros E S. pose proof E as (E1 & E2 & E3 & E4 & E5). unfold nums_front in *. destruct (k <=? 1); [|destruct (k =? 2); [|destruct (k =? 3)]].
  - destruct S as (A & n & B). split; [congruence|]. exists n. exact (counter_same _ _ _ E5 B).
  - destruct S as (A & (n & B) & p & C & D). split; [congruence|]. split; [exists n; exact (counter_same _ _ _ E5 B)|]. exists p. split; [congruence|exact D].
  - destruct S as (A & (n & B) & p & (C & C') & D). split; [congruence|]. split; [exists n; exact (counter_same _ _ _ E5 B)|]. exists p. split; [split; [congruence|exact C']|congruence].
  - destruct S as (p & v & A). exists p, v. exact (at_b_same _ _ _ _ E A).
Qed.
(** a value that will not do *)
Lemma at_b_tried c p v : at_b c p v -> (alone -> ~ nums_good p (v mod p)) -> exists n, counter c n.
Proof.
  intros (_ & ((_ & NP) & _) & _ & ST & T) N.
  assert (X : alone -> exists n, v = nums_value n /\ tried n /\ ~ nums_good p (v mod p)) by (intros A; destruct (T A) as (n & E & F); exists n; auto).
  destruct v as [|v|v].
  1, 3: exists 0%nat; intros A; exfalso; destruct (X A) as (n & E & _); destruct n; cbn in E; lia.
  exists (Datatypes.S (Z.to_nat (if Z.pos v =? 1 then 0 else Z.pos v - 2))). intros A. destruct (X A) as (n & E & F & G).
  assert (EN : Z.to_nat (if Z.pos v =? 1 then 0 else Z.pos v - 2) = n).
  { rewrite E. destruct n; [reflexivity|]. unfold nums_value. destruct (Z.eqb_spec (Z.of_nat (Datatypes.S n) + 2) 1); lia. }
  rewrite EN, ST, E. split; [|reflexivity]. intros q m NQ M. rewrite (nums_prime_unique _ _ _ NQ NP). destruct (Nat.eq_dec m n) as [->|NE]; [rewrite <- E; exact G|].
  rewrite (nums_prime_unique _ _ _ NP NQ). apply F; [exact NQ|lia].
Qed.
Lemma at_b_back k c pos p v : 0 <= k <= 3 -> at_b c p v -> (alone -> ~ nums_good p (v mod p)) -> nums_front k c pos.
Proof.
  intros K A N. pose proof (at_b_tried _ _ _ A N) as T. destruct A as (A & (B & C) & _). unfold nums_front.
  destruct (Z.leb_spec k 1); [auto|]. destruct (Z.eqb_spec k 2); [eauto|]. destruct (Z.eqb_spec k 3); [|lia]. split; [exact A|]. split; [exact T|]. exists p. split; assumption.
Qed.
Lemma at_b_values c p v : at_b c p v -> values (every over) c (Prime p) (p - 3) (v mod p).
Proof.
  intros (_ & ((F & N) & A) & B & _). destruct (field_here _ N) as (_ & _ & O). split; [exact F|]. split; [exact O|]. split; [split; exact I|].
  exists (Mod (p - 3) p), (Mod (v mod p) p). auto.
Qed.
Lemma values_here c p v f x y : at_b c p v -> values (every over) c f x y -> f = Prime p /\ x = p - 3 /\ y = v mod p.
Proof.
  intros (_ & ((F & _) & A) & B & _) (F' & _ & _ & u & w & A' & B' & <- & <-). rewrite F in F'. rewrite A in A'. rewrite B in B'.
  injection F' as <-. injection A' as <-. injection B' as <-. auto.
Qed.
Lemma counted_here c p v f x y : at_b c p v -> counted c f x y -> f = Prime p /\ x = p - 3 /\ y = v mod p.
Proof. intros A (V & _). exact (values_here _ _ _ _ _ _ A V). Qed.

Lemma nfield_stage d t c pos : nums_front 1 c pos -> match gen Plan_Model.nums_gen_field None d t c with Ok (c', r) => r = 1 /\ nums_front 2 c' pos | UB => False | _ => True end.
Proof.
  intros (S & n & C). cbn [generator]. change (c_bits (brainpool_cfg cfg)) with bits.
  destruct (Nums_Model.nums_gen_field (isprime P) tries bits) as [p| | |] eqn:E; cbn [bind]; try exact I.
  - split; [reflexivity|]. split; [exact S|]. split; [exists n; exact C|]. exists p. split; [reflexivity|].
    apply (Nums_Props.C19_any_result _ (pc_isprime _ _ PO) tries bits p ltac:(pose proof (in_bits _ IN); lia) E).
  - unfold Nums_Model.nums_gen_field in E. revert E. generalize (2 ^ bits) 1. clear. induction tries as [|f IH]; cbn; intros b x E; [discriminate E|].
    destruct (negb (isprime P (b - x))); [exact (IH _ _ E)|discriminate E].
Qed.
Lemma na_stage d t c pos : nums_front 2 c pos -> exists c', gen Plan_Model.nums_gen_a None d t c = Ok (c', 1) /\ nums_front 3 c' pos.
Proof.
  intros (S & (n & C) & p & F & N). cbn [generator]. rewrite F. cbn [need_prime need bind]. eexists. split; [reflexivity|].
  split; [exact S|]. split; [exists n; exact C|]. exists p. split; [split; assumption|]. destruct (field_here _ N) as (_ & B & _). rewrite nums_a by lia. reflexivity.
Qed.
Lemma nb_stage d t c pos : nums_front 3 c pos -> exists c', gen Plan_Model.nums_gen_b None d t c = Ok (c', 1) /\ nums_front 4 c' pos.
Proof.
  intros (S & (n & C) & p & (F & N) & A). cbn [generator]. rewrite F. cbn [need_prime need bind].
  destruct (Nums_Model.nums_gen_b (option_map (fun b => (b, 0)) (k_static c)) 0 p) as (st, b) eqn:E. eexists. split; [reflexivity|].
  assert (X : exists v, st = Some (v, 0) /\ b = v mod p /\ (alone -> exists n, v = nums_value n /\ tried n)).
  { unfold Nums_Model.nums_gen_b in E. destruct (k_static c) as [u|] eqn:K; cbn [option_map] in E.
    - rewrite Z.eqb_refl in E. injection E as <- <-. eexists. split; [reflexivity|]. split; [reflexivity|]. intros AL. destruct (C AL) as (T & SV). rewrite K in SV.
      destruct n as [|m]; [discriminate SV|]. injection SV as ->. exists (Datatypes.S m). rewrite Nums_Proofs.value_step. auto.
    - injection E as <- <-. exists 1. split; [reflexivity|]. split; [reflexivity|]. intros AL. exists 0%nat. split; [reflexivity|]. intros q m _ L. lia. }
  destruct X as (v & -> & -> & T). exists p, v. split; [exact S|]. split; [split; [split; assumption|exact A]|]. split; [reflexivity|]. split; [reflexivity|exact T].
Qed.
Lemma ncurve_ok c pos f a b : nums_front 4 c pos -> values (every over) c f a b -> ellinit P f a b = false \/ (ellinit P f a b = true /\ ell_get_disc P f a b = 0) -> nums_front 1 c pos.
Proof.
  intros (p & v & A) V H. apply (at_b_back 1 c pos p v ltac:(lia) A). intros _ (NS & _). destruct (values_here _ _ _ _ _ _ A V) as (-> & -> & ->).
  destruct A as (_ & ((_ & N) & _) & _). destruct (field_here _ N) as (Pp & B & O).
  assert (ns : curve_ok (Prime p) (p - 3) (v mod p)) by (constructor; [split; [exact Pp|lia]|exact I|exact I|exact NS]).
  rewrite (pc_nums_init _ _ NO _ _ _ O ns) in H. destruct H as [H|(_ & H)]; [discriminate H|].
  rewrite (pc_disc _ _ PO _ _ _ O (co_a _ _ _ ns) (co_b _ _ _ ns) (pc_nums_init _ _ NO _ _ _ O ns)) in H. unfold discriminant in H.
  apply NS. apply Z.mod_divide; [lia|]. apply Z.mod_divide in H; [|lia].
  apply (prime_mult _ Pp) in H. destruct H as [H|H]; [exfalso|exact H]. assert (H2 : (p | 2 * (2 * (2 * 2)))) by (apply Z.divide_opp_r; exact H).
  repeat (apply (prime_mult _ Pp) in H2; destruct H2 as [H2|H2]; [apply Z.divide_pos_le in H2; lia|]). apply Z.divide_pos_le in H2; lia.
Qed.
Lemma norder_stage d t c f x y pos arg : nums_front 4 c pos -> over f -> curve_ok f x y -> values (every over) c f x y -> k_curve c = Some (f, x, y) ->
  exists c' r, gen Plan_Model.nums_gen_order arg d t c = Ok (c', r) /\
  ((r = 1 /\ c' = set_order (Some (points f x y)) c /\ order_wanted (brainpool_cfg cfg) (points f x y) /\ nums_ordered c' pos) \/ (r = -2 /\ nums_front 3 c' pos)).
Proof.
  intros (p & v & A) OV ns V K. destruct (values_here _ _ _ _ _ _ A V) as (-> & -> & ->). pose proof (pc_curve _ _ PO _ _ _ OV ns) as PC.
  cbn [generator]. rewrite K. cbn [need bind]. pose proof A as (_ & ((F & _) & _) & _). rewrite F. cbn [need_prime need bind]. eexists _, _. split; [reflexivity|].
  destruct (Nums_Props.C20_order _ (pc_isprime _ _ PO) p (ellsea P (Prime p) (p - 3) (v mod p))) as (AC & [E|E]).
  - left. apply AC in E as E'. destruct E' as (Pn & Pt). rewrite E. cbn [fst snd].
    destruct (pc_sea _ _ _ _ PC) as [S|(S & _)]; [|rewrite S in Pn; apply prime_ge_2 in Pn; lia]. rewrite S in *.
    replace (2 * (p + 1) - npoints p (v mod p)) with (2 * p + 2 - npoints p (v mod p)) in Pt by ring.
    split; [reflexivity|]. split; [reflexivity|]. split; [split; [intros _; exact Pn|split; discriminate]|]. exists p, v. split; [apply (at_b_same c); [repeat split|exact A]|auto].
  - right. rewrite E. cbn [fst snd]. split; [reflexivity|]. apply (at_b_back 3 c pos p v ltac:(lia) A). intros _ (_ & Pn & Pt & _). pose proof A as (_ & ((_ & N) & _) & _). rewrite <- (twist_here _ _ _ N) in Pt.
    destruct (pc_sea _ _ _ _ PC) as [S|(_ & S)]; [|exact (S Pn)]. rewrite S in *.
    assert (X : Nums_Model.nums_gen_order (isprime P) p (npoints p (v mod p)) = (1, Some (npoints p (v mod p)))).
    { apply AC. split; [exact Pn|]. replace (2 * (p + 1) - npoints p (v mod p)) with (2 * p + 2 - npoints p (v mod p)) by ring. exact Pt. }
    rewrite X in E. discriminate E.
Qed.
(** no point of order 2 *)
Lemma no_root p b x : nums_prime bits p -> curve_ok (Prime p) (p - 3) b -> prime (npoints p b) -> prime (2 * p + 2 - npoints p b) ->
  ec_on (Prime p) (p - 3) b (Some (x, 0)) = true -> False.
Proof.
  intros N ns Pn Pt On. destruct (field_here _ N) as (Pp & B & OV). pose proof (pc_curve _ _ PO _ _ _ OV ns) as PC.
  pose proof (pc_order _ _ _ _ PC _ On) as HO. destruct (prime_generated _ _ _ ns _ _ On ltac:(discriminate) Pn HO) as (EO & _). rewrite EO in HO.
  assert (D : (npoints p b | 2)).
  { apply (proj2 HO 2). unfold ec_mul. cbn. rewrite Z.eqb_refl. reflexivity. }
  pose proof (prime_ge_2 _ Pn). apply Z.divide_pos_le in D; [|lia]. assert (E : npoints p b = 2) by lia. rewrite E in Pt.
  replace (2 * p + 2 - 2) with (2 * p) in Pt by ring. assert (X : (2 | 2 * p)) by (exists p; ring).
  apply (prime_div_prime _ _ prime_2 Pt) in X. lia.
Qed.
(** two square roots or none *)
Lemma two_roots p b x : nums_prime bits p -> curve_ok (Prime p) (p - 3) b -> prime (npoints p b) -> prime (2 * p + 2 - npoints p b) ->
  let l := ellordinate P (Prime p) (p - 3) b x in l = [] \/ exists y1 y2, l = [y1; y2] /\ y1 <> y2.
Proof.
  intros N ns Pn Pt. cbv zeta. destruct (field_here _ N) as (Pp & B & OV).
  pose proof (fun y => pc_nums_ordinate _ _ NO _ _ _ x y OV ns) as IFF. pose proof (pc_nums_roots _ _ NO _ _ _ x OV ns) as ND. cbn [field_size] in IFF.
  set (l := ellordinate P (Prime p) (p - 3) b x) in *. clearbody l.
  assert (R : forall y, In y l -> 0 < y < p /\ (y * y) mod p = ((x mod p) ^ 3 + (p - 3) * (x mod p) + b) mod p).
  { intros y Iy. apply IFF in Iy. destruct (Z.eq_dec y 0) as [->|Y0]; [exfalso; exact (no_root _ _ _ N ns Pn Pt Iy)|].
    apply (ec_on_iff _ _ _ ns) in Iy. destruct Iy as (_ & Iy & E). apply Fp.in_elements in Iy. cbn [field_size] in Iy. cbn in E. apply Z.eqb_eq in E. split; [lia|exact E]. }
  assert (OP : forall y z, In y l -> In z l -> z = y \/ z = p - y).
  { intros y z Iy Iz. destruct (R y Iy) as (Yb & Ye). destruct (R z Iz) as (Zb & Ze).
    assert (D : (p | (z - y) * (z + y))) by (replace ((z - y) * (z + y)) with (z * z - y * y) by ring; apply Z.mod_divide; [lia|]; rewrite Zminus_mod, Ze, Ye, Z.sub_diag; apply Zmod_0_l).
    apply (prime_mult _ Pp) in D. destruct D as [(k & D)|(k & D)]; [left; assert (k = 0)|right; assert (k = 1)]; try (subst k; lia); clear - D Yb Zb B.
    - destruct (Z_le_gt_dec k (-1)); [nia|]. destruct (Z_le_gt_dec 1 k); [nia|lia].
    - destruct (Z_le_gt_dec k 0); [nia|]. destruct (Z_le_gt_dec 2 k); [nia|lia]. }
  assert (MN : forall y, In y l -> In (p - y) l).
  { intros y Iy. destruct (R y Iy) as (Yb & Ye). apply IFF. apply (ec_on_iff _ _ _ ns). split; [apply Fp.in_elements; cbn [field_size]; apply Z.mod_pos_bound; lia|].
    split; [apply Fp.in_elements; cbn [field_size]; lia|]. cbn. apply Z.eqb_eq. etransitivity; [|exact Ye].
    replace ((p - y) * (p - y)) with (y * y + (p - 2 * y) * p) by ring. apply Z.mod_add. lia. }
  assert (ODD : forall y, y <> p - y).
  { intros y E. assert (p = 2 * y) by lia. assert (D : (2 | p)) by (exists y; lia). apply (prime_div_prime _ _ prime_2 Pp) in D. lia. }
  destruct l as [|y1 [|y2 [|y3 r]]]; [left; reflexivity| | |]; [exfalso|right|exfalso].
  - destruct (MN y1 (or_introl eq_refl)) as [E|[]]. exact (ODD _ E).
  - exists y1, y2. split; [reflexivity|]. inversion ND as [|? ? X _]; subst. intros ->. apply X. left. reflexivity.
  - inversion ND as [|? ? X1 ND2]; subst. inversion ND2 as [|? ? X2 _]; subst.
    destruct (OP y1 y2) as [->| ->]; [left; reflexivity|right; left; reflexivity|apply X1; left; reflexivity|].
    destruct (OP y1 y3) as [->| ->]; [left; reflexivity|right; right; left; reflexivity|apply X1; right; left; reflexivity|apply X2; left; reflexivity].
Qed.
Lemma find_x_defined ord fuel : forall x, Nums_Model.nums_find_x ord fuel x <> UB.
Proof. induction fuel as [|f IH]; intros x; cbn; [discriminate|]. destruct (ord x); [apply IH|discriminate]. Qed.
Lemma ngens_stage d t c f x y pos arg : nums_ordered c pos -> counted c f x y ->
  match gen Plan_Model.nums_gen_gens arg d t c with
  | Ok (c', r) => r = 1 /\ exists g, c' = set_gens (Some g) c /\ gens_fact g f x y /\ nums_made c' pos
  | UB => False
  | _ => True
  end.
Proof.
  intros (p & v & A & Pn & Pt) C. destruct (counted_here _ _ _ _ _ _ A C) as (-> & -> & ->).
  destruct C as ((_ & OV & _) & ns & CV & O & _). pose proof A as (_ & ((KF & N) & _) & _). destruct (field_here _ N) as (Pp & B & _).
  pose proof (fun x => two_roots p (v mod p) x N ns Pn Pt) as TR. cbv zeta in TR. pose proof (pc_curve _ _ PO _ _ _ OV ns) as PC.
  cbn [generator]. rewrite CV, KF, O. cbn [need_prime need bind].
  destruct (Nums_Model.nums_gen_gens _ _ tries p _) as [((g, o), h)| | |] eqn:G; cbn [bind]; try exact I.
  - destruct (Nums_Props.C64_generator _ _ _ _ _ _ _ _ TR G) as (x & y & -> & X1 & IY & MX & MY & -> & ->).
    pose proof (fun z w => pc_nums_ordinate _ _ NO (Prime p) (p - 3) (v mod p) z w OV ns) as IFF. cbn [field_size] in IFF.
    assert (OG : ec_on (Prime p) (p - 3) (v mod p) (Some (x mod p, y)) = true) by (apply IFF; exact IY).
    assert (FP : first_point (Prime p) (p - 3) (v mod p) (x mod p) y).
    { split; [exact OG|]. split.
      - intros z w Oz Z0. destruct (proj1 (ec_on_iff _ _ _ ns _ _) Oz) as (Iz & _). apply Fp.in_elements in Iz. cbn [field_size] in Iz.
        destruct (Z_le_gt_dec x z) as [L|L]; [rewrite (Z.mod_small x p) by lia; lia|]. exfalso.
        assert (IZ : In w (ellordinate P (Prime p) (p - 3) (v mod p) z)) by (apply IFF; rewrite (Z.mod_small z p) by lia; exact Oz). rewrite (MX z ltac:(lia)) in IZ. exact IZ.
      - intros w Ow. apply MY. apply IFF. exact Ow. }
    pose proof (pc_order _ _ _ _ PC _ OG) as HO. destruct (prime_generated _ _ _ ns _ _ OG ltac:(discriminate) Pn HO) as (EO & GE).
    set (g := Some (x mod p, y)) in *. set (o := ellorder P (Prime p) (p - 3) (v mod p) g) in *.
    split; [reflexivity|]. eexists. split; [reflexivity|]. split.
    + split; [|split; [constructor; [split; reflexivity|constructor]|split; [|split; [|discriminate]]]].
      * intros _. split; [|cbn; lia]. split; [constructor; [split; [exact OG|exact HO]|constructor]|]. split; [|split; [exact GE|cbn; lia]].
        constructor; [|constructor]. cbn [p_cofactor s_gen p_order]. eexists. split; [reflexivity|]. rewrite <- EO. pose proof (proj1 HO). rewrite Z.div_same by lia. lia.
      * intros _. constructor; [discriminate|constructor].
      * constructor; [split; [exact OG|exact HO]|constructor].
    + exists p, v. split; [apply (at_b_same c); [repeat split|exact A]|]. split; [exact Pn|]. split; [exact Pt|]. exists (x mod p), y, o. eexists. split; [exact FP|reflexivity].
  - unfold Nums_Model.nums_gen_gens in G. destruct (Nums_Model.nums_find_x _ tries 1) as [x| | |] eqn:FX; cbn [bind] in G; try discriminate G.
    + destruct (TR x) as [E|(y1 & y2 & E & _)]; [|rewrite E in G; discriminate G]. apply Nums_Proofs.nums_find_x_ok in FX. destruct FX as (_ & FX & _). contradiction.
    + exact (find_x_defined _ _ _ FX).
Qed.
Variable hexw : Z -> str.
Notation chk := (check P hexw).
Lemma ncheck_gens c f x y pos g : nums_made c pos -> counted c f x y -> k_gens c = Some g -> gens_fact g f x y ->
  exists r1 r2, chk Plan_Model.gens_check_anomalous None c = Ok r1 /\ chk Plan_Model.brainpool_check_gens None c = Ok r2 /\
  (0 < r1 \/ (r1 = -5 /\ nums_front 1 c pos)) /\ (0 < r2 \/ (r2 = -5 /\ nums_front 1 c pos)) /\ (0 < r1 -> 0 < r2 -> nums_ended c pos).
Proof.
  intros (p & v & A & Pn & Pt & u & w & o & h & FP & GS) C KG GF.
  destruct (counted_here _ _ _ _ _ _ A C) as (-> & -> & ->). destruct C as ((_ & OV & _) & ns & _ & O & _).
  pose proof A as (_ & ((KF & N) & _) & _). destruct (field_here _ N) as (Pp & B & _). cbn [check]. rewrite KF, KG. cbn [need_prime need bind].
  unfold gens_of in GS. rewrite KG in GS. cbn [option_map] in GS. injection GS as GS. destruct g as [|s [|]]; cbn [map] in GS; try discriminate GS. injection GS as GS.
  destruct GF as (_ & _ & _ & RT & _). cbn [map] in RT. inversion RT as [|? ? (OG & HO) _]; subst.
  destruct (prime_generated _ _ _ ns _ _ OG ltac:(rewrite GS; discriminate) Pn HO) as (EO & _).
  eexists _, _. split; [reflexivity|]. split; [reflexivity|]. unfold gens_check_anomalous. cbn [existsb]. rewrite EO, orb_false_r.
  assert (BK : ~ nums_good p (v mod p) -> nums_front 1 c pos) by (intros X; apply (at_b_back 1 c pos p v ltac:(lia) A); intros _; exact X).
  destruct (Z.eqb_spec p (npoints p (v mod p))) as [E|NE].
  - assert (NG : nums_front 1 c pos) by (apply BK; intros (_ & _ & _ & X & _); congruence).
    split; [right; auto|]. split; [|lia]. unfold Brainpool_Model.brainpool_check_gens. destruct (_ <=? _); [right; auto|left; lia].
  - assert (EMB : embedding_degree p (npoints p (v mod p)) (znorder P p (npoints p (v mod p)))).
    { pose proof (pc_curve _ _ PO _ _ _ OV ns) as PC. destruct (pc_meta _ _ _ _ PC) as (EM & _). apply EM.
      apply Zgcd_1_rel_prime. apply rel_prime_sym. apply prime_rel_prime; [exact Pn|]. intros DD. apply (prime_div_prime _ _ Pn Pp) in DD. congruence. }
    destruct EMB as (K1 & K2 & K3). pose proof (prime_ge_2 _ Pn) as N2. split; [left; lia|].
    destruct (Brainpool_Proofs.check_gens_ok (znorder P) p (npoints p (v mod p)) ltac:(lia) NE) as (X & Y).
    assert (DG : Brainpool_Model.brainpool_check_gens (znorder P) p (npoints p (v mod p)) = 1 <-> brainpool_degree p (npoints p (v mod p))).
    { rewrite X. split; [|intros D; exact (D _ (proj1 (Z.le_succ_l 0 _) K1) K2)]. intros Lt k K0 DV.
      destruct (Z_lt_ge_dec k (znorder P p (npoints p (v mod p)))) as [Lk|Ge]; [|clear - Lt Ge; lia]. exfalso. apply (K3 k); [lia|exact DV]. }
    split.
    + destruct Y as [Y|Y]; rewrite Y; [left; lia|right]. split; [reflexivity|]. apply BK. intros (_ & _ & _ & _ & D). apply DG in D. rewrite Y in D. discriminate D.
    + intros _ R. destruct Y as [Y|Y]; [|rewrite Y in R; lia]. exists p, v. split; [exact A|]. split.
      * split; [exact (co_ns _ _ _ ns)|]. split; [exact Pn|]. split; [rewrite <- (twist_here _ _ _ N); exact Pt|]. split; [congruence|]. apply DG. exact Y.
      * exists u, w, o, h. split; [exact FP|]. unfold gens_of. rewrite KG. cbn [option_map map]. rewrite GS. reflexivity.
Qed.
(** the least b *)
Lemma least_b c p v : at_b c p v -> nums_good p (v mod p) -> alone -> 0 < v mod p /\ forall b, 0 < b < v mod p -> ~ nums_good p b.
Proof.
  intros (_ & ((_ & N) & _) & _ & _ & T) G AL. destruct (T AL) as (n & E & TN). destruct (field_here _ N) as (Pp & B & OV).
  pose proof (Z.mod_pos_bound v p ltac:(lia)) as VB. assert (V1 : 1 <= v) by (rewrite E; destruct n; unfold nums_value; lia). split.
  - destruct (Z.eq_dec (v mod p) 0) as [Z0|]; [exfalso|lia]. rewrite Z0 in G. destruct G as (NS & Pn & Pt & _). rewrite <- (twist_here _ _ _ N) in Pt.
    assert (ns : curve_ok (Prime p) (p - 3) 0) by (constructor; [split; [exact Pp|lia]|exact I|exact I|exact NS]).
    apply (no_root p 0 0 N ns Pn Pt). apply (ec_on_iff _ _ _ ns). cbn [field_size]. rewrite !Fp.in_elements. split; [lia|]. split; [lia|]. cbn. rewrite Z.mul_0_r. reflexivity.
  - intros b Bb. assert (LV : v mod p <= v) by (apply Z.mod_le; lia). destruct (Z.eq_dec b 2) as [->|B2].
    + intros (NS & _). apply NS. rewrite <- (nums_a p) by lia. apply Nums_Props.C20_skipped_two. lia.
    + destruct (Nums_Props.C20_all_values b ltac:(lia) B2) as (m & <-). pose proof (TN p m N) as X. rewrite Z.mod_small in X by lia. apply X.
      destruct (Nat.lt_ge_cases m n) as [Lm|Gm]; [exact Lm|exfalso]. destruct (Nat.eq_dec n m) as [->|Nm]; [lia|].
      pose proof (Nums_Props.C20_increasing n m ltac:(lia)). lia.
Qed.
End Stages.

(** ** The run *)
Section Run.
Variable P : pari.
Variable cfg : config.
Hypothesis PO : pari_ok P (c_bits cfg).
Hypothesis NO : nums_ok P (c_bits cfg).
Hypothesis IN : in_nums cfg.
Variable hexw hexp dec : Z -> list ascii.
Hypothesis OK : prints hexw hexp dec.
Hypothesis HX : Hex_Props.prints_hex hexw.
Variable junk : nat -> ascii.
Variable draws : Z -> nat -> draw.
Variable tries fuel : nat.
Variable avma : Z.
Notation setup := (snd (Plan_Model.exhaustive_init cfg [N_method])).
Notation alone := (undisturbed cfg draws).

Lemma nums_result d l i fuel' av r w :
  search P (brainpool_cfg cfg) hexw tries d l (draws i) setup fuel' av = (r, w) ->
  match r with Engine_Model.Returned r => (r = 1 /\ success P (brainpool_cfg cfg) (every (prime_over (c_bits cfg))) hexw (nums_ended cfg alone) w) \/ (r = 0 /\ failed (brainpool_cfg cfg) True w)
  | Engine_Model.NoFuel => True | _ => False end.
Proof.
  rewrite (nums_plan cfg [N_method] IN).
  refine (search_result P (brainpool_cfg cfg) (every (prime_over (c_bits cfg))) (prime_fits (brainpool_cfg cfg)) PO (nums_range _ IN) hexw tries d l (draws i)
    Plan_Model.gen_skip Plan_Model.nums_gen_field Plan_Model.nums_gen_a Plan_Model.nums_gen_b Plan_Model.nums_gen_order Plan_Model.nums_gen_gens
    None None None None (order_arg cfg) (gens_arg cfg) [] [Plan_Model.gens_check_anomalous; Plan_Model.brainpool_check_gens]
    Plan_Model.seed_unroll (nums_front cfg alone) (nums_ordered cfg alone) (nums_ordered cfg alone) (nums_made cfg alone) (nums_ended cfg alone) True
    _ _ _ _ _ _ _ _ _ _ _ _ _ _ _ _ _ _ _ _ _ fuel' av r w).
  - intros _. repeat split.
  - intros k c pos K S _. unfold nums_front in S. destruct (k <=? 1); [apply S|]. destruct (k =? 2); [apply S|]. destruct (k =? 3); [apply S|]. destruct S as (p & v & S). apply S.
  - split; [reflexivity|]. exists 0%nat. intros (_ & A & _). split; [intros q m _ L; lia|]. exact (A i).
  - intros c pos (n & T) S. split; [exact (S eq_refl)|]. exists 0%nat. intros (A & _). rewrite A in T. discriminate T.
  - exact (ncurve_ok P cfg PO NO IN alone).
  - exact (front_same cfg alone).
  - intros c pos (p & v & A). exists (Prime p), (p - 3), (v mod p). exact (at_b_values cfg IN alone _ _ _ A).
  - intros k dr c pos _ K S RD. assert (KK : k = 0 \/ k = 1 \/ k = 2 \/ k = 3) by lia. destruct KK as [->|[->|[->| ->]]].
    + change (fst (front _ _ _ _ _ _ _ _ 0)) with Plan_Model.gen_skip in *. change (snd (front _ _ _ _ _ _ _ _ 0)) with (@None Plan_Model.arg_t). cbv zeta. cbn [reads generator]. left. split; [reflexivity|exact S].
    + pose proof (nfield_stage P cfg PO IN tries d alone dr (nth pos l []) c pos S) as X.
      change (fst (front _ _ _ _ _ _ _ _ 1)) with Plan_Model.nums_gen_field in *. change (snd (front _ _ _ _ _ _ _ _ 1)) with (@None Plan_Model.arg_t). cbv zeta. cbn [reads].
      destruct (generator P (brainpool_cfg cfg) tries d Plan_Model.nums_gen_field None dr (nth pos l []) c) as [(c', r')| | |]; try exact I; [left; exact X|intros _; exact X].
    + destruct (na_stage P cfg IN tries d alone dr (nth pos l []) c pos S) as (c' & E & X).
      change (fst (front _ _ _ _ _ _ _ _ 2)) with Plan_Model.nums_gen_a in *. change (snd (front _ _ _ _ _ _ _ _ 2)) with (@None Plan_Model.arg_t). cbv zeta. cbn [reads]. rewrite E. left. split; [reflexivity|exact X].
    + destruct (nb_stage P cfg tries d alone dr (nth pos l []) c pos S) as (c' & E & X).
      change (fst (front _ _ _ _ _ _ _ _ 3)) with Plan_Model.nums_gen_b in *. change (snd (front _ _ _ _ _ _ _ _ 3)) with (@None Plan_Model.arg_t). cbv zeta. cbn [reads]. rewrite E. left. split; [reflexivity|exact X].
  - reflexivity.
  - intros dr t c p a b pos S V ns K. pose proof V as (_ & CO & _).
    destruct (norder_stage P cfg PO tries d alone dr t c p a b pos (order_arg cfg) S CO ns V K) as (c' & r' & -> & X). destruct X as [X|(-> & X)]; [left; exact X|right; split; [lia|exact X]].
  - intros f c p a b pos [].
  - intros c p a b pos S _ _. exact S.
  - reflexivity.
  - intros dr t c p a b pos S C. pose proof (ngens_stage P cfg PO NO IN tries d alone dr t c p a b pos (gens_arg cfg) S C) as X.
    destruct (generator P (brainpool_cfg cfg) tries d Plan_Model.nums_gen_gens (gens_arg cfg) dr t c) as [(c', r')| | |]; try exact I; [|intros _; exact X].
    destruct X as (-> & g & E & G & M). left. split; [reflexivity|]. exists (k_seed c), g. split; [rewrite E; destruct c; reflexivity|]. auto.
  - intros f c p a b pos g If M C KG GF. destruct (ncheck_gens P cfg PO IN alone hexw c p a b pos g M C KG GF) as (r1 & r2 & E1 & E2 & X1 & X2 & _).
    destruct If as [<-|[<-|[]]]; [rewrite E1; exact X1|rewrite E2; exact X2].
  - intros c p a b pos g M C KG GF PS. destruct (ncheck_gens P cfg PO IN alone hexw c p a b pos g M C KG GF) as (r1 & r2 & E1 & E2 & _ & _ & X).
    destruct (PS _ (or_introl eq_refl)) as (r3 & E3 & R3). destruct (PS _ (or_intror (or_introl eq_refl))) as (r4 & E4 & R4). apply X; congruence.
  - intros c pos (p & v & (A & _) & _) _. exact A.
  - intros c pos (p & v & (A & _) & _) _. exact A.
  - intros c pos p a b H (q & v & A & _) _. apply (at_b_back cfg alone 1 c pos q v ltac:(lia) A). intros (_ & _ & N). contradiction.
  - intros c pos f _ (p & v & (_ & ((KF & N) & _) & _) & _) K. rewrite KF in K. injection K as <-. pose proof (nums_prime_big _ _ (proj1 (in_bits _ IN)) N). cbn [large]. lia.
  - intros c c' pos SF KO KG (p & v & A & G & x & y & o & h & FP & GS). exists p, v. split; [exact (at_b_same cfg alone _ _ _ _ SF A)|]. split; [exact G|].
    exists x, y, o, h. split; [exact FP|]. unfold gens_of in *. congruence.
Qed.
Lemma nums_shows l c : found (brainpool_cfg cfg) hexw (every (prime_over (c_bits cfg))) (fun _ => nums_ended cfg alone) l c -> wanted_nums cfg hexw alone c.
Proof.
  intros (k & f & ((p & v & A & G & x & y & o & h & FP & GS) & SH & (q & Kf & Pf) & (x' & Kx & Px) & (y' & Ky & Py)) & KF & Of & W & g & KG & PG).
  pose proof A as (KS & ((KF' & N) & KA) & KB & _). assert (q = Prime p) by congruence. subst q. assert (f = Prime p) by congruence. subst f.
  rewrite KA in Kx. injection Kx as <-. rewrite KB in Ky. injection Ky as <-. cbn [elem_int] in Px, Py.
  unfold gens_of in *. rewrite KG in GS. cbn [option_map] in GS. injection GS as GS.
  assert (PT : map (fun s => p_point (s_gen s)) g = [Some (x, y)]) by (rewrite <- (map_map s_gen p_point), GS; reflexivity).
  pose proof (proj1 (proj2 (field_here cfg IN p N))) as B7. exists p. split; [exact Pf|]. split; [rewrite SH, KS; reflexivity|]. split; [exact N|]. split; [exact Px|]. rewrite Py.
  split; [apply Z.mod_pos_bound; lia|]. split; [exact G|]. split; [exact (least_b P cfg PO IN alone hexw k p v A G)|]. split; [|exact W].
  exists x, y. split; [exact FP|]. rewrite PG. exact PT.
Qed.

(** C81. Full statement: of every run. Missing: the sizes that are printed fit (fitsb). *)
Theorem C81_run_partial ino readable writable reason io seadata fs kbd d input outer i :
  Shell_Spec.separate ino writable io -> Shell_Spec.input_is ino readable io fs kbd d input ->
  Shell_Model.i_append io = false -> Shell_Spec.out_file ino writable io i -> 0 <= c_count cfg < 2 ^ 64 ->
  let '(w, status) := Shell_Model.main ino readable writable (fun _ => None) reason true io seadata
      (exhaustive_do P cfg hexw hexp dec junk draws tries fuel avma d setup outer) (Shell_Model.fresh fs kbd) in
  status = Some 0 ->
  exists text cs, Shell_Model.files w i = Some text /\ Z.of_nat (length cs) = c_count cfg /\ Forall (wanted_nums cfg hexw alone) cs /\
    (exists v, json text v) /\
    forall v, json text v -> exists ds, v = JArr ds /\ all read_curve ds = Some cs.
Proof.
  intros S I NA O B.
  pose proof (run_file P (brainpool_cfg cfg) hexw hexp dec OK HX junk draws tries fuel avma d setup (every (prime_over (c_bits cfg))) (fun _ => nums_ended cfg alone) _
    (fun l i fuel av r w => nums_result d l i fuel av r w) ino readable writable reason io seadata fs kbd d input outer i S I NA O B) as H.
  change (exhaustive_do P (brainpool_cfg cfg)) with (exhaustive_do P cfg) in H.
  destruct (Shell_Model.main _ _ _ _ _ true io seadata _ (Shell_Model.fresh fs kbd)) as (w, status). intros E.
  destruct (H E) as (text & cs & F & N & EA & J). exists text, cs. split; [exact F|]. split; [exact N|]. split; [|exact J].
  apply (each_all (found (brainpool_cfg cfg) hexw (every (prime_over (c_bits cfg))) (fun _ => nums_ended cfg alone))) with (2 := EA). exact nums_shows.
Qed.
(** A search leaves no undefined behaviour behind: the square roots that are compared are two (see C64). *)
Theorem C81_defined d l i r w : c_hex_check cfg = None -> search P cfg hexw tries d l (draws i) setup fuel avma = (r, w) ->
  match r with
  | Engine_Model.Returned 1 => w_wrong w = None /\ exists c, to_output (w_curve w) = Ok c
  | Engine_Model.Returned 0 => w_wrong w <> Some Undefined
  | Engine_Model.NoFuel => True
  | _ => False
  end.
Proof.
  intros NH S. refine (search_defined P (brainpool_cfg cfg) hexw draws tries fuel avma d setup (every (prime_over (c_bits cfg))) (fun _ => nums_ended cfg alone) _
    (fun l i fuel av r w => nums_result d l i fuel av r w) l i r w _ I S). split; [exact NH|left; reflexivity].
Qed.
End Run.
Print Assumptions C81_twist.
Print Assumptions C81_run_partial.
Print Assumptions C81_defined.

(** With nothing in the way the run prints one curve over and over: it depends on the size alone. *)
Theorem C81_one_curve cfg cfg' hexw hexw' (alone alone' : Prop) c c' : c_bits cfg = c_bits cfg' -> alone -> alone' ->
  wanted_nums cfg hexw alone c -> wanted_nums cfg' hexw' alone' c' ->
  pub_f c = pub_f c' /\ pub_a c = pub_a c' /\ pub_b c = pub_b c' /\ pub_order c = pub_order c' /\
  map (fun g => xy_of (fst g)) (pub_groups c) = map (fun g => xy_of (fst g)) (pub_groups c').
Proof.
  intros EB AL AL' (p & F & _ & N & A & Bb & G & L & (x & y & FP & GS) & (_ & O & _)) (p' & F' & _ & N' & A' & Bb' & G' & L' & (x' & y' & FP' & GS') & (_ & O' & _)).
  rewrite EB in N. rewrite <- (nums_prime_unique _ _ _ N N') in *. clear N' p'. destruct (L AL) as (B0 & L1). destruct (L' AL') as (B0' & L1').
  assert (E : pub_b c = pub_b c').
  { destruct (Z.lt_trichotomy (pub_b c) (pub_b c')) as [X|[X|X]]; [|exact X|]; exfalso; [apply (L1' (pub_b c)); [lia|exact G]|apply (L1 (pub_b c')); [lia|exact G']]. }
  split; [congruence|]. split; [congruence|]. split; [exact E|]. split; [rewrite O, O', A, A', E; reflexivity|]. rewrite GS, GS'. rewrite <- E in FP'.
  destruct FP as (On & MX & MY). destruct FP' as (On' & MX' & MY').
  assert (EX : x = x').
  { destruct (Z.eq_dec x 0) as [X0|X0], (Z.eq_dec x' 0) as [X0'|X0']; [congruence| | |].
    - destruct (MX _ _ On' X0') as (X & _). contradiction.
    - destruct (MX' _ _ On X0) as (X & _). contradiction.
    - apply Z.le_antisymm; [apply (MX _ _ On' X0')|apply (MX' _ _ On X0)]. }
  subst x'. do 3 f_equal. apply Z.le_antisymm; [apply MY; exact On'|apply MY'; exact On].
Qed.
Print Assumptions C81_one_curve.
