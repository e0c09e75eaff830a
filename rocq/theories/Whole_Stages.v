(** The stages of a plan on a curve: what each leaves in the curve, in terms of the group. *)
From Coq Require Import Znumtheory Sorted.
From Verif Require Import Base Fp Abelian Ec Poly_Model Primes Factor Random_Model Random_Props Subgroup_Model Subgroup_Proofs Subgroup_Props.
From Verif Require Plan_Model.
From Verif Require Import Points_Model Points_Props Gens_Props Cli_Model Whole_Model Whole_Spec Whole_Group.
Local Open Scope Z_scope.
Local Open Scope list_scope.

(** ** Lists of primes with the same product *)
Lemma prime_in_product q l : prime q -> Forall prime l -> (q | zprod l) -> In q l.
Proof.
  intros Hq. induction 1 as [|r l Hr F IH]; intros D; cbn in D.
  - apply Z.divide_1_r in D. pose proof (prime_ge_2 q Hq). lia.
  - destruct (prime_mult q Hq _ _ D) as [X|X]; [left|right; now apply IH].
    destruct (prime_divisors r Hr q X) as [|[|[|]]]; pose proof (prime_ge_2 q Hq); pose proof (prime_ge_2 r Hr); lia.
Qed.
Lemma same_length l : forall m, Forall prime l -> Forall prime m -> zprod l = zprod m -> length l = length m.
Proof.
  induction l as [|q l IH]; intros m Fl Fm E.
  - pose proof (zprod_small m Fm) as (Z1 & _). symmetry. apply Z1. rewrite <- E. reflexivity.
  - inversion Fl as [|? ? Hq Fl']; subst.
    assert (D : (q | zprod m)) by (rewrite <- E; cbn; apply Z.divide_factor_l).
    pose proof (prime_in_product q m Hq Fm D) as I. apply in_split in I. destruct I as (m1 & m2 & ->).
    apply Forall_app in Fm. destruct Fm as (F1 & F2). inversion F2 as [|? ? _ F3]; subst.
    assert (E2 : zprod l = zprod (m1 ++ m2)).
    { rewrite zprod_app in *. cbn in E. pose proof (prime_ge_2 q Hq). apply (Z.mul_reg_l _ _ q); [lia|].
      unfold zprod in *. rewrite E. ring. }
    rewrite app_length. cbn [length]. rewrite (IH (m1 ++ m2) Fl'); [rewrite app_length; lia|apply Forall_app; auto|exact E2].
Qed.

Section Listed.
Variables (fa : Z -> list (Z * Z)) (ip : Z -> bool).
Hypothesis fa_ok : forall n, 0 < n -> factorization n (fa n).
Hypothesis ip_ok : forall n, ip n = true <-> prime n.

Lemma few_length n : 0 < n -> (length (subgroups_divisors fa n) < 63)%nat -> few_factors n.
Proof.
  intros H L ps F E. destruct (factorization_expand n (fa n) (fa_ok n H)) as (P & Ep).
  change (subgroups_divisors fa n) with (expand (fa n)) in L.
  rewrite (same_length ps (expand (fa n)) F P); [exact L|]. now rewrite Ep.
Qed.
Lemma few_prime n : prime n -> few_factors n.
Proof.
  intros Pn ps F E. pose proof (zprod_small ps F) as (_ & Z2). unfold zprod in Z2. rewrite E in Z2.
  rewrite (proj1 Z2 Pn). lia.
Qed.
(** the listing works, or stops with an error *)
Lemma all_cases n : 1 < n -> few_factors n \/ subgroups_all fa ip n = Abort.
Proof.
  intros H. unfold subgroups_all. destruct (ip n) eqn:E; [left; apply few_prime; now apply ip_ok|].
  pose proof (divisors_length fa ip fa_ok ip_ok n ltac:(lia) (not_prime ip ip_ok n E) ltac:(lia)) as L.
  unfold subgroups_2n_factors. destruct (Nat.eqb_spec (length (subgroups_divisors fa n)) 0); [lia|].
  destruct (Nat.leb_spec 63 (length (subgroups_divisors fa n))) as [K|K]; [now right|left]. apply few_length; [lia|exact K].
Qed.
Lemma nonprime_cases n : 1 < n -> few_factors n \/ subgroups_nonprime fa ip n = Abort.
Proof.
  intros H. unfold subgroups_nonprime. destruct (ip n) eqn:E; [left; apply few_prime; now apply ip_ok|].
  pose proof (divisors_length fa ip fa_ok ip_ok n ltac:(lia) (not_prime ip ip_ok n E) ltac:(lia)) as L.
  unfold subgroups_2n_factors. destruct (Nat.eqb_spec (length (subgroups_divisors fa n)) 1); [lia|].
  destruct (Nat.leb_spec 63 (length (subgroups_divisors fa n))) as [K|K]; [now right|left]. apply few_length; [lia|exact K].
Qed.
End Listed.

Lemma mapm_inv {X Y} (f : X -> res Y) l : forall r, mapm f l = Ok r -> Forall2 (fun x y => f x = Ok y) l r.
Proof.
  induction l as [|x l IH]; intros r H; cbn [mapm] in H; [injection H as <-; constructor|].
  apply bind_ok in H. destruct H as (y & E & H). apply bind_ok in H. destruct H as (r' & E2 & H). injection H as <-.
  constructor; [exact E|now apply IH].
Qed.
(** the first that fails decides *)
Lemma mapm_fail {X Y} (f : X -> res Y) l :
  (forall x, In x l -> (exists y, f x = Ok y) \/ f x = Abort) -> (exists r, mapm f l = Ok r) \/ mapm f l = Abort.
Proof.
  induction l as [|x l IH]; intros H; [left; exists []; reflexivity|]. cbn [mapm].
  destruct (H x (or_introl eq_refl)) as [(y & ->)| ->]; [|right; reflexivity]. cbn [bind].
  destruct IH as [(r & ->)| ->]; [intros; apply H; now right|left; eexists; reflexivity|right; reflexivity].
Qed.

(** ** The plans for curves over a prime field *)
(** what the stages need *)
Record in_range (cfg : config) : Prop := {
  in_bits : 3 <= c_bits cfg < 2 ^ 61;
  in_filters : (c_prime cfg = true -> c_cofactor cfg = false /\ c_smooth cfg = false) /\ (c_cofactor cfg = true -> c_smooth cfg = false);
  in_type : 0 <= c_points_type cfg <= 4;
  in_amount : 0 <= c_points_amount cfg < 2 ^ 64;
  in_cofactor : - 2 ^ 63 <= c_cofactor_value cfg < 2 ^ 63;
  in_smooth : 0 <= c_smooth_value cfg < 2 ^ 63
}.
(** and what the last five stages need of it *)
Record in_tail (cfg : config) : Prop := {
  it_bits : c_smooth cfg = true -> 3 <= c_bits cfg < 2 ^ 61;
  it_filters : (c_prime cfg = true -> c_cofactor cfg = false /\ c_smooth cfg = false) /\ (c_cofactor cfg = true -> c_smooth cfg = false);
  it_type : 0 <= c_points_type cfg <= 4;
  it_amount : 0 <= c_points_amount cfg < 2 ^ 64;
  it_smooth : 0 <= c_smooth_value cfg < 2 ^ 63
}.
Lemma range_tail cfg : in_range cfg -> in_tail cfg.
Proof. intros [A B C D E F]. constructor; auto. Qed.
Coercion range_tail : in_range >-> in_tail.
Lemma end_filters cfg : cli_end_ok cfg = true ->
  (c_prime cfg = true -> c_cofactor cfg = false /\ c_smooth cfg = false) /\ (c_cofactor cfg = true -> c_smooth cfg = false).
Proof.
  intros E. unfold cli_end_ok in E. rewrite !andb_true_iff in E.
  destruct E as ((((((((((_ & E) & _) & _) & _) & _) & _) & _) & _) & _) & _).
  destruct (c_prime cfg), (c_cofactor cfg), (c_smooth cfg); try discriminate E; split; intros; try discriminate; auto.
Qed.
Definition order_f (cfg : config) : Plan_Model.gen_f :=
  if c_prime cfg then Plan_Model.order_gen_prime else if c_cofactor cfg then Plan_Model.order_gen_cofactor
  else if c_smooth cfg then Plan_Model.order_gen_smooth else Plan_Model.order_gen_any.
Definition order_arg (cfg : config) : option Plan_Model.arg_t :=
  if c_smooth cfg then Some (Plan_Model.Smooth (c_smooth_value cfg))
  else if c_cofactor cfg then Some (Plan_Model.Cofactor (c_cofactor_value cfg)) else None.
Definition gens_f (cfg : config) : Plan_Model.gen_f :=
  if c_unique cfg then Plan_Model.gens_gen_one else if c_cofactor cfg then Plan_Model.gens_gen_cofactor else Plan_Model.gens_gen_any.
Definition gens_arg (cfg : config) : option Plan_Model.arg_t :=
  if c_cofactor cfg then Some (Plan_Model.Cofactor (c_cofactor_value cfg)) else None.
Definition points_f (cfg : config) : Plan_Model.gen_f :=
  if c_points_type cfg =? POINTS_RANDOM then
    (if c_points_amount cfg =? 0 then Plan_Model.point_gen_random else Plan_Model.points_gen_random)
  else if c_points_type cfg =? POINTS_PRIME then Plan_Model.points_gen_prime
  else if c_points_type cfg =? POINTS_NONPRIME then Plan_Model.points_gen_nonprime
  else if c_points_type cfg =? POINTS_ALL then Plan_Model.points_gen_allgroups else Plan_Model.gen_skip.
Definition points_arg (cfg : config) : option Plan_Model.arg_t :=
  if c_points_type cfg =? POINTS_RANDOM then Some (Plan_Model.Amount (c_points_amount cfg)) else None.
Definition meta_f (cfg : config) : Plan_Model.gen_f := if c_metadata cfg then Plan_Model.metadata_gen else Plan_Model.gen_skip.
Definition hex_cell (cfg : config) : option (list Plan_Model.check_f) :=
  match c_hex_check cfg with Some _ => Some [Plan_Model.hex_check_param] | None => None end.
Definition hex_arg (cfg : config) : option Plan_Model.arg_t := match c_hex_check cfg with Some s => Some (Plan_Model.Hex s) | None => None end.

(** the fields that a search may choose *)
Definition field_fits (cfg : config) (f : field) : Prop :=
  (c_smooth cfg = true -> field_size f <= 2 ^ c_bits cfg) /\ match f with Prime p => prime p | Binary c => Irr_Spec.irreducible_poly c /\ field_size f = 2 ^ degree c end.

Section Curve.
Variable P : pari.
Variable cfg : config.
Notation bits := (c_bits cfg).
Variable over : field -> Z -> Z -> Prop.
Hypothesis OV : forall f a b, over f a b -> field_fits cfg f.
Hypothesis PO : pari_on P over.
Variable p : field.
Variables a b : Z.
Hypothesis CO : over p a b.
Hypothesis ns : curve_ok p a b.
Notation n := (points p a b).
Notation mul := (ellmul P p a b).
Notation ord := (ellorder P p a b).

Let PC : pari_curve P p a b := pc_curve P over PO p a b CO ns.
Let G := tgroup p a b ns.
Let mul_ok := pc_mul _ _ _ _ PC.
Let ord_ok := pc_order _ _ _ _ PC.

Lemma points_pos : 0 < n.
Proof. pose proof (points_bound p a b ns). lia. Qed.

(** ** The same as in Whole_Spec of points that may be the one at infinity *)
Definition rtrue (q : point_t pt) : Prop := ec_on p a b (p_point q) = true /\ has_order p a (p_point q) (p_order q).
Definition rwhole (gs : list (point_t pt)) : Prop :=
  Forall rtrue gs /\ Forall (fun g => exists c, p_cofactor g = Some c /\ c * p_order g = n) gs /\
  generate p a b (map p_point gs) /\ (length gs <= 2)%nat.
Definition rgens (gs : list (point_t pt)) : Prop :=
  if c_unique cfg then rwhole gs /\ (length gs <= 1)%nat
  else if c_cofactor cfg then
    exists g rest, gs = g :: rest /\ rwhole rest /\ rtrue g /\ p_cofactor g = Some (c_cofactor_value cfg mod 2 ^ 64) /\
      (forall r, prime r -> n = (c_cofactor_value cfg mod 2 ^ 64) * r -> length rest = 1%nat \/ ~ (r | c_cofactor_value cfg mod 2 ^ 64) -> p_order g = r)
  else rwhole gs.
Definition rpoints (s : subgroup_t pt) : list (point_t pt) :=
  match s_points s with Some l => flat_map (fun q => match q with Some q => [q] | None => [] end) l | None => [] end.
Definition rlisting (s : subgroup_t pt) : Prop :=
  Forall (fun q => rtrue q /\ (exists k, p_point q = ec_mul p a (p_point (s_gen s)) k) /\ p_cofactor q = None) (rpoints s) /\
  (c_points_type cfg = POINTS_NONE -> rpoints s = []) /\
  (c_points_type cfg = POINTS_PRIME -> lists (fun d => prime d /\ (d | p_order (s_gen s))) (map p_order (rpoints s))) /\
  (c_points_type cfg = POINTS_ALL -> lists (fun d => 1 < d /\ (d | p_order (s_gen s))) (map p_order (rpoints s))) /\
  (c_points_type cfg = POINTS_NONPRIME -> lists (fun d => 1 < d /\ ~ prime d /\ (d | p_order (s_gen s))) (map p_order (rpoints s))).
Definition ramount (gs : list (subgroup_t pt)) : Prop :=
  c_points_type cfg = POINTS_RANDOM ->
  Z.of_nat (list_sum (map (fun s => length (rpoints s)) gs)) = if c_points_amount cfg =? 0 then 1 else c_points_amount cfg.
Definition fresh (s : subgroup_t pt) : Prop := s_npoints s = 0%nat /\ s_points s = None.
Definition finite (s : subgroup_t pt) : Prop := p_point (s_gen s) <> None.

Lemma rtrue_t q : rtrue q -> order_is None (tmul p a b) (p_point q) (p_order q).
Proof. intros (A & B). now apply has_order_t. Qed.
Lemma finite_order q : rtrue q -> p_point q <> None -> 1 < p_order q.
Proof.
  intros (A & B1 & B2) F. destruct (Z.eq_dec (p_order q) 1) as [E|E]; [|lia].
  exfalso. apply F. rewrite E in B2. change (p_point q) with (ec_mul p a (p_point q) 1). apply B2. apply Z.divide_refl.
Qed.
Lemma generator_t s : rtrue (s_gen s) -> finite s -> generator_ok None (tmul p a b) s.
Proof. intros T F. split; [now apply finite_order|now apply rtrue_t]. Qed.

(** ** The generators *)
Lemma gens_structure t : structure_ok (torder p a b ns) n (ellff_get_gens P p a b t) /\
  Forall (fun g => ec_on p a b g = true) (ellff_get_gens P p a b t) /\ Forall (fun g => g <> None) (ellff_get_gens P p a b t).
Proof.
  destruct (pc_gens _ _ _ _ PC t) as (F & _ & S). generalize dependent (ellff_get_gens P p a b t). intros gens F S.
  assert (F1 : Forall (fun g => ec_on p a b g = true) gens) by (eapply Forall_impl; [|exact F]; intros g X; apply X).
  split; [|split; [exact F1|eapply Forall_impl; [|exact F]; intros g X; apply X]].
  assert (U : forall g m, In g gens -> has_order p a g m -> torder p a b ns g = m).
  { intros g m I H. apply (order_unique None (ec_mul p a) g); [|exact H]. apply torder_on. rewrite Forall_forall in F1. now apply F1. }
  destruct gens as [|g [|h [|]]]; cbn [structure_ok] in *; [exact S| | |exact S].
  - apply U; [now left|exact S].
  - destruct S as (m & k & A & B & C & D). rewrite (U g m), (U h k) by (assumption || cbn; auto). auto.
Qed.

Lemma any_whole t : let l := map (gens_point ord n) (ellff_get_gens P p a b t) in rwhole (map s_gen l) /\ Forall fresh l /\ Forall finite l.
Proof.
  cbv zeta. destruct (gens_structure t) as (S & F & N). pose proof (pc_gens _ _ _ _ PC t) as (_ & Gen & Sh).
  generalize dependent (ellff_get_gens P p a b t). intros gens S F N Gen Sh.
  pose proof (any_t p a b ns ord ord_ok n gens F) as E. unfold gens_gen_any in E. injection E as E. rewrite E.
  destruct (C34_labels None (tmul p a b) (torder p a b ns) G n gens 1 _ S (or_introl eq_refl)) as (_ & L).
  split; [|split].
  - split; [|split; [|split]].
    + clear - L F. induction L as [|g s gens l (A & B & _) L IH]; [constructor|]. inversion F; subst. cbn [map]. constructor; [|now apply IH].
      split; [assumption|]. apply (has_order_t p a b (p_point (s_gen s)) (p_order (s_gen s))); assumption.
    + clear - L. induction L as [|g s gens l (_ & _ & C) L IH]; [constructor|]. cbn [map]. constructor; [exact C|exact IH].
    + rewrite !map_map. cbn [gens_point s_gen p_point]. rewrite map_id. exact Gen.
    + rewrite !map_length. destruct gens as [|g [|h [|]]]; cbn [length]; [lia|lia|lia|contradiction].
  - apply Forall_forall. intros s I. apply in_map_iff in I. destruct I as (g & <- & _). split; reflexivity.
  - apply Forall_forall. intros s I. apply in_map_iff in I. destruct I as (g & <- & I). rewrite Forall_forall in N. apply (N g I).
Qed.

Lemma cofactor_true m h gens q : 0 < h -> Forall (fun g => ec_on p a b g = true) gens ->
  cofactor_point mul ord m h gens = Some q -> rtrue q /\ p_cofactor q = Some h.
Proof.
  intros Hh. induction 1 as [|g gens Hg F IH]; intros E; [discriminate|]. cbn [cofactor_point] in E.
  destruct (m =? ord g).
  - injection E as <-. split; [|reflexivity]. split; [exact Hg|]. cbn [p_point p_order]. now apply ord_ok.
  - destruct (Z.eqb_spec (ord g mod h) 0) as [D|D]; [|now apply IH]. injection E as <-. split; [|reflexivity].
    cbn [p_point p_order rtrue]. unfold rtrue. cbn [p_point p_order]. rewrite mul_ok by assumption.
    pose proof (ec_mul_on p a b ns g h Hg) as On. split; [exact On|].
    apply Z.mod_divide in D; [|lia]. destruct D as (x & D).
    apply (proj2 (has_order_t p a b _ _ On)). rewrite <- tmul_on with (b := b) by assumption.
    rewrite D, Z.div_mul by lia. apply (order_mul None (tmul p a b) (torder p a b ns) G); [|exact Hh].
    rewrite <- (ord_t p a b ns ord ord_ok g Hg), D. ring.
Qed.

(** ** The order: src/gen/order.c *)
Lemma filter_le {A} (f : A -> bool) l : (length (filter f l) <= length l)%nat.
Proof. induction l as [|x l IH]; cbn [filter length]; [lia|]. destruct (f x); cbn [length]; lia. Qed.
Lemma points_log : c_smooth cfg = true -> 3 <= bits < 2 ^ 61 -> Z.log2 n < 2 ^ 63.
Proof.
  intros SM B. pose proof (proj1 (OV p a b CO) SM) as H. pose proof (points_bound p a b ns) as K. pose proof (field_size_pos p a b ns) as L.
  apply Z.le_lt_trans with (2 * bits + 1); [|lia]. rewrite <- (Z.log2_pow2 (2 * bits + 1)) by lia. apply Z.log2_le_mono.
  replace (2 * bits + 1) with (Z.succ (bits + bits)) by lia. rewrite Z.pow_succ_r, Z.pow_add_r by lia.
  clear - K L H. set (t := 2 ^ bits) in *. clearbody t. nia.
Qed.
Variable IS : in_tail cfg.
Variable tries : nat.
Variable delim : Ascii.ascii.
Notation gen := (generator P cfg tries delim).

Lemma u64_mod x : u64 x = x mod 2 ^ 64. Proof. reflexivity. Qed.
Lemma order_stage d t k : k_curve k = Some (p, a, b) ->
  exists k' r, gen (order_f cfg) (order_arg cfg) d t k = Ok (k', r) /\
  ((r = 1 /\ k' = set_order (Some n) k /\ order_wanted cfg n) \/ r = -4).
Proof.
  intros K. destruct (it_filters _ IS) as (F1 & F2). pose proof points_pos as Pos.
  unfold order_f, order_arg, order_wanted.
  destruct (c_prime cfg).
  - destruct (F1 eq_refl) as (-> & ->). cbn [generator]. rewrite K. cbn [need bind]. eexists _, _. split; [reflexivity|].
    destruct (C35_prime (isprime P) (Z_factor P) (pc_isprime _ _ PO) (pc_factor _ _ PO) n (ellsea P p a b) Pos (pc_sea _ _ _ _ PC)) as [(A & ->)|(A & ->)]; cbn [fst snd]; [left|right; reflexivity].
    split; [reflexivity|]. split; [reflexivity|]. repeat (split; [intros; assumption || discriminate|]). discriminate.
  - destruct (c_cofactor cfg).
    + rewrite (F2 eq_refl). cbn [generator]. rewrite K. cbn [need bind number]. eexists _, _. split; [reflexivity|].
      rewrite (pc_card _ _ _ _ PC).
      unfold order_gen_cofactor. rewrite !u64_mod, Z.mod_mod by lia. set (h := c_cofactor_value cfg mod 2 ^ 64).
      assert (Hh : 0 <= h < 2 ^ 64) by (apply Z.mod_pos_bound; lia). clearbody h. unfold dvdii.
      destruct (Z.eqb_spec h 0) as [->|H0]; [destruct (Z.eqb_spec n 0); [lia|right; reflexivity]|].
      destruct (Z.eqb_spec (n mod h) 0) as [D|D]; cbn [negb]; [|right; reflexivity].
      destruct (isprime P (n / h)) eqn:E; cbn [negb fst snd]; [left|right; reflexivity].
      split; [reflexivity|]. split; [reflexivity|]. split; [discriminate|]. split; [|discriminate]. intros _.
      exists (n / h). split; [now apply (pc_isprime _ _ PO)|]. apply Z.mod_divide in D; [|lia]. destruct D as (q & ->). rewrite Z.div_mul by lia. ring.
    + destruct (c_smooth cfg) eqn:SM.
      * cbn [generator]. rewrite K. cbn [need bind number]. eexists _, _. split; [reflexivity|]. rewrite (pc_card _ _ _ _ PC).
        pose proof (it_smooth _ IS) as Hs. rewrite (u64_small (c_smooth_value cfg)) by lia.
        assert (B : 3 <= bits < 2 ^ 61) by exact (it_bits _ IS SM).
        destruct (C35_smooth (isprime P) (Z_factor P) (pc_isprime _ _ PO) (pc_factor _ _ PO) (c_smooth_value cfg) n Pos (points_log SM B) Hs) as [(A & ->)|(A & ->)]; cbn [fst snd]; [left|right; reflexivity].
        split; [reflexivity|]. split; [reflexivity|]. split; [discriminate|]. split; [discriminate|]. intros _. exact A.
      * cbn [generator]. rewrite K. cbn [need bind]. eexists _, _. split; [reflexivity|]. rewrite (pc_card _ _ _ _ PC). left.
        split; [reflexivity|]. split; [reflexivity|]. repeat split; discriminate.
Qed.

(** ** The generators: src/gen/gens.c *)
Lemma gens_stage d t k arg : (c_cofactor cfg = true -> arg = gens_arg cfg) -> k_curve k = Some (p, a, b) -> k_order k = Some n -> order_wanted cfg n ->
  exists k' r, gen (gens_f cfg) arg d t k = Ok (k', r) /\
  ((r = 1 /\ exists g, k' = set_gens (Some g) k /\ rgens (map s_gen g) /\ Forall fresh g /\
      (c_unique cfg = true \/ c_cofactor cfg = false -> Forall finite g) /\ Forall rtrue (map s_gen g) /\ (1 < n -> g <> [])) \/ r = -5).
Proof.
  intros Ha K O (_ & W & _). destruct (any_whole (d_one d)) as (A1 & A2 & A3).
  assert (NE : 1 < n -> ellff_get_gens P p a b (d_one d) <> []).
  { intros L E. pose proof (gens_structure (d_one d)) as (S & _). rewrite E in S. cbn in S. lia. }
  unfold gens_f, gens_arg, rgens in *.
  destruct (c_unique cfg).
  - cbn [generator]. rewrite K, O. cbn [need bind]. eexists _, _. split; [reflexivity|]. unfold gens_gen_one.
    destruct (Nat.eqb_spec (length (ellff_get_gens P p a b (d_one d))) 2) as [E|E]; cbn [fst snd gens_gen_any]; [right; reflexivity|left].
    split; [reflexivity|]. eexists. split; [reflexivity|]. split; [split; [exact A1|]|].
    + rewrite !map_length. destruct (gens_structure (d_one d)) as (S & _).
      destruct (ellff_get_gens P p a b (d_one d)) as [|g [|h [|]]]; cbn [length structure_ok] in *; [lia|lia|lia|contradiction].
    + split; [exact A2|]. split; [intros _; exact A3|]. split; [apply A1|]. intros L C. apply map_eq_nil in C. now apply NE.
  - destruct (c_cofactor cfg).
    + rewrite (Ha eq_refl). destruct (W eq_refl) as (r & Hr & Hn). cbn [generator]. rewrite K, O. cbn [need bind number]. rewrite u64_mod.
      assert (Hb : 0 <= c_cofactor_value cfg mod 2 ^ 64) by (apply Z.mod_pos_bound; lia).
      set (h := c_cofactor_value cfg mod 2 ^ 64) in *. clearbody h.
      pose proof points_pos as Pos. pose proof (prime_ge_2 r Hr) as R2. assert (Hh : 0 < h) by nia.
      destruct (gens_structure (d_one d)) as (St & On & _).
      assert (C34 : forall r' rc l, prime r' -> n = h * r' -> length (ellff_get_gens P p a b (d_one d)) = 1%nat \/ ~ (r' | h) ->
        gens_gen_cofactor mul ord n h (ellff_get_gens P p a b (d_one d)) [] = Ok (rc, l) ->
        (rc = -5 /\ l = []) \/ (rc = 1 /\ exists s rest, l = s :: rest /\ p_order (s_gen s) = r')).
      { intros r' rc l Hr' Hn' Hc E. rewrite (cofactor_t p a b ns mul ord mul_ok ord_ok n h _ [] On), Hn' in E. rewrite Hn' in St.
        destruct (C34_cofactor_partial None (tmul p a b) (torder p a b ns) G h r' _ [] rc l Hh Hr' St Hc E) as [X|(X & s & rest & Y & _ & _ & Z & _)]; [left; exact X|right].
        split; [exact X|]. exists s, rest. auto. }
      destruct (gens_gen_cofactor mul ord n h (ellff_get_gens P p a b (d_one d)) []) as [[rc l]| | |] eqn:E.
      2-4: exfalso; unfold gens_gen_cofactor in E; destruct (Z.eqb_spec h 0); [lia|]; rewrite Hn, Z.mul_comm, Z.mod_mul in E by lia;
           cbn [negb Z.eqb] in E; destruct (cofactor_point _ _ _ _ _); discriminate.
      cbn [bind]. eexists _, _. split; [reflexivity|]. cbn [fst snd].
      unfold gens_gen_cofactor in E. destruct (Z.eqb_spec h 0) as [H0|H0]; [lia|].
      destruct (negb (n mod h =? 0)); [discriminate|].
      destruct (cofactor_point mul ord (n / h) h (ellff_get_gens P p a b (d_one d))) as [q|] eqn:Eq.
      2: { injection E as <- <-. right. reflexivity. }
      injection E as <- <-. left. split; [reflexivity|]. eexists. split; [reflexivity|].
      destruct (cofactor_true _ _ _ _ Hh On Eq) as (T1 & T2). split; [|split; [|split; [|split]]].
      * cbn [map s_gen]. eexists _, _. split; [reflexivity|]. split; [exact A1|]. split; [exact T1|]. split; [exact T2|].
        intros r' Hr' Hn' Hc. rewrite !map_length in Hc. destruct (C34 r' _ _ Hr' Hn' Hc eq_refl) as [(X & _)|(_ & s & rest & X & Y)]; [discriminate|].
        injection X as <- _. exact Y.
      * constructor; [split; reflexivity|exact A2].
      * intros [X|X]; discriminate.
      * cbn [map s_gen]. constructor; [exact T1|apply A1].
      * discriminate.
    + cbn [generator]. rewrite K, O. cbn [need bind]. eexists _, _. split; [reflexivity|]. cbn [fst snd gens_gen_any]. left.
      split; [reflexivity|]. eexists. split; [reflexivity|]. split; [exact A1|]. split; [exact A2|]. split; [intros _; exact A3|]. split; [apply A1|].
      intros L C. apply map_eq_nil in C. now apply NE.
Qed.

(** ** The points: src/gen/point.c *)
Definition keeps (s s' : subgroup_t pt) : Prop := s_gen s' = s_gen s /\ Forall (fun q => p_cofactor q = None) (rpoints s').
Lemma keeps_fresh s : fresh s -> keeps s s.
Proof. intros (_ & E). split; [reflexivity|]. unfold rpoints. rewrite E. constructor. Qed.
Lemma keeps_gens g g' : Forall2 keeps g g' -> map s_gen g' = map s_gen g.
Proof. induction 1 as [|s s' g g' (E & _) F IH]; [reflexivity|]. cbn [map]. now rewrite E, IH. Qed.
Lemma keeps_self g : Forall fresh g -> Forall2 keeps g g.
Proof. induction 1; constructor; auto using keeps_fresh. Qed.
Lemma keeps_orders m s l : keeps s (set_points s (points_from_orders m (s_gen s) l)).
Proof.
  split; [reflexivity|]. unfold rpoints, set_points, points_from_orders. cbn [s_points]. apply Forall_forall. intros q I.
  apply in_flat_map in I. destruct I as (o & I & J). apply in_map_iff in I. destruct I as (x & <- & _). unfold point_from_order in J.
  destruct (p_order (s_gen s) =? x); [destruct J as [<-|[]]; reflexivity|].
  destruct (dvdii (p_order (s_gen s)) x); [destruct J as [<-|[]]; reflexivity|destruct J].
Qed.
Lemma keeps_prime m fa ip g g' : points_gen_prime m fa ip g = Ok g' -> Forall2 keeps g g'.
Proof. intros H. apply mapm_inv in H. induction H as [|s s' g g' E F IH]; constructor; [|exact IH]. injection E as <-. apply keeps_orders. Qed.
Lemma keeps_all m fa ip g g' : points_gen_allgroups m fa ip g = Ok g' -> Forall2 keeps g g'.
Proof.
  intros H. apply mapm_inv in H. induction H as [|s s' g g' E F IH]; constructor; [|exact IH].
  destruct (subgroups_all fa ip (p_order (s_gen s))) as [[l|]| | |]; try discriminate E. injection E as <-. apply keeps_orders.
Qed.
Lemma keeps_nonprime m fa ip g g' : Forall fresh g -> points_gen_nonprime m fa ip g = Ok g' -> Forall2 keeps g g'.
Proof.
  intros Fr H. apply mapm_inv in H. induction H as [|s s' g g' E F IH]; constructor; inversion Fr; subst; [|now apply IH].
  destruct (subgroups_nonprime fa ip (p_order (s_gen s))) as [[l|]| | |]; try discriminate E; injection E as <-; [apply keeps_orders|now apply keeps_fresh].
Qed.
Lemma keeps_upd g s i s' : Forall fresh g -> nth_error g i = Some s -> keeps s s' -> Forall2 keeps g (upd g i s').
Proof.
  intros F. revert i. induction F as [|x g Hx F IH]; intros i E K; [destruct i; discriminate|]. destruct i as [|i]; cbn [upd nth_error] in *.
  - injection E as ->. constructor; [exact K|now apply keeps_self].
  - constructor; [now apply keeps_fresh|now apply IH].
Qed.
Lemma keeps_point m o g t1 t2 g' : Forall fresh g -> point_gen_random m o g t1 t2 = Ok g' -> Forall2 keeps g g'.
Proof.
  intros F H. unfold point_gen_random in H. apply bind_ok in H. destruct H as (w & _ & H). apply bind_ok in H. destruct H as (s & E & H).
  apply bind_ok in H. destruct H as (x & _ & H). unfold rd in E. destruct (nth_error g (Z.to_nat w)) as [s0|] eqn:N; [|discriminate]. injection E as <-.
  unfold wr in H. destruct (Z.to_nat w <? length g)%nat; [|discriminate]. injection H as <-.
  apply keeps_upd with s0; [exact F|exact N|]. split; [reflexivity|]. repeat constructor.
Qed.
Lemma keeps_fill o m t i k s s' : fresh s -> fill m o t (i, (k, s)) = Ok s' -> keeps s s'.
Proof.
  intros (_ & Fr) H. cbn [fill] in H. destruct (k =? 0)%nat; [injection H as <-; split; [reflexivity|]; unfold rpoints; cbn [s_points]; rewrite Fr; constructor|].
  apply bind_ok in H. destruct H as (l & E & H). injection H as <-. split; [reflexivity|]. unfold rpoints, set_points. cbn [s_points].
  apply mapm_inv in E. clear - E. induction E as [|j o' js l E F IH]; [constructor|]. cbn [flat_map]. apply Forall_app. split; [|exact IH].
  unfold random_point in E. destruct (p_order (s_gen s) =? 2); [injection E as <-; repeat constructor|].
  apply bind_ok in E. destruct E as (x & _ & E). injection E as <-. repeat constructor.
Qed.
Lemma keeps_points m o g c t1 t2 g' : Forall fresh g -> points_gen_random m o g c t1 t2 = Ok g' -> Forall2 keeps g g'.
Proof.
  intros F H. unfold points_gen_random in H. destruct (Nat.eqb_spec (length g) 0) as [|L]; [discriminate|].
  destruct (distribute_ok c (length g) t1 ltac:(lia)) as (per & E & Lp & _). rewrite E in H. cbn [bind] in H. clear E L.
  apply mapm_inv in H. revert g' H. generalize 0%nat as i0. revert per Lp. induction F as [|s g Hs F IH]; intros per Lp i0 g' H.
  - cbn in H. inversion H; subst. constructor.
  - destruct per as [|x per]; [discriminate|]. cbn [length seq combine] in H. inversion H as [|? s' ? g1 E R]; subst.
    constructor; [now apply keeps_fill in E|]. injection Lp as Lp. apply (IH per Lp (Datatypes.S i0) g1 R).
Qed.

Lemma some_points (l : list (point_t pt)) : flat_map (fun q => match q with Some q => [q] | None => [] end) (map Some l) = l.
Proof. induction l as [|q l IH]; [reflexivity|]. cbn. now rewrite IH. Qed.
Lemma rtrue_back q m : ec_on p a b (p_point q) = true -> p_order q = m -> order_is None (tmul p a b) (p_point q) m -> rtrue q.
Proof. intros A E B. split; [exact A|]. rewrite E. exact (proj2 (has_order_t p a b _ _ A) B). Qed.

(** the listed points of one generator *)
Lemma listed_point s s' (Q : Z -> Prop) : rtrue (s_gen s) -> keeps s s' -> points_for None (tmul p a b) Q s s' ->
  Forall (fun q => rtrue q /\ (exists k, p_point q = ec_mul p a (p_point (s_gen s')) k) /\ p_cofactor q = None) (rpoints s') /\
  lists Q (map p_order (rpoints s')).
Proof.
  intros (On & _) (_ & NC) (E & l & pts & L & Ep & _ & F). unfold rpoints in *. rewrite Ep, some_points in *. rewrite E.
  assert (X : map p_order pts = l) by (clear - F; induction F as [|d q l pts (A & _) F IH]; [reflexivity|]; cbn [map]; now rewrite A, IH).
  rewrite X. split; [|exact L]. clear X L Ep. induction F as [|d q l pts (A & B & k & C) F IH]; [constructor|]. inversion NC; subst.
  constructor; [|now apply IH]. split; [|split; [|assumption]].
  - apply rtrue_back with (p_order q); [|reflexivity|exact B]. rewrite C. now apply tmul_curve.
  - exists k. rewrite C. now apply tmul_on.
Qed.
Lemma member_points s s' : rtrue (s_gen s) -> keeps s s' ->
  Forall (fun q => (exists k, p_point q = tmul p a b (p_point (s_gen s)) k) /\ order_is None (tmul p a b) (p_point q) (p_order q)) (rpoints s') ->
  Forall (fun q => rtrue q /\ (exists k, p_point q = ec_mul p a (p_point (s_gen s')) k) /\ p_cofactor q = None) (rpoints s').
Proof.
  intros (On & _) (E & NC) F. rewrite E. clear E. induction F as [|q l ((k & A) & B) F IH]; [constructor|]. inversion NC; subst.
  constructor; [|now apply IH]. split; [|split; [|assumption]].
  - apply rtrue_back with (p_order q); [|reflexivity|exact B]. rewrite A. now apply tmul_curve.
  - exists k. rewrite A. now apply tmul_on.
Qed.

Lemma random_listing s : c_points_type cfg = POINTS_RANDOM ->
  Forall (fun q => rtrue q /\ (exists k, p_point q = ec_mul p a (p_point (s_gen s)) k) /\ p_cofactor q = None) (rpoints s) -> rlisting s.
Proof. intros T F. split; [exact F|]. rewrite T. repeat split; discriminate. Qed.

Lemma upd_listing g i s s' : c_points_type cfg = POINTS_RANDOM -> Forall fresh g -> nth_error g i = Some s -> rlisting s' ->
  Forall rlisting (upd g i s') /\ list_sum (map (fun s => length (rpoints s)) (upd g i s')) = length (rpoints s').
Proof.
  intros T F. assert (N : forall x, fresh x -> rpoints x = []) by (intros x (_ & E); unfold rpoints; now rewrite E).
  assert (N2 : forall x, fresh x -> rlisting x) by (intros x Fx; apply random_listing; [exact T|]; rewrite N by assumption; constructor).
  assert (Z0 : forall g, Forall fresh g -> list_sum (map (fun s => length (rpoints s)) g) = 0%nat).
  { induction 1 as [|x l Hx F' IH]; [reflexivity|]. cbn [map list_sum fold_right]. rewrite N by assumption. exact IH. }
  revert i. induction F as [|x g Hx F IH]; intros i E L; [destruct i; discriminate|]. destruct i as [|i]; cbn [upd nth_error map list_sum fold_right] in *.
  - injection E as ->. split; [constructor; [exact L|eapply Forall_impl; [|exact F]; exact N2]|]. change (fold_right Nat.add 0%nat ?l) with (list_sum l). rewrite Z0 by assumption. lia.
  - destruct (IH i E L) as (A & B). split; [constructor; [now apply N2|exact A]|]. rewrite N by assumption. exact B.
Qed.

Definition sound_points (g g' : list (subgroup_t pt)) : Prop :=
  map s_gen g' = map s_gen g /\ (Forall finite g -> Forall rlisting g' /\ ramount g').
Lemma points_stage d t k g : k_curve k = Some (p, a, b) -> k_gens k = Some g -> Forall rtrue (map s_gen g) -> Forall fresh g ->
  match gen (points_f cfg) (points_arg cfg) d t k with
  | Ok (k', r) => r = 1 /\ exists g', k' = set_gens (Some g') k /\ sound_points g g'
  | UB => ~ (Forall finite g /\ g <> [])
  | _ => True
  end.
Proof.
  intros K Kg T Fr.
  assert (On : Forall (fun s => ec_on p a b (p_point (s_gen s)) = true) g).
  { clear - T. induction g as [|s g IH]; [constructor|]. cbn [map] in T. inversion T as [|? ? H1 H2]; subst. constructor; [apply H1|now apply IH]. }
  assert (GO : Forall finite g -> Forall (generator_ok None (tmul p a b)) g).
  { clear Kg Fr On. induction g as [|s g IH]; [constructor|]. intros F. cbn [map] in T. inversion T; inversion F; subst. constructor; [now apply generator_t|now apply IH]. }
  assert (TG : forall s, In s g -> rtrue (s_gen s)) by (intros s I; rewrite Forall_forall in T; apply T; now apply in_map).
  assert (NR : forall x : Z, c_points_type cfg = x -> x <> POINTS_RANDOM -> forall g', ramount g') by (intros x E H g' E2; congruence).
  assert (FromListed : forall (Q : subgroup_t pt -> Z -> Prop) g', Forall2 keeps g g' ->
      (Forall finite g -> Forall2 (fun s s' => points_for None (tmul p a b) (Q s) s s' \/ (rpoints s' = [] /\ lists (Q s) [])) g g') ->
      c_points_type cfg <> POINTS_RANDOM ->
      (forall s s', s_gen s' = s_gen s -> lists (Q s) (map p_order (rpoints s')) ->
         Forall (fun q => rtrue q /\ (exists k, p_point q = ec_mul p a (p_point (s_gen s')) k) /\ p_cofactor q = None) (rpoints s') -> rlisting s') ->
      sound_points g g').
  { intros Q g' Ke L NRt H. split; [now apply keeps_gens|]. intros F. split; [|intros E; congruence]. specialize (L F). clear Kg T Fr On GO F NR. revert Ke. induction L as [|s s' g g' L1 L IH]; intros Ke; [constructor|]. inversion Ke as [|? ? ? ? K1 K2]; subst.
    constructor; [|apply IH; [intros; apply TG; now right|exact K2]].
    destruct L1 as [L1|(L1 & L2)].
    - destruct (listed_point s s' (Q s) (TG s (or_introl eq_refl)) K1 L1) as (A & B). apply (H s s'); [apply K1|exact B|exact A].
    - apply (H s s'); [apply K1| |]; rewrite L1; [exact L2|constructor]. }
  assert (Weak : forall (R1 R2 : subgroup_t pt -> subgroup_t pt -> Prop) g', (forall s s', R1 s s' -> R1 s s' \/ R2 s s') -> Forall2 R1 g g' -> Forall2 (fun s s' => R1 s s' \/ R2 s s') g g').
  { intros R1 R2 g' H F. clear - H F. induction F; constructor; auto. }
  unfold points_f, points_arg. destruct (Z.eqb_spec (c_points_type cfg) POINTS_RANDOM) as [ER|ER].
  { destruct (Z.eqb_spec (c_points_amount cfg) 0) as [EA|EA].
    - cbn [generator]. rewrite K, Kg. cbn [need bind]. unfold put_points.
      rewrite (random_t p a b ns mul ord mul_ok ord_ok g _ _ On).
      pose proof (keeps_point (tmul p a b) (torder p a b ns) g (d_one d) (d_two d)) as Ke.
      pose proof (C33_point_partial None (tmul p a b) (torder p a b ns) G g (d_one d) (d_two d)) as C.
      destruct (point_gen_random (tmul p a b) (torder p a b ns) g (d_one d) (d_two d)) as [g'| | |] eqn:E; cbn [bind]; try exact I.
      + split; [reflexivity|]. exists g'. split; [reflexivity|]. specialize (Ke g' Fr eq_refl). split; [now apply keeps_gens|]. intros F.
        assert (Ne : g <> []) by (intros ->; discriminate E).
        destruct (C Ne (GO F)) as (g1 & i & s & q & m & E1 & Ei & Eg & O & _ & Em & _). injection E1 as <-.
        assert (Is : In s g) by (eapply nth_error_In; exact Ei).
        assert (Ks : keeps s (mkSub (s_gen s) 1 (Some [Some q]))).
        { subst g'. clear - Ke Ei. revert i Ei Ke. induction g as [|x g IH]; intros i Ei Ke; [destruct i; discriminate|]. destruct i as [|i]; cbn [nth_error upd] in *.
          - injection Ei as ->. inversion Ke; subst. assumption.
          - inversion Ke; subst. eapply IH; eassumption. }
        destruct (upd_listing g i s (mkSub (s_gen s) 1 (Some [Some q])) ER Fr Ei) as (A & B).
        { apply random_listing; [exact ER|]. apply (member_points s); [now apply TG|exact Ks|]. cbn. constructor; [|constructor]. split; [eauto|exact O]. }
        rewrite Eg. split; [exact A|]. intros _. rewrite B, EA. reflexivity.
      + intros (F & Ne). destruct (C Ne (GO F)) as (g1 & i & s & q & m & E1 & _). discriminate.
    - cbn [generator]. rewrite K, Kg. cbn [need bind number]. unfold put_points. rewrite (u64_small (c_points_amount cfg)) by apply (it_amount _ IS).
      rewrite (random_points_t p a b ns mul ord mul_ok ord_ok g _ _ _ On).
      pose proof (keeps_points (tmul p a b) (torder p a b ns) g (Z.to_nat (c_points_amount cfg)) (d_seq d) (d_grid d)) as Ke.
      pose proof (C33_points None (tmul p a b) (torder p a b ns) G g (Z.to_nat (c_points_amount cfg)) (d_seq d) (d_grid d)) as C.
      destruct (points_gen_random (tmul p a b) (torder p a b ns) g (Z.to_nat (c_points_amount cfg)) (d_seq d) (d_grid d)) as [g'| | |] eqn:E; cbn [bind]; try exact I.
      + split; [reflexivity|]. exists g'. split; [reflexivity|]. specialize (Ke g' Fr eq_refl). split; [now apply keeps_gens|]. intros F.
        assert (Ne : g <> []) by (intros ->; discriminate E).
        destruct (C Ne (GO F)) as (g1 & E1 & Sum & L). injection E1 as <-.
        assert (H : Forall rlisting g' /\ list_sum (map (fun s => length (rpoints s)) g') = list_sum (map s_npoints g')).
        { clear Kg T On GO F NR FromListed Weak Ne E C Sum. revert Ke Fr TG. induction L as [|s s' g g' L1 L IH]; intros Ke Fr TG; [split; [constructor|reflexivity]|].
          inversion Ke as [|? ? ? ? K1 K2]; subst. inversion Fr as [|? ? F1 F2]; subst.
          destruct (IH K2 F2 ltac:(intros; apply TG; now right)) as (A & B). cbn [map list_sum fold_right]. fold list_sum.
          assert (X : length (rpoints s') = s_npoints s' /\ Forall (fun q => (exists k, p_point q = tmul p a b (p_point (s_gen s)) k) /\ order_is None (tmul p a b) (p_point q) (p_order q)) (rpoints s')).
          { destruct L1 as (_ & [(N & Ep)|(pts & Ep & Lp & M)]); unfold rpoints; rewrite Ep.
            - destruct F1 as (_ & ->). rewrite N. split; [reflexivity|constructor].
            - rewrite some_points. split; [exact Lp|]. eapply Forall_impl; [|exact M]. intros q (M1 & _ & M2). auto. }
          destruct X as (X1 & X2). split; [constructor; [|exact A]|rewrite X1; f_equal; exact B].
          apply random_listing; [exact ER|]. apply (member_points s); [apply TG; now left|exact K1|exact X2]. }
        destruct H as (A & B). split; [exact A|]. intros _. rewrite B, Sum. pose proof (it_amount _ IS).
        destruct (Z.eqb_spec (c_points_amount cfg) 0); [lia|]. rewrite Z2Nat.id by lia. reflexivity.
      + intros (F & Ne). destruct (C Ne (GO F)) as (g1 & E1 & _). discriminate. }
  destruct (Z.eqb_spec (c_points_type cfg) POINTS_PRIME) as [E1|E1].
  { cbn [generator]. rewrite K, Kg. cbn [need bind]. unfold put_points. rewrite (prime_t p a b mul mul_ok _ _ g On).
    pose proof (keeps_prime (tmul p a b) (Z_factor P) (isprime P) g) as Ke.
    pose proof (C31_prime None (tmul p a b) (torder p a b ns) G (Z_factor P) (isprime P) (pc_factor _ _ PO) (pc_isprime _ _ PO) g) as C.
    destruct (points_gen_prime (tmul p a b) (Z_factor P) (isprime P) g) as [g'| | |] eqn:E; cbn [bind]; try exact I.
    - split; [reflexivity|]. exists g'. split; [reflexivity|].
      apply (FromListed (fun s d => prime d /\ (d | p_order (s_gen s)))); [now apply Ke| |exact ER|].
      + intros F. destruct (C (GO F)) as (g1 & X & L). injection X as <-. apply Weak; [auto|exact L].
      + intros s s' Es L A. split; [exact A|]. rewrite E1, Es. split; [discriminate|]. split; [intros _; exact L|]. split; discriminate.
    - intros (F & _). destruct (C (GO F)) as (g1 & X & _). discriminate. }
  destruct (Z.eqb_spec (c_points_type cfg) POINTS_NONPRIME) as [E2|E2].
  { cbn [generator]. rewrite K, Kg. cbn [need bind]. unfold put_points. rewrite (nonprime_t p a b mul mul_ok _ _ g On).
    pose proof (keeps_nonprime (tmul p a b) (Z_factor P) (isprime P) g) as Ke.
    pose proof (C31_nonprime None (tmul p a b) (torder p a b ns) G (Z_factor P) (isprime P) (pc_factor _ _ PO) (pc_isprime _ _ PO) g) as C.
    assert (Few : Forall finite g -> Forall (fun s => few_factors (p_order (s_gen s))) g \/ points_gen_nonprime (tmul p a b) (Z_factor P) (isprime P) g = Abort).
    { intros F. specialize (GO F). clear - GO PO. unfold points_gen_nonprime. induction GO as [|s g (L & _) F IH]; [left; constructor|]. cbn [mapm].
      destruct (nonprime_cases (Z_factor P) (isprime P) (pc_factor _ _ PO) (pc_isprime _ _ PO) (p_order (s_gen s)) L) as [H|H]; [|right; rewrite H; reflexivity].
      destruct (C30_nonprime (Z_factor P) (isprime P) (pc_factor _ _ PO) (pc_isprime _ _ PO) (p_order (s_gen s)) L H) as (l & -> & _).
      destruct IH as [IH|IH]; [left; constructor; assumption|right]. cbn [bind]. destruct l; cbn [bind]; rewrite IH; reflexivity. }
    destruct (points_gen_nonprime (tmul p a b) (Z_factor P) (isprime P) g) as [g'| | |] eqn:E; cbn [bind]; try exact I.
    - split; [reflexivity|]. exists g'. split; [reflexivity|].
      apply (FromListed (fun s d => 1 < d /\ ~ prime d /\ (d | p_order (s_gen s)))); [now apply Ke| |exact ER|].
      + intros F. destruct (Few F) as [Fw|Fw]; [|discriminate]. destruct (C (GO F) Fw) as (g1 & X & L). injection X as <-.
        clear - L Fr. induction L as [|s s' g g' [(A & ->)|(_ & A)] L IH]; [constructor| |]; inversion Fr as [|? ? F1 F2]; subst.
        * constructor; [right|now apply IH]. destruct F1 as (_ & F1). unfold rpoints. rewrite F1. split; [reflexivity|].
          split; [constructor|]. intros d. split; [intros []|]. intros (D1 & D2 & D3). apply D2.
          destruct (prime_divisors _ A d D3) as [|[|[|]]]; pose proof (prime_ge_2 _ A); try lia. subst d. exact A.
        * constructor; [left; exact A|now apply IH].
      + intros s s' Es L A. split; [exact A|]. rewrite E2, Es. split; [discriminate|]. split; [discriminate|]. split; [discriminate|]. intros _. exact L.
    - intros (F & _). destruct (Few F) as [Fw|Fw]; [|discriminate]. destruct (C (GO F) Fw) as (g1 & X & _). discriminate. }
  destruct (Z.eqb_spec (c_points_type cfg) POINTS_ALL) as [E3|E3].
  { cbn [generator]. rewrite K, Kg. cbn [need bind]. unfold put_points. rewrite (allgroups_t p a b mul mul_ok _ _ g On).
    pose proof (keeps_all (tmul p a b) (Z_factor P) (isprime P) g) as Ke.
    pose proof (C31_all None (tmul p a b) (torder p a b ns) G (Z_factor P) (isprime P) (pc_factor _ _ PO) (pc_isprime _ _ PO) g) as C.
    assert (Few : Forall finite g -> Forall (fun s => few_factors (p_order (s_gen s))) g \/ points_gen_allgroups (tmul p a b) (Z_factor P) (isprime P) g = Abort).
    { intros F. specialize (GO F). clear - GO PO. unfold points_gen_allgroups. induction GO as [|s g (L & _) F IH]; [left; constructor|]. cbn [mapm].
      destruct (all_cases (Z_factor P) (isprime P) (pc_factor _ _ PO) (pc_isprime _ _ PO) (p_order (s_gen s)) L) as [H|H]; [|right; rewrite H; reflexivity].
      destruct (C30_all (Z_factor P) (isprime P) (pc_factor _ _ PO) (pc_isprime _ _ PO) (p_order (s_gen s)) L H) as (l & -> & _).
      destruct IH as [IH|IH]; [left; constructor; assumption|right]. cbn [bind]. rewrite IH; reflexivity. }
    destruct (points_gen_allgroups (tmul p a b) (Z_factor P) (isprime P) g) as [g'| | |] eqn:E; cbn [bind]; try exact I.
    - split; [reflexivity|]. exists g'. split; [reflexivity|].
      apply (FromListed (fun s d => 1 < d /\ (d | p_order (s_gen s)))); [now apply Ke| |exact ER|].
      + intros F. destruct (Few F) as [Fw|Fw]; [|discriminate]. destruct (C (GO F) Fw) as (g1 & X & L). injection X as <-. apply Weak; [auto|exact L].
      + intros s s' Es L A. split; [exact A|]. rewrite E3, Es. split; [discriminate|]. split; [discriminate|]. split; [intros _; exact L|discriminate].
    - intros (F & _). destruct (Few F) as [Fw|Fw]; [|discriminate]. destruct (C (GO F) Fw) as (g1 & X & _). discriminate. }
  cbn [generator]. split; [reflexivity|]. exists g. split; [destruct k; cbn in Kg |- *; now rewrite Kg|].
  assert (E4 : c_points_type cfg = POINTS_NONE).
  { pose proof (it_type _ IS). unfold POINTS_RANDOM, POINTS_PRIME, POINTS_NONPRIME, POINTS_ALL, POINTS_NONE in *. lia. }
  split; [reflexivity|]. intros F. split; [|intros E; congruence]. apply Forall_forall. intros s I. rewrite Forall_forall in Fr. destruct (Fr s I) as (_ & Es).
  unfold rlisting, rpoints. rewrite Es, E4. split; [constructor|]. split; [reflexivity|]. repeat split; discriminate.
Qed.

(** ** The metadata: src/gen/metadata.c *)
Lemma meta_stage d t k : k_field k = Some p -> k_curve k = Some (p, a, b) -> k_order k = Some n ->
  ell_get_disc P p a b = discriminant p a b ->
  match gen (meta_f cfg) None d t k with
  | Ok (k', r) => r = 1 /\ (k' = k \/ exists m, k' = set_meta m k) /\
      metadata_wanted cfg p a b n (if c_metadata cfg then to_meta (k_meta k') else CurveText_Spec.no_meta)
  | Abort => True
  | _ => False
  end.
Proof.
  intros Kf Kc Ko D. unfold meta_f, metadata_wanted. destruct (c_metadata cfg); [|cbn [generator]; auto].
  cbn [generator]. rewrite Kc, Kf, Ko. cbn [need bind]. pose proof (pc_j _ _ _ _ PC) as J. pose proof (pc_meta _ _ _ _ PC) as C. pose proof (OV p a b CO) as (_ & F).
  clear - J C D F. destruct p as [q|c].
  - unfold metadata_gen, gens_get_embedding. destruct C as (C1 & C). cbn [field_size].
    destruct (Z.eqb_spec q (points (Prime q) a b)) as [E|E]; [|destruct (Z.eqb_spec (Z.gcd q (points (Prime q) a b)) 1) as [E1|E1]; [|exact I]]; cbn [bind].
    all: replace ((q + 1 - points (Prime q) a b) * (q + 1 - points (Prime q) a b) - 4 * q) with ((q + 1 - points (Prime q) a b) ^ 2 - 4 * q) by ring.
    all: cbv zeta in C; destruct (coredisc2 P ((q + 1 - points (Prime q) a b) ^ 2 - 4 * q)) as [dd ff].
    all: cbn [bind set_meta k_meta to_meta CurveText_Model.m_j CurveText_Model.m_disc CurveText_Model.m_embedding CurveText_Model.m_frobenius
      CurveText_Model.m_cm CurveText_Model.m_conductor m_j m_disc m_embedding m_frobenius m_cm_disc m_conductor].
    all: split; [reflexivity|]; split; [right; eexists; reflexivity|].
    all: split; [eexists; split; [reflexivity|exact J]|]; split; [now rewrite D|]; split; [reflexivity|].
    all: split; [eexists; split; [reflexivity|]|exists dd, ff; auto].
    + reflexivity.
    + apply C1, E1.
  - destruct F as (_ & F). unfold metadata_gen.
    assert (Q : int2n (degree c) = 2 ^ degree c) by (unfold int2n; destruct (Z.ltb_spec (degree c) 0); [rewrite Z.pow_neg_r by assumption|]; reflexivity). rewrite Q.
    cbn [bind set_meta k_meta to_meta CurveText_Model.m_j CurveText_Model.m_disc CurveText_Model.m_embedding CurveText_Model.m_frobenius
      CurveText_Model.m_cm CurveText_Model.m_conductor m_j m_disc m_embedding m_frobenius m_cm_disc m_conductor].
    split; [reflexivity|]; split; [right; eexists; reflexivity|].
    split; [eexists; split; [reflexivity|exact J]|]; split; [now rewrite D|]; split; [rewrite F; reflexivity|]. auto.
Qed.
End Curve.
