(** C44, C45: the table of Koblitz curves. *)
From Coq Require Import Ascii String.
From Verif Require Import Base Poly_Tables Poly_Model Poly_Props Field_Props Koblitz_Model.
From Verif Require Import Str_Model Cli_Model Plan_Model Plan_Spec Plan_Props.
Local Open Scope Z_scope.

(** ** Specification *)
(** the number of points of y^2 + xy = x^3 + a x^2 + 1 over the field with 2^m elements (Kb_Count proves that
    these are the points of Ec_F2m, Koblitz_Points uses it): with
    t = #E(GF(2)) - 3 negated, the Lucas sequence V(0) = 2, V(1) = t, V(k+2) = t V(k+1) - 2 V(k) *)
Definition trace1 (a : Z) : Z := if a =? 0 then -1 else 1.
Definition lucas (t : Z) (V : nat -> Z) : Prop := V 0%nat = 2 /\ V 1%nat = t /\ forall k, V (S (S k)) = t * V (S k) - 2 * V k.
Definition koblitz_points (m a n : Z) : Prop := exists V, lucas (trace1 a) V /\ n = 2 ^ m + 1 - V (Z.to_nat m).

(** the affine points over GF(2) itself, counted *)
Definition gf2_points (a : bool) : nat :=
  List.length (filter (fun xy => Bool.eqb (xorb (snd xy) (andb (fst xy) (snd xy))) (xorb (xorb (fst xy) (andb a (fst xy))) true))
    [(false, false); (false, true); (true, false); (true, true)]).
Example trace1_0 : trace1 0 = 2 + 1 - Z.of_nat (gf2_points false + 1).
Proof. reflexivity. Qed.
Example trace1_1 : trace1 1 = 2 + 1 - Z.of_nat (gf2_points true + 1).
Proof. reflexivity. Qed.

(** ** Lookup *)
Lemma int_of_uint_0 x : int_of_uint x = 0 <-> x mod 2 ^ 32 = 0.
Proof.
  unfold int_of_uint. pose proof (Z.mod_pos_bound x (2 ^ 32) ltac:(lia)) as B. set (r := x mod 2 ^ 32) in *. clearbody r.
  destruct (Z.lt_ge_cases r (2 ^ 31)); [rewrite Z.mod_small by lia; lia|].
  replace (r + 2 ^ 31) with (r - 2 ^ 31 + 1 * 2 ^ 32) by ring. rewrite Z.mod_add, Z.mod_small by lia. lia.
Qed.
Lemma int_of_uint_small x : - 2 ^ 31 <= x < 2 ^ 31 -> int_of_uint x = x.
Proof.
  intros H. unfold int_of_uint. rewrite Zplus_mod_idemp_l, Z.mod_small by lia. ring.
Qed.

Definition small_k (e : koblitz_t) : bool := (0 <? k_m e) && (k_m e <? 1000) && (0 <=? k_a e) && (k_a e <? 2).
Fixpoint kasc (b : Z) (t : list koblitz_t) : bool :=
  match t with [] => true | e :: t => (b <? 2 * k_m e + k_a e) && kasc (2 * k_m e + k_a e) t end.
Lemma kasc_lt t : forall b, kasc b t = true -> forall j y, nth_error t j = Some y -> b < 2 * k_m y + k_a y.
Proof.
  induction t as [|p t IH]; intros b H j y E; [destruct j; discriminate|]. cbn [kasc] in H. apply andb_true_iff in H.
  destruct H as [H1 H2]. destruct j as [|j]; cbn in E; [injection E as <-; lia|]. pose proof (IH _ H2 j y E). lia.
Qed.
Lemma kasc_sorted t : forall b, kasc b t = true ->
  forall i j x y, (i < j)%nat -> nth_error t i = Some x -> nth_error t j = Some y -> 2 * k_m x + k_a x < 2 * k_m y + k_a y.
Proof.
  induction t as [|p t IH]; intros b H i j x y L Ei Ej; [destruct i; discriminate|]. cbn [kasc] in H. apply andb_true_iff in H.
  destruct H as [H1 H2]. destruct j as [|j]; [lia|]. cbn in Ej. destruct i as [|i]; cbn in Ei.
  - injection Ei as <-. apply (kasc_lt t _ H2 j y Ej).
  - apply (IH _ H2 i j x y); auto. lia.
Qed.
Lemma table_small e : In e koblitz_curves -> 0 < k_m e < 1000 /\ 0 <= k_a e < 2.
Proof.
  assert (H : forallb small_k koblitz_curves = true) by (vm_compute; reflexivity).
  rewrite forallb_forall in H. intros I. specialize (H e I). unfold small_k in H. lia.
Qed.

Lemma cmp_zero m a e : In e koblitz_curves -> compare_koblitz (u32 m) (u32 a) e = 0 <-> u32 m = k_m e /\ u32 a = k_a e.
Proof.
  intros I. pose proof (table_small e I) as B. unfold compare_koblitz.
  assert (M : forall x y, 0 <= y < 1000 -> int_of_uint (u32 x - y) = 0 <-> u32 x = y).
  { intros x y Hy. rewrite int_of_uint_0. unfold u32. pose proof (Z.mod_pos_bound x (2 ^ 32) ltac:(lia)). set (r := x mod 2 ^ 32) in *.
    split; [|intros ->; rewrite Z.sub_diag; reflexivity]. intros E. destruct (Z.lt_ge_cases r y).
    - rewrite <- (Z.mod_add _ 1) in E by lia. rewrite Z.mod_small in E by lia. lia.
    - rewrite Z.mod_small in E by lia. lia. }
  destruct (Z.eqb_spec (int_of_uint (u32 m - k_m e)) 0) as [E|N].
  - rewrite M by lia. apply M in E; [|lia]. tauto.
  - split; [intros E; congruence|]. intros [E _]. apply M in E; [congruence|lia].
Qed.

Lemma find_exact m a : koblitz_find m a = Ok (find (fun e => (k_m e =? u32 m) && (k_a e =? u32 a)) koblitz_curves).
Proof.
  unfold koblitz_find. destruct (find _ koblitz_curves) as [e|] eqn:E.
  - apply find_some in E. destruct E as [I E]. pose proof (table_small e I) as B.
    assert (Em : u32 m = k_m e) by lia. assert (Ea : u32 a = k_a e) by lia. rewrite Em, Ea.
    assert (C : forall x, In x koblitz_curves -> compare_koblitz (k_m e) (k_a e) x = if k_m e =? k_m x then k_a e - k_a x else k_m e - k_m x).
    { intros x Ix. pose proof (table_small x Ix). unfold compare_koblitz. rewrite !int_of_uint_small by lia.
      destruct (Z.eqb_spec (k_m e - k_m x) 0), (Z.eqb_spec (k_m e) (k_m x)); lia. }
    assert (S : kasc 0 koblitz_curves = true) by (vm_compute; reflexivity).
    destruct (bsearch_found (compare_koblitz (k_m e) (k_a e)) koblitz_curves (fun x => 2 * k_m x + k_a x) (2 * k_m e + k_a e)) with (x := e)
      as (y & R & Iy & Ky); auto.
    + intros x Ix. rewrite (C x Ix). pose proof (table_small x Ix). destruct (Z.eqb_spec (k_m e) (k_m x)); lia.
    + intros x Ix. rewrite (C x Ix). pose proof (table_small x Ix). destruct (Z.eqb_spec (k_m e) (k_m x)); lia.
    + apply (kasc_sorted _ 0 S).
    + rewrite R. do 2 f_equal.
      destruct (In_nth_error _ _ I) as [i Ei]. destruct (In_nth_error _ _ Iy) as [j Ej].
      destruct (lt_eq_lt_dec i j) as [[L|L]|L].
      * pose proof (kasc_sorted _ 0 S _ _ _ _ L Ei Ej). lia.
      * subst j. congruence.
      * pose proof (kasc_sorted _ 0 S _ _ _ _ L Ej Ei). lia.
  - apply bsearch_none. intros e I H. apply cmp_zero in H; [|exact I]. pose proof (find_none _ _ E e I) as N. cbn in N. lia.
Qed.

(** ** The orders *)
Fixpoint lucas_pair (t : Z) (k : nat) : Z * Z :=
  match k with O => (2, t) | S k => let '(v, w) := lucas_pair t k in (w, t * w - 2 * v) end.
Lemma lucas_pair_ok t V k : lucas t V -> lucas_pair t k = (V k, V (S k)).
Proof.
  intros (H0 & H1 & H2). induction k as [|k IH]; cbn [lucas_pair]; [congruence|]. rewrite IH, H2. reflexivity.
Qed.
Lemma lucas_exists t : lucas t (fun k => fst (lucas_pair t k)).
Proof.
  split; [reflexivity|]. split; [reflexivity|]. intros k. cbn [lucas_pair]. destruct (lucas_pair t k) as [v w]. reflexivity.
Qed.
Lemma points_fun m a n : koblitz_points m a n <-> n = 2 ^ m + 1 - fst (lucas_pair (trace1 a) (Z.to_nat m)).
Proof.
  split.
  - intros (V & L & ->). rewrite (lucas_pair_ok _ V _ L). reflexivity.
  - intros ->. exists (fun k => fst (lucas_pair (trace1 a) k)). split; [apply lucas_exists|reflexivity].
Qed.

(** ** C44 *)
(** Every tabulated order is the number of points of its curve. *)
Theorem C44_orders e : In e koblitz_curves -> (k_a e = 0 \/ k_a e = 1) /\ koblitz_points (k_m e) (k_a e) (k_order e).
Proof.
  assert (H : forallb (fun e => k_order e =? 2 ^ k_m e + 1 - fst (lucas_pair (trace1 (k_a e)) (Z.to_nat (k_m e)))) koblitz_curves = true)
    by (vm_compute; reflexivity).
  rewrite forallb_forall in H. intros I. pose proof (table_small e I). split; [lia|]. apply points_fun. apply Z.eqb_eq, H, I.
Qed.

(** What the lookup finds, for every pair: the arguments count modulo 2^32. *)
Theorem C44_lookup m a : 0 <= m < 2 ^ 64 -> 0 <= a < 2 ^ 64 ->
  exists r, koblitz_find m a = Ok r /\
    forall e, r = Some e <-> In e koblitz_curves /\ k_m e = m mod 2 ^ 32 /\ k_a e = a mod 2 ^ 32.
Proof.
  intros _ _. eexists. split; [apply find_exact|]. intros e. split.
  - intros E. apply find_some in E. destruct E as [I E]. split; [exact I|]. unfold u32 in E. lia.
  - intros (I & Em & Ea). destruct (find _ _) as [y|] eqn:E.
    + apply find_some in E. destruct E as [Iy E]. f_equal.
      assert (S : kasc 0 koblitz_curves = true) by (vm_compute; reflexivity).
      assert (Hm : k_m y = k_m e) by (unfold u32 in E; lia). assert (Ha : k_a y = k_a e) by (unfold u32 in E; lia).
      destruct (In_nth_error _ _ I) as [i Ei]. destruct (In_nth_error _ _ Iy) as [j Ej].
      destruct (lt_eq_lt_dec i j) as [[L|L]|L].
      * pose proof (kasc_sorted _ 0 S _ _ _ _ L Ei Ej). lia.
      * subst j. congruence.
      * pose proof (kasc_sorted _ 0 S _ _ _ _ L Ej Ei). lia.
    + pose proof (find_none _ _ E e I) as N. cbn in N. unfold u32 in N. lia.
Qed.

(** Full statement: for every m and a of type unsigned long.
    Missing: values of 2^32 and more, where it is false, see [C44_refuted]. *)
Theorem C44_exact_partial m a : 0 <= m < 2 ^ 32 -> 0 <= a < 2 ^ 32 ->
  (forall e, koblitz_find m a = Ok (Some e) <-> In e koblitz_curves /\ k_m e = m /\ k_a e = a) /\
  (koblitz_find m a = Ok None <-> forall e, In e koblitz_curves -> ~ (k_m e = m /\ k_a e = a)).
Proof.
  intros Hm Ha. destruct (C44_lookup m a) as (r & E & H); [lia|lia|]. rewrite !Z.mod_small in H by lia. rewrite E. split.
  - intros e. rewrite <- H. split; [now intros [= ->]|now intros ->].
  - split.
    + intros [= ->] e I C. assert (X : None = Some e) by (apply H; tauto). discriminate.
    + intros N. destruct r as [e|]; [|reflexivity]. exfalso. destruct (proj1 (H e) eq_refl) as (I & C). exact (N e I C).
Qed.

Theorem C44_refuted : exists m a e, 0 <= m < 2 ^ 64 /\ a = 1 /\ koblitz_find m a = Ok (Some e) /\ k_m e <> m.
Proof.
  exists (2 ^ 32 + 101), 1, (K 101 1 0x2000000000000a8c8e37728cd6). split; [lia|]. split; [reflexivity|]. split; [vm_compute; reflexivity|]. discriminate.
Qed.

Example C44_ex163 : exists n, koblitz_get_order 163 1 = Ok (Some n) /\ koblitz_points 163 1 n.
Proof. eexists. split; [vm_compute; reflexivity|]. apply points_fun. vm_compute. reflexivity. Qed.
Example C44_ex_none : koblitz_get_order 163 0 = Ok None.
Proof. vm_compute. reflexivity. Qed.

(** ** C45 *)
(** what the stages named by the plan put into the curve *)
Definition coefficient_of (g : gen_f) : option element :=
  match g with
  | Plan_Model.a_gen_zero => Some Koblitz_Model.a_gen_zero
  | Plan_Model.a_gen_one => Some Koblitz_Model.a_gen_one
  | Plan_Model.b_gen_one => Some Koblitz_Model.b_gen_one
  | _ => None
  end.
Definition binary_field_of (g : gen_f) (bits : Z) (poly : list Z) : Prop :=
  match g with
  | field_gen_random => field_binaryr bits = Ok poly
  | field_gen_input => exists irr m e1 e2 e3, Forall (fun x => x <= 2 ^ 16) [m; e1; e2; e3] /\
      field_input_binary irr bits m e1 e2 e3 = Ok (Some poly)
  | _ => False
  end.

Lemma bind_some {A B} (m : res A) (k : A -> res B) r : bind m k = Ok r -> exists x, m = Ok x /\ k x = Ok r.
Proof. destruct m; cbn; try discriminate. eauto. Qed.
Lemma wr_length {A} (l : list A) i x l' : wr l i x = Ok l' -> length l' = length l.
Proof.
  intros H. destruct (Nat.lt_ge_cases i (length l)) as [L|L]; [rewrite wr_ok in H by exact L; injection H as <-; apply upd_length|].
  unfold wr in H. replace (i <? length l)%nat with false in H by lia. discriminate.
Qed.
Lemma poly_gen_length p v : poly_gen p = Ok v -> length v = Z.to_nat (p_m p + 1).
Proof.
  unfold poly_gen. intros H. repeat (apply bind_some in H; destruct H as (? & ?W & H)).
  apply wr_length in H. repeat match goal with W : wr _ _ _ = Ok _ |- _ => apply wr_length in W end.
  rewrite repeat_length in *. congruence.
Qed.

Lemma random_degree bits poly : field_binaryr bits = Ok poly -> 2 <= bits <= 10000 /\ length poly = Z.to_nat (bits + 1).
Proof.
  intros H. unfold field_binaryr in H. destruct (poly_exists bits) eqn:E; [|discriminate]. unfold poly_exists in E.
  assert (B : 2 <= bits <= 10000) by lia. split; [exact B|]. unfold poly_find_gen in H.
  destruct (Z.eq_dec bits 1060) as [->|N].
  - destruct C41_refuted as (m & _ & _ & _ & _). clear E. exfalso. revert H.
    assert (F : poly_find 1060 = Ok None).
    { unfold poly_find. cbn [poly_exists Z.leb Z.ltb Z.compare Pos.compare Pos.compare_cont andb orb].
      destruct (find_in _ _ _ 1060 ansi_tri_ok ansi_penta_ok ansi_cover) as [[H _]|[_ H]]; [lia| |exact H].
      exfalso. unfold ansi_degrees in H. apply in_app_iff in H. rewrite !in_zrange in H. lia. }
    rewrite F. discriminate.
  - destruct (C41_found_partial bits B N) as (p & F & Em & _). rewrite F in H. cbn [bind] in H.
    apply poly_gen_length in H. rewrite H, Em. reflexivity.
Qed.
Lemma input_degree irr bits m e1 e2 e3 poly : field_input_binary irr bits m e1 e2 e3 = Ok (Some poly) -> m = bits /\ length poly = Z.to_nat (bits + 1).
Proof.
  unfold field_input_binary. intros H. destruct (Z.eqb_spec m bits) as [->|]; [|discriminate]. split; [reflexivity|]. cbn [negb] in H.
  destruct ((e1 =? -1) || (bits <? e1)); [discriminate|]. destruct ((e2 =? -1) || (bits <? e2)); [discriminate|].
  destruct ((e3 =? -1) || (bits <? e3)); [discriminate|]. destruct ((e1 =? 0) && (e2 =? 0) && (e3 =? 0)); [discriminate|].
  assert (O : forall (b : bool) (v : list Z) i v', (if b then wr v i 1 else Ok v) = Ok v' -> length v' = length v).
  { intros [] v i v' W; [eapply wr_length; exact W|congruence]. }
  apply bind_some in H. destruct H as (v1 & W1 & H). apply wr_length in W1. rewrite repeat_length in W1.
  apply bind_some in H. destruct H as (v2 & W2 & H). apply O in W2.
  apply bind_some in H. destruct H as (v3 & W3 & H). apply O in W3.
  apply bind_some in H. destruct H as (v4 & W4 & H). apply O in W4.
  apply bind_some in H. destruct H as (v5 & W5 & H). apply wr_length in W5.
  destruct (irr v5); [|discriminate]. injection H as <-. congruence.
Qed.

(** Full statement: in every accepted configuration whose order stage is order_gen_koblitz, the order
    assigned is the number of points of the curve.
    Missing: prime fields and the twist method, where it is false, see [C45_refuted] and
    [C45_twist_refuted]. Here: binary fields without a twist. The curve then is
    y^2 + xy = x^3 + a x^2 + 1 over a field of degree [bits], and whatever the table or PARI says is
    its number of points. *)
Theorem C45_binary_partial np os args c set order_prime su gf poly :
  cli np os args = Some (c, set) -> c_method c = METHOD_DEFAULT ->
  snd (main_job c order_prime) = JExhaustive su (c_count c) ->
  gen_at su ORDER = Some Plan_Model.order_gen_koblitz ->
  gen_at su FIELD = Some gf -> binary_field_of gf (c_bits c) poly ->
  exists ga a, gen_at su A = Some ga /\ coefficient_of ga = Some (Int a) /\ (a = 0 \/ a = 1) /\
    (exists gb, gen_at su B = Some gb /\ coefficient_of gb = Some (Int 1)) /\
    Z.of_nat (length poly) - 1 = c_bits c /\
    forall card, koblitz_points (c_bits c) a card -> Koblitz_Model.order_gen_koblitz (c_bits c) (Int a) card = Ok card.
Proof.
  intros H Hm Hj Ho Hf Hb.
  destruct (C26_plan np os args c set order_prime H) as (p & su' & Hp & Hj' & _ & Hg & _); [rewrite Hm; discriminate|].
  assert (su' = su) as -> by (rewrite Hj in Hj'; destruct Hj' as [E|E]; [now injection E|discriminate]).
  assert (p = PPlain) as -> by (unfold procedure_of in Hp; rewrite Hm in Hp; now injection Hp).
  unfold gen_at in *. rewrite Hg in *. cbn in Ho. change (Some (pick (rnd c 1) field_gen_random field_gen_input) = Some gf) in Hf.
  assert (Kz : c_koblitz c = true).
  { destruct (c_prime c), (c_cofactor c), (c_smooth c), (c_koblitz c); cbn in Ho; auto; discriminate. }
  assert (Bd : 0 <= c_bits c < 2 ^ 32 /\ length poly = Z.to_nat (c_bits c + 1)).
  { assert (Eg : gf = pick (rnd c 1) field_gen_random field_gen_input) by congruence. rewrite Eg in Hb. destruct (rnd c 1); cbn [pick binary_field_of] in Hb.
    - apply random_degree in Hb. lia.
    - destruct Hb as (irr & m & e1 & e2 & e3 & F & Hb). pose proof Hb as Hb'. apply input_degree in Hb. destruct Hb as [-> L]. inversion F; subst.
      split; [|exact L]. destruct (Z.lt_ge_cases (c_bits c) 0) as [E|N]; [|lia]. exfalso. revert Hb'. clear - E. unfold field_input_binary.
      destruct (negb _); [discriminate|].
      destruct (_ || _); [discriminate|]. destruct (_ || _); [discriminate|]. destruct (_ || _); [discriminate|]. destruct (_ && _); [discriminate|].
      replace (Z.to_nat (c_bits c + 1)) with 0%nat by lia. discriminate. }
  destruct Bd as [Bd L].
  exists (pick (c_koblitz_value c =? 1) Plan_Model.a_gen_one Plan_Model.a_gen_zero), (if c_koblitz_value c =? 1 then 1 else 0).
  split; [cbn; rewrite Kz; reflexivity|]. split; [destruct (c_koblitz_value c =? 1); reflexivity|].
  split; [destruct (c_koblitz_value c =? 1); auto|]. split; [exists Plan_Model.b_gen_one; split; [cbn; rewrite Kz; reflexivity|reflexivity]|].
  split; [lia|]. intros card Hc. set (a := if c_koblitz_value c =? 1 then 1 else 0) in *.
  assert (Ba : a = 0 \/ a = 1) by (unfold a; destruct (c_koblitz_value c =? 1); auto). clearbody a.
  unfold Koblitz_Model.order_gen_koblitz. cbn [itou bind]. unfold koblitz_get_order. destruct (C44_lookup (c_bits c) a) as (r & E & R); [lia|lia|].
  rewrite E. cbn [bind]. destruct r as [e|]; [|reflexivity]. f_equal.
  destruct (proj1 (R e) eq_refl) as (I & Em & Ea). rewrite Z.mod_small in Em, Ea by lia.
  destruct (C44_orders e I) as [_ P]. rewrite Em, Ea in P. apply points_fun in P, Hc. congruence.
Qed.
Example C45_ex : exists c set su poly, cli 4 [OF2m; ORandom None; OKoblitz (Some (lit "1"))] [lit "163"] = Some (c, set) /\
  c_method c = METHOD_DEFAULT /\ snd (main_job c false) = JExhaustive su (c_count c) /\ gen_at su ORDER = Some Plan_Model.order_gen_koblitz /\
  gen_at su FIELD = Some field_gen_random /\ binary_field_of field_gen_random (c_bits c) poly.
Proof.
  eexists _, _, _, _. split; [vm_compute; reflexivity|]. split; [reflexivity|]. split; [vm_compute; reflexivity|].
  split; [reflexivity|]. split; [reflexivity|]. vm_compute. reflexivity.
Qed.

(** Over a prime field the option is accepted too, and the order of a binary curve is assigned: for
    every prime p of 163 bits not close to 2^163 it is outside the Hasse interval. *)
Theorem C45_refuted : exists os args c set su n,
  cli 4 os args = Some (c, set) /\ snd (main_job c false) = JExhaustive su 1 /\ c_field c = FIELD_PRIME /\ c_bits c = 163 /\
  gen_at su ORDER = Some Plan_Model.order_gen_koblitz /\ gen_at su A = Some Plan_Model.a_gen_one /\
  forall p card, 2 ^ 162 <= p < 2 ^ 163 - 2 ^ 84 ->
    Koblitz_Model.order_gen_koblitz (c_bits c) Koblitz_Model.a_gen_one card = Ok n /\ (n - (p + 1)) ^ 2 > 4 * p.
Proof.
  exists [OFp; ORandom None; OKoblitz (Some (lit "1"))], [lit "163"]. eexists _, _, _, _.
  split; [vm_compute; reflexivity|]. split; [vm_compute; reflexivity|]. split; [reflexivity|]. split; [reflexivity|].
  split; [reflexivity|]. split; [reflexivity|]. intros p card Hp. split; [vm_compute; reflexivity|].
  set (n := 0x800000000000000000004021145c1981b33f14bde). change (_ > _) with ((n - (p + 1)) ^ 2 > 4 * p).
  assert (D : 2 ^ 84 <= n - (p + 1)) by (change n with 0x800000000000000000004021145c1981b33f14bde; lia).
  assert (Q : 2 ^ 84 * 2 ^ 84 <= (n - (p + 1)) * (n - (p + 1))) by (apply Z.mul_le_mono_nonneg; lia).
  rewrite Z.pow_2_r. lia.
Qed.

(** With the twist method a is no longer a plain integer when order_gen_koblitz reads it as one. *)
Theorem C45_twist_refuted : exists os args c set su,
  cli 4 os args = Some (c, set) /\ snd (main_job c false) = JExhaustive su 1 /\ c_field c = FIELD_BINARY /\
  gen_at su CURVE = Some curve_gen_any_twist /\ gen_at su ORDER = Some Plan_Model.order_gen_koblitz /\
  forall poly a' card, Koblitz_Model.order_gen_koblitz (c_bits c) (twisted_a (Binary poly) a') card = UB.
Proof.
  exists [OF2m; ORandom None; OKoblitz (Some (lit "1")); OTwist], [lit "163"]. eexists _, _, _.
  split; [vm_compute; reflexivity|]. split; [vm_compute; reflexivity|]. split; [reflexivity|]. split; [reflexivity|]. split; [reflexivity|].
  intros poly a' card. reflexivity.
Qed.

Print Assumptions C44_orders.
Print Assumptions C44_lookup.
Print Assumptions C44_exact_partial.
Print Assumptions C44_refuted.
Print Assumptions C45_binary_partial.
Print Assumptions C45_refuted.
Print Assumptions C45_twist_refuted.
