(** An instance of what C75 assumes of PARI, for primes of three bits, and runs with it. *)
From Coq Require Import Ascii String Znumtheory Zpow_facts.
From Verif Require Import Base Fp Abelian Ec Primes Poly_Model Points_Model Points_Props Gens_Props Random_Props Cli_Model Json_Spec CurveText_Spec.
From Verif Require Import Whole_Model Whole_Spec Whole_Group Whole_Stages Whole_Proofs Whole_Default Whole_Cm Whole_Props Ec_Mod.
From Verif Require Ec_Fp Ec_F2m Supersingular_Props Ansi_Props Brainpool_Props Koblitz_Model Factor CurveText_Model CurveText_Props Hex_Props Plan_Model Engine_Model Shell_Model Shell_Spec Shell_Props.
Local Open Scope Z_scope.
Local Open Scope list_scope.

Definition upto (n : Z) : list Z := map (fun k => Z.of_nat k + 1) (seq 0 (Z.to_nat n)).
Lemma in_upto n k : In k (upto n) <-> 1 <= k <= n.
Proof.
  unfold upto. rewrite in_map_iff. split.
  - intros (m & <- & H). apply in_seq in H. lia.
  - intros H. exists (Z.to_nat (k - 1)). split; [lia|]. apply in_seq. lia.
Qed.
(** the first number with a property *)
Definition first (f : Z -> bool) (n : Z) : Z := match find f (upto n) with Some k => k | None => 1 end.
Lemma find_first (f : Z -> bool) l k : find f l = Some k -> exists u v, l = u ++ k :: v /\ f k = true /\ forall x, In x u -> f x = false.
Proof.
  induction l as [|x l IH]; cbn [find]; [discriminate|]. destruct (f x) eqn:E.
  - intros [= <-]. exists [], l. split; [reflexivity|]. split; [exact E|]. intros y [].
  - intros H. destruct (IH H) as (u & w & -> & A & B). exists (x :: u), w. split; [reflexivity|]. split; [exact A|]. intros y [<-|I]; auto.
Qed.
Lemma upto_split n u k w : upto n = u ++ k :: w -> forall j, 1 <= j < k -> In j u.
Proof.
  intros E j L. assert (N : nth (length u) (upto n) 0 = k) by (rewrite E, app_nth2, Nat.sub_diag by lia; reflexivity).
  assert (LE : (length u < length (upto n))%nat) by (rewrite E, app_length; cbn; lia).
  assert (X : forall m, (m < length (upto n))%nat -> nth m (upto n) 0 = Z.of_nat m + 1).
  { intros m Hm. unfold upto in *. rewrite map_length, seq_length in Hm. rewrite (nth_indep _ 0 (Z.of_nat 0 + 1)) by (now rewrite map_length, seq_length).
    rewrite (map_nth (fun k => Z.of_nat k + 1)). rewrite seq_nth by exact Hm. lia. }
  rewrite X in N by exact LE. assert (Hm : (Z.to_nat (j - 1) < length u)%nat) by lia.
  replace j with (nth (Z.to_nat (j - 1)) (upto n) 0) by (rewrite X by lia; lia). rewrite E, app_nth1 by exact Hm. now apply nth_In.
Qed.
Lemma first_ok f n : (exists k, 1 <= k <= n /\ f k = true) -> 1 <= first f n <= n /\ f (first f n) = true /\ forall j, 1 <= j < first f n -> f j = false.
Proof.
  intros (k & L & Fk). unfold first. destruct (find f (upto n)) as [m|] eqn:E.
  - destruct (find_first _ _ _ E) as (u & w & A & B & C). split; [apply in_upto; rewrite A; apply in_or_app; right; now left|]. split; [exact B|].
    intros j Lj. apply C. now apply (upto_split n u m w).
  - pose proof (find_none _ _ E k) as X. rewrite X in Fk by now apply in_upto. discriminate.
Qed.

Definition is_inf (P : pt) : bool := match P with None => true | Some _ => false end.
Definition pt_eqb (P Q : pt) : bool :=
  match P, Q with None, None => true | Some (x, y), Some (x', y') => (x =? x') && (y =? y') | _, _ => false end.
Lemma pt_eqb_ok P Q : pt_eqb P Q = true -> P = Q.
Proof. destruct P as [[x y]|], Q as [[x' y']|]; cbn; try discriminate; [|reflexivity]. rewrite andb_true_iff, !Z.eqb_eq. now intros [-> ->]. Qed.

(** the multiples of a point, one after the other *)
Fixpoint walk (p : field) (a : Z) (g acc : pt) (n : nat) : list pt := match n with O => [] | Datatypes.S n => acc :: walk p a g (ec_add p a g acc) n end.
Lemma ec_mul_succ p a b Q k : curve_ok p a b -> ec_on p a b Q = true -> ec_add p a Q (ec_mul p a Q k) = ec_mul p a Q (k + 1).
Proof.
  intros ns H. change Q with (xy p a b (exist _ Q H)). rewrite !(ec_mul_xy p a b ns). unfold pmul. change (k + 1) with (Z.succ k).
  rewrite (zmul_succ _ _ _ (points_group p a b ns)). reflexivity.
Qed.
Lemma walk_multiples p a b Q : curve_ok p a b -> ec_on p a b Q = true -> forall n k R, In R (walk p a Q (ec_mul p a Q k) n) -> exists j, R = ec_mul p a Q j.
Proof.
  intros ns H. induction n as [|n IH]; intros k R I; [destruct I|]. cbn [walk] in I. destruct I as [<-|I]; [eauto|].
  rewrite (ec_mul_succ p a b Q k ns H) in I. exact (IH _ _ I).
Qed.
(** the order of a point, by trying *)
Fixpoint steps (p : field) (a : Z) (Q acc : pt) (k : Z) (n : nat) : Z :=
  match n with O => 1 | Datatypes.S n => if is_inf acc then k else steps p a Q (ec_add p a Q acc) (k + 1) n end.
Definition x_order (p : field) (a b : Z) (Q : pt) : Z := steps p a Q Q 1 (Z.to_nat (points p a b)).
Lemma steps_ok p a b Q : curve_ok p a b -> ec_on p a b Q = true -> forall n k,
  (exists j, k <= j < k + Z.of_nat n /\ is_inf (ec_mul p a Q j) = true) ->
  let r := steps p a Q (ec_mul p a Q k) k n in k <= r /\ is_inf (ec_mul p a Q r) = true /\ forall j, k <= j < r -> is_inf (ec_mul p a Q j) = false.
Proof.
  intros ns H. induction n as [|n IH]; intros k (j & L & J); [lia|]. cbn [steps]. destruct (is_inf (ec_mul p a Q k)) eqn:E.
  - split; [lia|]. split; [exact E|]. lia.
  - rewrite (ec_mul_succ p a b Q k ns H). destruct (IH (k + 1)) as (A & B & C).
    { exists j. split; [|exact J]. assert (j <> k) by congruence. lia. }
    split; [lia|]. split; [exact B|]. intros i I. destruct (Z.eq_dec i k) as [->|]; [exact E|]. apply C. lia.
Qed.
Lemma x_order_ok p a b Q : curve_ok p a b -> ec_on p a b Q = true -> has_order p a Q (x_order p a b Q).
Proof.
  intros ns H. pose proof (torder_on p a b ns Q H) as T. set (m := torder p a b ns Q) in *. destruct T as (M & T).
  assert (D : forall k, is_inf (ec_mul p a Q k) = true <-> (m | k)) by (intros k; rewrite <- T; destruct (ec_mul p a Q k); cbn; split; congruence).
  assert (N : (m | points p a b)).
  { apply T. change Q with (xy p a b (exist _ Q H)). rewrite (ec_mul_xy p a b ns), (points_lagrange p a b ns). reflexivity. }
  assert (NP : 0 < points p a b) by (pose proof (points_bound p a b ns); lia).
  destruct (steps_ok p a b Q ns H (Z.to_nat (points p a b)) 1) as (A & B & C).
  { exists (points p a b). split; [lia|]. now apply D. }
  change (ec_mul p a Q 1) with Q in *. fold (x_order p a b Q) in *. apply D in B. assert (E : x_order p a b Q = m); [|rewrite E; now split].
  apply Z.divide_pos_le in B; [|lia]. destruct (Z.eq_dec (x_order p a b Q) m) as [|NE]; [assumption|].
  specialize (C m ltac:(lia)). rewrite (proj2 (D m) (Z.divide_refl m)) in C. discriminate.
Qed.

(** the number of steps of a discrete logarithm to base p *)
Definition x_znorder (p n : Z) : Z := first (fun k => (p ^ k - 1) mod n =? 0) n.
(** the fundamental part of a discriminant *)
Definition squarefree_b (d : Z) : bool := negb (d =? 0) && forallb (fun k => negb (d mod ((k + 1) * (k + 1)) =? 0)) (upto (Z.abs d)).
Lemma squarefree_b_ok d : squarefree_b d = true -> squarefree d.
Proof.
  unfold squarefree_b. rewrite andb_true_iff, forallb_forall. intros (N & H) k K D. apply negb_true_iff, Z.eqb_neq in N.
  assert (L : k * k <= Z.abs d) by (apply Z.divide_pos_le; [lia|now apply Z.divide_abs_r]).
  specialize (H (k - 1) ltac:(apply in_upto; nia)). replace (k - 1 + 1) with k in H by lia.
  apply negb_true_iff, Z.eqb_neq in H. apply H. apply Z.mod_divide; [nia|exact D].
Qed.
Definition fundamental_b (d : Z) : bool :=
  ((d mod 4 =? 1) && squarefree_b d) || ((d mod 4 =? 0) && squarefree_b (d / 4) && ((d / 4 mod 4 =? 2) || (d / 4 mod 4 =? 3))).
Lemma fundamental_b_ok d : fundamental_b d = true -> fundamental d.
Proof.
  unfold fundamental_b. rewrite orb_true_iff, !andb_true_iff, orb_true_iff, !Z.eqb_eq. intros [(A & B)|((A & B) & C)].
  - left. split; [exact A|now apply squarefree_b_ok].
  - right. exists (d / 4). split; [rewrite (Z.div_mod d 4) at 1 by lia; lia|]. split; [now apply squarefree_b_ok|exact C].
Qed.
Definition x_coredisc2 (x : Z) : Z * Z :=
  let f := first (fun f => (x mod (f * f) =? 0) && fundamental_b (x / (f * f))) (Z.abs x) in (x / (f * f), f).

(** generators, by trying: one point, else two *)
Definition gens_b (p : field) (a b n : Z) (gs : list pt) : bool :=
  if forallb (fun g => ec_on p a b g && negb (is_inf g)) gs then
  match gs with
  | [] => n =? 1
  | [g] => let all := walk p a g g (Z.to_nat n) in forallb (fun Q => existsb (pt_eqb Q) all) (coords p a b)
  | [g; h] =>
      let m := x_order p a b g in let k := x_order p a b h in
      if (m * k =? n) && (m mod k =? 0) then
      let all := map (fun q => ec_add p a (fst q) (snd q)) (list_prod (walk p a g g (Z.to_nat m)) (walk p a h h (Z.to_nat k))) in
      forallb (fun Q => existsb (pt_eqb Q) all) (coords p a b) else false
  | _ => false
  end else false.
Lemma gens_b_ok p a b gs : curve_ok p a b -> gens_b p a b (points p a b) gs = true -> pari_gens p a b gs.
Proof.
  intros ns. unfold gens_b. destruct (forallb _ gs) eqn:F; [|discriminate]. rewrite forallb_forall in F. intros H.
  assert (G : forall g, In g gs -> ec_on p a b g = true /\ g <> None).
  { intros g I. specialize (F g I). apply andb_true_iff in F. destruct F as (F1 & F2). split; [exact F1|]. now intros ->. }
  split; [now apply Forall_forall|]. destruct gs as [|g [|h [|]]]; [| | |discriminate H].
  - apply Z.eqb_eq in H. split; [|exact H]. intros Q On. exists []. split; [reflexivity|]. cbn [combination].
    pose proof (all_points_count p a b ns) as C. pose proof (all_points_in p a b ns (exist _ Q On)) as I1. pose proof (all_points_in p a b ns (pinf p a b)) as I2.
    rewrite H in C. destruct (all_points p a b) as [|x [|y l]]; [destruct I1| |cbn in C; lia].
    destruct I1 as [E1|[]]. destruct I2 as [E2|[]]. rewrite E1 in E2. exact (f_equal (xy p a b) E2).
  - rewrite forallb_forall in H. destruct (G g (or_introl eq_refl)) as (Og & Ng).
    assert (S : forall Q, ec_on p a b Q = true -> exists k, Q = ec_mul p a g k).
    { intros Q On. specialize (H Q (proj2 (coords_on p a b ns Q) On)). apply existsb_exists in H. destruct H as (R & I & E). apply pt_eqb_ok in E. subst R.
      change g with (ec_mul p a g 1) in I at 2. exact (walk_multiples p a b g ns Og _ _ _ I). }
    split.
    + intros Q On. destruct (S Q On) as (k & ->). exists [k]. split; [reflexivity|]. cbn [combination]. exact (eq_sym (proj1 (ec_zero p a _))).
    + pose proof (x_order_ok p a b g ns Og) as O. replace (points p a b) with (x_order p a b g); [exact O|].
      apply (generator_has_all p a b ns (exist _ g Og)).
      * destruct O as (O1 & O2). split; [exact O1|]. intros k. rewrite <- O2. change g with (xy p a b (exist _ g Og)) at 2. rewrite (ec_mul_xy p a b ns).
        split; [intros ->; reflexivity|]. intros E. apply (xy_eq p a b). exact E.
      * intros Q. destruct (S (xy p a b Q) (proj2_sig Q)) as (k & E). exists k. apply (xy_eq p a b). rewrite E. change g with (xy p a b (exist _ g Og)) at 1. now rewrite (ec_mul_xy p a b ns).
  - cbv zeta in H. destruct ((x_order p a b g * x_order p a b h =? points p a b) && (x_order p a b g mod x_order p a b h =? 0))%bool eqn:AD; [|discriminate H].
    apply andb_true_iff in AD. destruct AD as (A & D). apply Z.eqb_eq in A, D. rewrite forallb_forall in H. destruct (G g (or_introl eq_refl)) as (Og & _). destruct (G h (or_intror (or_introl eq_refl))) as (Oh & _).
    pose proof (x_order_ok p a b g ns Og) as O1. pose proof (x_order_ok p a b h ns Oh) as O2. split.
    + intros Q On. specialize (H Q (proj2 (coords_on p a b ns Q) On)). apply existsb_exists in H. destruct H as (R & I & E). apply pt_eqb_ok in E. subst R.
      apply in_map_iff in I. destruct I as ((u, w) & <- & I). apply in_prod_iff in I. destruct I as (Iu & Iw).
      change g with (ec_mul p a g 1) in Iu at 2. change h with (ec_mul p a h 1) in Iw at 2.
      apply (walk_multiples p a b g ns Og) in Iu. apply (walk_multiples p a b h ns Oh) in Iw. destruct Iu as (j & ->), Iw as (k & ->).
      exists [j; k]. split; [reflexivity|]. cbn [combination fst snd]. f_equal. exact (eq_sym (proj1 (ec_zero p a _))).
    + exists (x_order p a b g), (x_order p a b h). split; [exact O1|]. split; [exact O2|]. split; [exact A|]. apply Z.mod_divide; [destruct O2; lia|exact D].
Qed.
Definition x_gens (p : field) (a b : Z) : list pt :=
  let n := points p a b in let cs := coords p a b in
  match find (gens_b p a b n) ([] :: map (fun g => [g]) cs) with
  | Some gs => gs
  | None => match find (gens_b p a b n) (map (fun q => [fst q; snd q]) (list_prod cs cs)) with Some gs => gs | None => [None] end
  end.
Lemma x_gens_ok p a b : curve_ok p a b ->
  match x_gens p a b with [None] => False | _ => True end -> pari_gens p a b (x_gens p a b).
Proof.
  intros ns H. apply gens_b_ok; auto. unfold x_gens in *.
  destruct (find (gens_b p a b (points p a b)) ([] :: map (fun g => [g]) (coords p a b))) as [gs|] eqn:E; [exact (proj2 (find_some _ _ E))|].
  destruct (find (gens_b p a b (points p a b)) (map (fun q => [fst q; snd q]) (list_prod (coords p a b) (coords p a b)))) as [gs|] eqn:E2; [exact (proj2 (find_some _ _ E2))|destruct H].
Qed.

(** the j-invariant *)
Definition x_j (p a b : Z) : Z := (1728 * 4 * a ^ 3 * Ec_Fp.finv p (4 * a ^ 3 + 27 * b ^ 2)) mod p.
Definition x_randomprime (lo hi t : Z) : option Z :=
  let l := filter (fun q => (lo <=? q) && isprime_b q) (upto hi) in nth_error l (Z.to_nat (t mod Z.of_nat (length l))).
Definition x_red (f : field) (x : Z) : Z := match f with Prime p => x mod p | Binary _ => x end.
Definition pari3 : pari :=
  mkPari isprime_b x_randomprime
    (fun f a b => match f with Prime p => negb ((4 * a ^ 3 + 27 * b ^ 2) mod p =? 0) | Binary _ => negb (b =? 0) end) discriminant
    (fun f a b => match f with Prime p => x_j p (a mod p) (b mod p) | Binary c => Ec_F2m.binv (to_N c) b end)
    points points (fun f a b _ => x_gens f (x_red f a) (x_red f b)) (fun f a _ Q k => ec_mul f a Q k) x_order Factor.tfactor x_znorder x_coredisc2
    Supersingular_Props.kron next_prime (fun _ _ => []) Ansi_Props.inv_small Ansi_Props.issq_small Ansi_Props.sqrt_small
    Brainpool_Props.root4_small (fun f a b x => filter (fun y => ec_on f a b (Some (x, y))) (Fp.elements (field_size f)))
    (fun _ _ => []) (fun _ _ => None) (fun _ => 0) (fun _ => false) (fun _ => 0) (fun _ _ => []) (fun _ _ => None) (fun _ _ _ => (0, 0)) (fun _ _ _ _ => None).

Definition curve_b (p a b : Z) : bool :=
  let n := points (Prime p) a b in
  if (4 * a ^ 3 + 27 * b ^ 2) mod p =? 0 then true else
  ((x_j p a b * (4 * a ^ 3 + 27 * b ^ 2)) mod p =? (1728 * 4 * a ^ 3) mod p) &&
  match x_gens (Prime p) a b with [None] => false | _ => true end && (0 <? n) &&
  (negb (Z.gcd p n =? 1) || existsb (fun k => (p ^ k - 1) mod n =? 0) (upto n)) &&
  let x := (p + 1 - n) ^ 2 - 4 * p in let (d, f) := x_coredisc2 x in (x =? d * f ^ 2) && fundamental_b d && (0 <? f).
Lemma all_small : forallb (fun p => forallb (fun a => forallb (fun b => curve_b p (a - 1) (b - 1)) (upto p)) (upto p)) [3; 5; 7] = true.
Proof. vm_compute. reflexivity. Qed.
Lemma small_curve p a b : odd_over 3 p -> 0 <= a < p -> 0 <= b < p -> curve_b p a b = true.
Proof.
  intros (PP & Hb) A B. assert (E : p = 3 \/ p = 5 \/ p = 7).
  { cbn in Hb. assert (C : p = 3 \/ p = 4 \/ p = 5 \/ p = 6 \/ p = 7) by lia.
    destruct C as [->|[->|[->|[->| ->]]]]; auto; apply isprime_b_ok in PP; discriminate PP. }
  pose proof all_small as H. rewrite forallb_forall in H. specialize (H p ltac:(cbn; lia)). rewrite forallb_forall in H.
  specialize (H (a + 1) ltac:(apply in_upto; lia)). rewrite forallb_forall in H. specialize (H (b + 1) ltac:(apply in_upto; lia)).
  replace (a + 1 - 1) with a in H by lia. replace (b + 1 - 1) with b in H by lia. exact H.
Qed.
Lemma pari3_ok : pari_ok pari3 3.
Proof.
  constructor; cbn [pari3 isprime randomprime ell_get_disc ellinit Z_factor].
  - exact isprime_b_ok.
  - intros lo hi t q H. unfold x_randomprime in H. apply nth_error_In in H. apply filter_In in H. destruct H as (I & H). apply in_upto in I.
    apply andb_true_iff in H. destruct H as (H & _). apply Z.leb_le in H. lia.
  - exact Factor.tfactor_ok.
  - reflexivity.
  - intros [p|cc] a0 b0 CO [(PP & big) _ _ ns0]; [|destruct CO]. destruct CO as (_ & CB). cbn [nonsingular] in ns0. set (a := a0 mod p). set (b := b0 mod p).
    assert (Ea : a mod p = a0 mod p) by (apply Zmod_mod). assert (Eb : b mod p = b0 mod p) by (apply Zmod_mod).
    assert (A : 0 <= a < p) by (apply Z.mod_pos_bound; lia). assert (B : 0 <= b < p) by (apply Z.mod_pos_bound; lia).
    pose proof (nonsingular_mod p PP _ _ _ _ (eq_sym Ea) (eq_sym Eb) ns0) as ns.
    pose proof (small_curve p a b (conj PP (conj big CB)) A B) as C. unfold curve_b in C. cbv zeta in C.
    destruct (Z.eqb_spec ((4 * a ^ 3 + 27 * b ^ 2) mod p) 0) as [E|_]; [contradiction|]. rewrite !andb_true_iff in C. destruct C as ((((J & G) & N) & K) & D).
    apply Z.eqb_eq in J. apply Z.ltb_lt in N. pose proof (points_same p PP _ _ _ _ Ea Eb : points (Prime p) a b = points (Prime p) a0 b0) as NE.
    assert (OK : curve_ok (Prime p) a b) by (constructor; [split; assumption|exact I|exact I|exact ns]).
    constructor; cbn [pari3 ell_get_j ellff_get_card ellsea ellff_get_gens ellmul ellorder znorder coredisc2 x_red]; fold a b; rewrite <- ?NE.
    + split; [apply Z.mod_pos_bound; lia|].
      rewrite <- Zmult_mod_idemp_r, <- (disc_mod p PP _ _ _ _ Ea Eb), Zmult_mod_idemp_r, J. rewrite <- (Zmult_mod_idemp_r (a ^ 3)), <- (Zmult_mod_idemp_r (a0 ^ 3)).
      f_equal. f_equal. rewrite (Zpower_mod a 3 p), (Zpower_mod a0 3 p), Ea by lia. reflexivity.
    + reflexivity.
    + now left.
    + intros _. apply (gens_mod p PP a a0 b b0 Ea Eb). apply x_gens_ok; auto. destruct (x_gens (Prime p) a b) as [|[|] [|]]; [exact I..|discriminate G|exact I].
    + reflexivity.
    + intros Q On. now apply x_order_ok.
    + split.
      { intros CP. rewrite CP in K. cbn [Z.eqb negb orb Pos.eqb] in K. apply existsb_exists in K. destruct K as (k & I & K). apply in_upto in I.
      destruct (first_ok (fun k => (p ^ k - 1) mod points (Prime p) a b =? 0) (points (Prime p) a b) (ex_intro _ k (conj I K))) as (R & S & T).
      fold (x_znorder p (points (Prime p) a b)) in *. split; [lia|]. split; [apply Z.mod_divide; [lia|now apply Z.eqb_eq]|].
      intros j L X. specialize (T j L). apply Z.eqb_neq in T. apply T. apply Z.mod_divide; [lia|exact X]. }
      cbv zeta. destruct (x_coredisc2 ((p + 1 - points (Prime p) a b) ^ 2 - 4 * p)) as [d f]. rewrite !andb_true_iff in D. destruct D as ((D1 & D2) & D3).
      apply Z.eqb_eq in D1. apply Z.ltb_lt in D3. split; [exact D1|]. split; [now apply fundamental_b_ok|exact D3].
Qed.
(** ** A run *)
Lemma hex_2_digits : Hex_Props.prints_hex CurveText_Props.hex_2.
Proof. intros n N. eexists. split; [reflexivity|]. apply (CurveText_Props.width 4 16); lia. Qed.
(** --fp --random --count=2 --points=all --metadata --hex-check=4 3 *)
Definition line : list copt := [OFp; ORandom None; OCount (lit "2"); OPoints (lit "all"); OMetadata; OHexcheck (lit "4")].
Definition ex_cfg : config := match cli 4 line [lit "3"] with Some (c, _) => c | None => cfg0 end.
Definition ex_draws (i : Z) (k : nat) : draw :=
  mkDraw (i + 3 * Z.of_nat k) 0 (fun n => i + Z.of_nat n) (fun n m => i + Z.of_nat n) (fun _ => 0%N) (k =? 1)%nat curve_new false 0 None.
Lemma ex_scope : in_scope ex_cfg.
Proof. constructor; [..|constructor]; vm_compute; intuition congruence. Qed.
Example C75_run_example :
  let io := Shell_Model.mkIo (Some (list_ascii_of_string "o")) false None None in
  cli 4 line [lit "3"] <> None /\ c_count ex_cfg = 2 /\ c_metadata ex_cfg = true /\ c_points_type ex_cfg = POINTS_ALL /\
  pari_ok pari3 (c_bits ex_cfg) /\ in_scope ex_cfg /\ prints CurveText_Props.hex_2 CurveText_Props.hex_2 CurveText_Props.dec_2 /\
  Hex_Props.prints_hex CurveText_Props.hex_2 /\
  Shell_Spec.separate Shell_Props.by_length Shell_Props.all_files io /\
  Shell_Spec.input_is Shell_Props.by_length Shell_Props.all_files io (fun _ => None) [] "010"%char [] /\
  Shell_Spec.out_file Shell_Props.by_length Shell_Props.all_files io 1 /\
  let '(w, status) := Shell_Model.main Shell_Props.by_length Shell_Props.all_files Shell_Props.all_files Shell_Props.no_limit [] true io true
    (exhaustive_do pari3 ex_cfg CurveText_Props.hex_2 CurveText_Props.hex_2 CurveText_Props.dec_2 (fun _ => "?"%char) ex_draws 8 200 0 "010"%char
      (snd (Plan_Model.exhaustive_init ex_cfg [N_method])) 3)
    (Shell_Model.fresh (fun _ => None) []) in
  status = Some 0 /\ exists t, Shell_Model.files w 1 = Some t /\ 1000 <= Z.of_nat (length t).
Proof.
  intros io. split; [vm_compute; discriminate|]. do 3 (split; [reflexivity|]).
  split; [exact pari3_ok|]. split; [exact ex_scope|]. split; [exact CurveText_Props.printers|]. split; [exact hex_2_digits|].
  split; [|split; [vm_compute; auto|split; [exists (list_ascii_of_string "o"); auto|]]].
  - intros i. split; [|split]; intros (A & B); destruct B as (g & B & _); discriminate B.
  - vm_compute. split; [reflexivity|]. eexists. split; [reflexivity|]. vm_compute. discriminate.
Qed.
(** --fp --random --prime --points=random --unique 3, without a filter *)
Definition ex_cfg2 : config :=
  match cli 4 [OFp; ORandom None; OPrime; OPoints (lit "random"); OUnique] [lit "3"] with Some (c, _) => c | None => cfg0 end.
Example C75_defined_example : pari_ok pari3 (c_bits ex_cfg2) /\ in_scope ex_cfg2 /\ safe ex_cfg2 /\ c_prime ex_cfg2 = true /\
  exists w, search pari3 ex_cfg2 CurveText_Props.hex_2 8 "010"%char [] (ex_draws 1) (snd (Plan_Model.exhaustive_init ex_cfg2 [N_method])) 200 0 =
    (Engine_Model.Returned 1, w) /\ w_wrong w = None /\ (8 < w_calls w)%nat.
Proof.
  split; [exact pari3_ok|]. split; [constructor; [..|constructor]; vm_compute; intuition congruence|]. split; [|split; [reflexivity|]].
  - split; [reflexivity|]. left; reflexivity.
  - eexists. split; [vm_compute; reflexivity|]. split; [reflexivity|]. cbn. lia.
Qed.

(** ** Parameters that are typed in *)
(** --fp --count=2 --points=all 3: 9 is no prime, 77 is too large; the curve over the field with 3 elements is typed
    with negative numbers and in hexadecimal *)
Definition typed_line : list copt := [OFp; OCount (lit "2"); OPoints (lit "all")].
Definition typed_cfg : config := match cli 4 typed_line [lit "3"] with Some (c, _) => c | None => cfg0 end.
Definition typed_input : str := lit "9,5,77,1,1,3,-4,0x1,".
Lemma typed_scope : in_default typed_cfg.
Proof. constructor; [..|constructor]; vm_compute; intuition congruence. Qed.
Example C76_run_example :
  let io := Shell_Model.mkIo (Some (list_ascii_of_string "o")) false (Some (lit "in")) None in
  let fs := fun i => if (i =? 2)%nat then Some typed_input else None in
  cli 4 typed_line [lit "3"] <> None /\ c_count typed_cfg = 2 /\
  pari_ok pari3 (c_bits typed_cfg) /\ in_default typed_cfg /\
  Shell_Spec.separate Shell_Props.by_length Shell_Props.all_files io /\
  Shell_Spec.input_is Shell_Props.by_length Shell_Props.all_files io fs [] ","%char typed_input /\
  Shell_Spec.out_file Shell_Props.by_length Shell_Props.all_files io 1 /\
  let '(w, status) := Shell_Model.main Shell_Props.by_length Shell_Props.all_files Shell_Props.all_files Shell_Props.no_limit [] true io true
    (exhaustive_do pari3 typed_cfg CurveText_Props.hex_2 CurveText_Props.hex_2 CurveText_Props.dec_2 (fun _ => "?"%char) ex_draws 8 200 0 ","%char
      (snd (Plan_Model.exhaustive_init typed_cfg [N_method])) 3)
    (Shell_Model.fresh fs []) in
  status = Some 0 /\ exists t, Shell_Model.files w 1 = Some t /\ 300 <= Z.of_nat (length t).
Proof.
  intros io fs. split; [vm_compute; discriminate|]. split; [reflexivity|].
  split; [exact pari3_ok|]. split; [exact typed_scope|].
  split; [|split; [vm_compute; auto|split; [exists (list_ascii_of_string "o"); auto|]]].
  - intros i. split; [|split]; intros (A & B); destruct B as (g & B & C); try discriminate B.
    all: destruct A as (h & A & D); try discriminate A; try (injection A as <-; injection B as <-; vm_compute in *; intuition congruence).
  - vm_compute. split; [reflexivity|]. eexists. split; [reflexivity|]. vm_compute. discriminate.
Qed.
(** --fp --random=field,a --koblitz=1 --points=random --metadata 3 *)
Definition koblitz_cfg : config :=
  match cli 4 [OFp; ORandom None; OKoblitz (Some (lit "1")); OPoints (lit "random"); OMetadata] [lit "3"] with Some (c, _) => c | None => cfg0 end.
Example C76_defined_example : pari_ok pari3 (c_bits koblitz_cfg) /\ in_default koblitz_cfg /\ safe koblitz_cfg /\ c_koblitz koblitz_cfg = true /\
  Plan_Model.is_random koblitz_cfg RANDOM_FIELD = true /\
  exists w, search pari3 koblitz_cfg CurveText_Props.hex_2 8 "010"%char [] (ex_draws 1) (snd (Plan_Model.exhaustive_init koblitz_cfg [N_method])) 200 0 =
    (Engine_Model.Returned 1, w) /\ w_wrong w = None /\ k_a (w_curve w) = Some (Int 1) /\ k_b (w_curve w) = Some (Int 1).
Proof.
  split; [exact pari3_ok|]. split; [constructor; [..|constructor]; try (vm_compute; intuition congruence)|].
  - intros _ _ e I. assert (T : forallb (fun e => negb (Koblitz_Model.k_m e =? 3)) Koblitz_Model.koblitz_curves = true) by (vm_compute; reflexivity).
    rewrite forallb_forall in T. specialize (T e I). apply negb_true_iff, Z.eqb_neq in T. exact T.
  - split; [split; [reflexivity|right; reflexivity]|]. split; [reflexivity|]. split; [reflexivity|].
    eexists. split; [vm_compute; reflexivity|]. split; [reflexivity|]. split; reflexivity.
Qed.
(** Without that: the curve y^2 = x^3 + 2x + 2 over the field with 3 elements has no point besides that at infinity, and
    so no generator that a random point could be a multiple of. --fp --points=random 3. (With PARI's pari_calloc the program
    ends before, where the empty array of generators is made: C89_generators_refuted.) *)
Definition lone_cfg : config := match cli 4 [OFp; OPoints (lit "random")] [lit "3"] with Some (c, _) => c | None => cfg0 end.
Theorem C76_defined_refuted : exists P cfg l w, pari_ok P (c_bits cfg) /\ in_default cfg /\ safe cfg /\ l = [lit "3,"; lit "2,"; lit "2,"] /\
  search P cfg CurveText_Props.hex_2 8 ","%char l (ex_draws 1) (snd (Plan_Model.exhaustive_init cfg [N_method])) 200 0 = (Engine_Model.Returned 0, w) /\
  w_wrong w = Some Undefined.
Proof.
  exists pari3, lone_cfg. eexists _, _. split; [exact pari3_ok|]. split; [constructor; [..|constructor]; vm_compute; intuition congruence|].
  split; [split; [reflexivity|right; reflexivity]|]. split; [reflexivity|]. split; [vm_compute; reflexivity|]. reflexivity.
Qed.
Print Assumptions C76_defined_refuted.

(** ** Supersingular curves *)
(** there is no prime that is 1 modulo 12 below 8; contract_13 of Supersingular_Props has one *)
Lemma pari3_supersingular : supersingular_ok pari3 3.
Proof.
  constructor; [exact Supersingular_Props.kron_ok|exact Supersingular_Props.next_ok|].
  intros p (Pp & Bp) A B. exfalso. change (2 ^ 3) with 8 in Bp.
  assert (C : p = 3 \/ p = 4 \/ p = 5 \/ p = 6 \/ p = 7) by lia.
  destruct C as [->|[->|[->|[->| ->]]]]; discriminate A || discriminate B.
Qed.
(** --fp --supersingular --count=2 --points=all --metadata --prime 3: 9 is no prime and 77 is too large *)
Definition super_line : list copt := [OFp; OSupersingular; OCount (lit "2"); OPoints (lit "all"); OMetadata; OPrime].
Definition super_cfg : config := match cli 4 super_line [lit "3"] with Some (c, _) => c | None => cfg0 end.
Definition super_input : str := lit "9,5,77,0x7,".
Lemma super_scope : in_supersingular super_cfg.
Proof. constructor; vm_compute; intuition congruence. Qed.
Example C77_run_example :
  let io := Shell_Model.mkIo (Some (list_ascii_of_string "o")) false (Some (lit "in")) None in
  let fs := fun i => if (i =? 2)%nat then Some super_input else None in
  cli 4 super_line [lit "3"] <> None /\ c_count super_cfg = 2 /\ c_prime super_cfg = true /\
  pari_ok pari3 (c_bits super_cfg) /\ supersingular_ok pari3 (c_bits super_cfg) /\ in_supersingular super_cfg /\
  Shell_Spec.separate Shell_Props.by_length Shell_Props.all_files io /\
  Shell_Spec.input_is Shell_Props.by_length Shell_Props.all_files io fs [] ","%char super_input /\
  Shell_Spec.out_file Shell_Props.by_length Shell_Props.all_files io 1 /\
  let '(w, status) := Shell_Model.main Shell_Props.by_length Shell_Props.all_files Shell_Props.all_files Shell_Props.no_limit [] true io true
    (exhaustive_do pari3 super_cfg CurveText_Props.hex_2 CurveText_Props.hex_2 CurveText_Props.dec_2 (fun _ => "?"%char) ex_draws 8 200 0 ","%char
      (snd (Plan_Model.cm_init super_cfg false [N_method])) 3)
    (Shell_Model.fresh fs []) in
  status = Some 0 /\ exists t, Shell_Model.files w 1 = Some t /\ 1000 <= Z.of_nat (length t).
Proof.
  intros io fs. split; [vm_compute; discriminate|]. do 2 (split; [reflexivity|]).
  split; [exact pari3_ok|]. split; [exact pari3_supersingular|]. split; [exact super_scope|].
  split; [|split; [vm_compute; auto|split; [exists (list_ascii_of_string "o"); auto|]]].
  - intros i. split; [|split]; intros (A & B); destruct B as (g & B & C); try discriminate B.
    all: destruct A as (h & A & D); try discriminate A; try (injection A as <-; injection B as <-; vm_compute in *; intuition congruence).
  - vm_compute. split; [reflexivity|]. eexists. split; [reflexivity|]. vm_compute. discriminate.
Qed.
(** --fp --random --supersingular --points=random --unique 3 *)
Definition super_cfg2 : config :=
  match cli 4 [OFp; ORandom None; OSupersingular; OPoints (lit "random"); OUnique] [lit "3"] with Some (c, _) => c | None => cfg0 end.
Example C77_defined_example : pari_ok pari3 (c_bits super_cfg2) /\ supersingular_ok pari3 (c_bits super_cfg2) /\ in_supersingular super_cfg2 /\
  c_hex_check super_cfg2 = None /\ Plan_Model.is_random super_cfg2 RANDOM_FIELD = true /\
  exists w, search pari3 super_cfg2 CurveText_Props.hex_2 8 "010"%char [] (ex_draws 0) (snd (Plan_Model.cm_init super_cfg2 false [N_method])) 200 0 =
    (Engine_Model.Returned 1, w) /\ w_wrong w = None /\ k_field (w_curve w) = Some (Prime 5) /\ k_order (w_curve w) = Some 6.
Proof.
  split; [exact pari3_ok|]. split; [exact pari3_supersingular|]. split; [constructor; vm_compute; intuition congruence|].
  split; [reflexivity|]. split; [reflexivity|]. eexists. split; [vm_compute; reflexivity|]. split; [reflexivity|]. split; reflexivity.
Qed.
(** --prime, --cofactor and --smooth are accepted together with --supersingular and have no effect. The command line of
    C77_run_example asks for curves of prime order. *)
Theorem C77_filters_refuted : exists P cfg l w, pari_ok P (c_bits cfg) /\ supersingular_ok P (c_bits cfg) /\ in_supersingular cfg /\ c_prime cfg = true /\
  search P cfg CurveText_Props.hex_2 8 ","%char l (ex_draws 1) (snd (Plan_Model.cm_init cfg false [N_method])) 200 0 = (Engine_Model.Returned 1, w) /\
  w_wrong w = None /\ k_order (w_curve w) = Some 6 /\ ~ prime 6.
Proof.
  exists pari3, super_cfg, [lit "5,"]. eexists. split; [exact pari3_ok|]. split; [exact pari3_supersingular|]. split; [exact super_scope|]. split; [reflexivity|].
  split; [vm_compute; reflexivity|]. split; [reflexivity|]. split; [reflexivity|]. intros H. apply isprime_b_ok in H. discriminate H.
Qed.
Print Assumptions C77_filters_refuted.
