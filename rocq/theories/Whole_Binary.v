(** C79: a whole run of the default method over a random binary field, with random or Koblitz coefficients. *)
From Coq Require Import Ascii String.
From Verif Require Import Base Ec Irr_Spec Poly_Tables Poly_Model Points_Model Random_Model Random_Props Cli_Model Json_Spec CurveText_Spec.
From Verif Require Import Whole_Model Whole_Spec Whole_Stages Whole_Proofs Whole_Output Whole_Run Whole_Default Shell_Fields.
From Verif Require Ec_F2m Irr_Props Poly_Props CurveText_Model Plan_Model Engine_Model Shell_Model Shell_Spec Hex_Props Koblitz_Model Koblitz_Props Koblitz_Points.
Local Open Scope Z_scope.
Local Open Scope list_scope.

Record in_binary (cfg : config) : Prop := {
  ib_field : c_field cfg = FIELD_BINARY;
  ib_method : c_method cfg = METHOD_DEFAULT;
  ib_algo : c_seed_algo cfg = 0;
  ib_random : Plan_Model.is_random cfg RANDOM_FIELD = true /\
    (c_koblitz cfg = false -> Plan_Model.is_random cfg RANDOM_A = true /\ Plan_Model.is_random cfg RANDOM_B = true);
  ib_value : c_koblitz cfg = true -> c_koblitz_value cfg = 0 \/ c_koblitz_value cfg = 1;
  (** see C42 *)
  ib_poly : forall c, field_binaryr (c_bits cfg) = Ok c -> irreducible_poly c;
  ib_rest : in_range cfg
}.

(** ** The field *)
Lemma binary_fits cfg f : 0 <= c_bits cfg -> binary_over (c_bits cfg) f -> field_fits cfg f.
Proof.
  intros B. destruct f as [p|c]; [intros []|]. intros (A & L & N & _). pose proof (Koblitz_Points.size_degree _ c B L N) as S. unfold field_fits. rewrite S.
  split; [intros _; lia|]. split; [exact A|]. unfold degree. rewrite L. f_equal. lia.
Qed.
Lemma degree_bits bits c : 0 <= bits -> binary_over bits (Binary c) -> degree c = bits /\ field_size (Binary c) = 2 ^ bits.
Proof. intros B (A & L & N & _). split; [unfold degree; rewrite L; lia|now apply Koblitz_Points.size_degree]. Qed.
Lemma inside_bits bits c x : 0 <= bits -> binary_over bits (Binary c) -> (inside (Binary c) x <-> 0 <= x < 2 ^ bits).
Proof.
  intros B BO. destruct (degree_bits bits c B BO) as (_ & S). cbn [field_size] in S. cbn [inside]. unfold Ec_F2m.bres. rewrite S, andb_true_iff, Z.leb_le, Z.ltb_lt. tauto.
Qed.
(** the polynomial of the tables *)
Lemma binaryr_ok bits c : 0 <= bits -> field_binaryr bits = Ok c -> irreducible_poly c -> binary_over bits (Binary c) /\ nth 0 c 0 = 1 /\ (length (exponents c) <= 4)%nat.
Proof.
  intros B H Ir. unfold field_binaryr in H. destruct (poly_exists bits) eqn:E; [|discriminate]. unfold poly_exists in E. apply andb_true_iff in E. destruct E as (E1 & E2).
  apply Z.leb_le in E1, E2. unfold poly_find_gen in H. destruct (Z.eq_dec bits 1060) as [->|N].
  - destruct Poly_Props.C41_refuted as (m & _ & _ & _ & _). exfalso. revert H.
    assert (F : poly_find 1060 = Ok None).
    { unfold poly_find. cbn [poly_exists Z.leb Z.ltb Z.compare Pos.compare Pos.compare_cont andb orb].
      destruct (Poly_Props.find_in _ _ _ 1060 Poly_Props.ansi_tri_ok Poly_Props.ansi_penta_ok Poly_Props.ansi_cover) as [[H _]|[_ H]]; [lia| |exact H].
      exfalso. unfold Poly_Props.ansi_degrees in H. apply in_app_iff in H. rewrite !Poly_Props.in_zrange in H. lia. }
    rewrite F. discriminate.
  - destruct (Poly_Props.C41_found_partial bits ltac:(lia) N) as (p & Fp & M & TP). rewrite Fp in H. cbn [bind] in H.
    destruct (Poly_Props.C41_coefficients p TP) as (v & Gv & Lv & Cv). rewrite H in Gv. injection Gv as <-. rewrite M in *.
    split; [|split; [change 0%nat with (Z.to_nat 0); rewrite (Cv 0) by lia; cbn [Z.eqb]; now rewrite !orb_true_r|]].
    2: { rewrite <- (map_length Z.of_nat). change 4%nat with (length [bits; p_e1 p; p_e2 p; p_e3 p]). apply NoDup_incl_length.
      - apply FinFun.Injective_map_NoDup; [intros x y; lia|]. apply NoDup_rev, NoDup_filter, seq_NoDup.
      - intros z Iz. apply in_map_iff in Iz. destruct Iz as (n & <- & In). unfold exponents in In. rewrite <- in_rev in In. apply filter_In in In. destruct In as (I1 & I2).
        apply in_seq in I1. rewrite <- (Nat2Z.id n) in I2. rewrite Cv in I2 by lia. replace (Z.of_nat n =? 0) with false in I2 by (symmetry; apply Z.eqb_neq; lia).
        rewrite orb_false_r in I2. destruct (Z.eqb_spec (Z.of_nat n) bits); [now left|]. destruct (Z.eqb_spec (Z.of_nat n) (p_e1 p)); [now right; left|].
        destruct (Z.eqb_spec (Z.of_nat n) (p_e2 p)); [now right; right; left|]. destruct (Z.eqb_spec (Z.of_nat n) (p_e3 p)); [now right; right; right; left|]. discriminate I2. }
    split; [exact Ir|]. split; [exact Lv|]. split; [rewrite Cv by lia; now rewrite Z.eqb_refl|].
    apply Forall_forall. intros x I. apply (In_nth _ _ 0) in I. destruct I as (n & Ln & <-). replace n with (Z.to_nat (Z.of_nat n)) by lia. rewrite Cv by lia.
    destruct (_ || _)%bool; auto.
Qed.
Lemma binaryr_defined bits : bits <> 1060 -> field_binaryr bits <> UB.
Proof.
  intros N. unfold field_binaryr. destruct (poly_exists bits) eqn:E; [|discriminate]. unfold poly_exists in E. apply andb_true_iff in E. destruct E as (E1 & E2).
  apply Z.leb_le in E1, E2. unfold poly_find_gen. destruct (Poly_Props.C41_found_partial bits ltac:(lia) N) as (p & -> & _ & TP). cbn [bind].
  destruct (Poly_Props.C41_coefficients p TP) as (v & -> & _). discriminate.
Qed.
Lemma binaryr_small bits c : field_binaryr bits = Ok c -> bits < 2 ^ 32.
Proof. unfold field_binaryr, poly_exists. destruct (_ && _)%bool eqn:E; [|discriminate]. intros _. apply andb_true_iff in E. destruct E as (_ & E). apply Z.leb_le in E. lia. Qed.
(** how it is published *)
Lemma spelled_ok bits c : 0 <= bits -> binary_over bits (Binary c) -> nth 0 c 0 = 1 -> (length (exponents c) <= 4)%nat ->
  spelled_poly (map Z.of_nat (exponents c) ++ repeat 0 (4 - length (exponents c))) c.
Proof.
  intros B (_ & L & _ & F) N L4. unfold spelled_poly. split; [rewrite app_length, map_length, repeat_length; lia|]. split; [exact N|].
  assert (D : forall n, nth n c 0 = 0 \/ nth n c 0 = 1).
  { intros n. destruct (nth_in_or_default n c 0) as [I| ->]; [|auto]. rewrite Forall_forall in F. exact (F _ I). }
  split; [|apply Forall_app; split; [apply Forall_map, Forall_forall; lia|apply Forall_forall; intros x X; apply repeat_spec in X; lia]].
  intros n Hn. rewrite in_app_iff. split.
  - intros [I|I]; [|apply repeat_spec in I; lia]. apply in_map_iff in I. destruct I as (m & E & I). assert (m = n) by lia. subst m.
    unfold exponents in I. rewrite <- in_rev in I. apply filter_In in I. destruct I as (_ & I). apply negb_true_iff, Z.eqb_neq in I. destruct (D n); [contradiction|assumption].
  - intros E. left. apply in_map_iff. exists n. split; [reflexivity|]. unfold exponents. rewrite <- in_rev. apply filter_In. rewrite E. split; [|reflexivity].
    apply in_seq. assert (n < length c)%nat; [|lia]. destruct (Nat.lt_ge_cases n (length c)) as [X|X]; [exact X|]. rewrite nth_overflow in E by exact X. discriminate.
Qed.

(** ** The stages *)
Lemma binary_stage P cfg tries delim d t k : 0 <= c_bits cfg -> c_field cfg = FIELD_BINARY -> Plan_Model.is_random cfg RANDOM_FIELD = true ->
  (forall c, field_binaryr (c_bits cfg) = Ok c -> irreducible_poly c) ->
  match generator P cfg tries delim (field_f cfg) None d t k with
  | Ok (k', r) => r = 1 /\ exists c, k' = set_field (Binary c) k /\ binary_over (c_bits cfg) (Binary c) /\ c_bits cfg < 2 ^ 32 /\ nth 0 c 0 = 1 /\ (length (exponents c) <= 4)%nat
  | UB => c_bits cfg = 1060
  | _ => True
  end.
Proof.
  intros B F R Ir. unfold field_f. rewrite R. cbn [generator]. rewrite F.
  change (FIELD_BINARY =? FIELD_PRIME) with false. change (FIELD_BINARY =? FIELD_BINARY) with true. cbv iota.
  destruct (field_binaryr (c_bits cfg)) as [c| | |] eqn:E; cbn [bind]; try exact I.
  - split; [reflexivity|]. exists c. split; [reflexivity|]. destruct (binaryr_ok (c_bits cfg) c ltac:(lia) E (Ir c eq_refl)) as (X & Y). split; [exact X|]. split; [exact (binaryr_small (c_bits cfg) c E)|exact Y].
  - destruct (Z.eq_dec (c_bits cfg) 1060) as [X|X]; [exact X|]. exfalso. exact (binaryr_defined (c_bits cfg) X E).
Qed.
Lemma genrand_ok bits c t : 3 <= bits < 2 ^ 61 -> binary_over bits (Binary c) -> exists x, Whole_Model.genrand (Binary c) t = Ok x /\ 0 <= elem_int x < 2 ^ bits.
Proof.
  intros B BO. destruct (degree_bits bits c ltac:(lia) BO) as (D & _). cbn [Whole_Model.genrand]. rewrite D. eexists. split; [reflexivity|].
  assert (0 < 2 ^ bits) by (apply Z.pow_pos_nonneg; lia). pose proof (Z.mod_pos_bound t (2 ^ bits) ltac:(lia)) as M. cbn [elem_int]. rewrite at_two_digits by lia. exact M.
Qed.
Lemma small_inside bits x : 3 <= bits < 2 ^ 61 -> x = 0 \/ x = 1 -> 0 <= x < 2 ^ bits.
Proof. intros B X. assert (2 ^ 1 <= 2 ^ bits) by (apply Z.pow_le_mono_r; lia). lia. Qed.
Section Order.
Variable P : pari.
Variable cfg : config.
Hypothesis PO : pari_over P (binary_over (c_bits cfg)).
Hypothesis IR : in_range cfg.
Hypothesis IV : c_koblitz cfg = true -> c_koblitz_value cfg = 0 \/ c_koblitz_value cfg = 1.
Variable tries : nat.
Variable delim : ascii.
Notation bits := (c_bits cfg).
Notation gen := (generator P cfg tries delim).
Lemma binary_over_fits f (a b : Z) : every (binary_over bits) f a b -> field_fits cfg f. Proof. apply binary_fits. pose proof (in_bits _ IR). lia. Qed.
Lemma ord_binary d t k p a b x : values (every (binary_over bits)) k p a b -> curve_ok p a b -> k_curve k = Some (p, a, b) ->
  bits < 2 ^ 32 -> k_a k = Some x -> (c_koblitz cfg = true -> x = Int (c_koblitz_value cfg)) -> (c_koblitz cfg = true -> b = 1) ->
  match gen (ord_f cfg) (order_arg cfg) d t k with
  | Ok (k', r) => (r = 1 /\ k' = set_order (Some (points p a b)) k /\ order_wanted cfg (points p a b)) \/ r = -4
  | _ => False
  end.
Proof.
  intros (_ & OO & _ & (x0 & y0 & Ka0 & _ & Xa & _)) ns K Small Ka Kx Kb. unfold ord_f.
  destruct (plain cfg && c_koblitz cfg)%bool eqn:E.
  - apply andb_true_iff in E. destruct E as (E1 & E2). cbn [generator]. rewrite Ka, (Kx E2), K. cbn [need bind]. unfold Koblitz_Model.order_gen_koblitz. cbn [Koblitz_Model.itou bind].
    unfold Koblitz_Model.koblitz_get_order. rewrite Koblitz_Props.find_exact.
    destruct (find _ Koblitz_Model.koblitz_curves) as [e|] eqn:F.
    + cbn [bind]. apply find_some in F. destruct F as (Ie & F). left. split; [reflexivity|]. split.
      * f_equal. f_equal. pose proof (in_bits _ IR) as B. destruct (IV E2) as [V|V]; rewrite V in F; unfold u32 in F; rewrite (Z.mod_small (c_bits cfg)) in F by lia;
          apply andb_true_iff in F; destruct F as (F1 & F2); apply Z.eqb_eq in F1, F2; rewrite Z.mod_small in F2 by lia;
          (assert (a = Koblitz_Model.k_a e) by (assert (x0 = x) by congruence; subst x0; rewrite <- Xa, (Kx E2), V; cbn [elem_int]; congruence));
          destruct p as [p|c]; try (now destruct OO); rewrite (Kb E2), H; symmetry; apply Koblitz_Points.C44_points; [exact Ie|apply OO|rewrite F1; apply (degree_bits bits c); [lia|exact OO]|exact Ie|apply OO|rewrite F1; apply (degree_bits bits c); [lia|exact OO]].
      * unfold plain in E1. unfold order_wanted. destruct (c_prime cfg), (c_cofactor cfg), (c_smooth cfg); try discriminate E1. repeat split; discriminate.
    + cbn [bind]. rewrite (pc_card _ _ _ _ (pc_curve _ _ PO p a b OO ns)). left. split; [reflexivity|]. split; [reflexivity|].
      unfold plain in E1. unfold order_wanted. destruct (c_prime cfg), (c_cofactor cfg), (c_smooth cfg); try discriminate E1. repeat split; discriminate.
  - destruct (order_stage P cfg _ binary_over_fits PO p a b OO ns IR tries delim d t k K) as (k' & r' & -> & X). exact X.
Qed.
End Order.
Section Binary.
Variable P : pari.
Variable cfg : config.
Hypothesis PO : pari_over P (binary_over (c_bits cfg)).
Hypothesis IB : in_binary cfg.
Variable tries : nat.
Variable delim : ascii.
Notation bits := (c_bits cfg).
Notation gen := (generator P cfg tries delim).

Lemma binary_bits : 3 <= bits < 2 ^ 61. Proof. exact (in_bits _ (ib_rest _ IB)). Qed.
Lemma field_binary d t k : match gen (field_f cfg) None d t k with
  | Ok (k', r) => r = 1 /\ exists c, k' = set_field (Binary c) k /\ binary_over bits (Binary c) /\ bits < 2 ^ 32 /\ nth 0 c 0 = 1 /\ (length (exponents c) <= 4)%nat
  | UB => bits = 1060
  | _ => True
  end.
Proof.
  pose proof binary_bits as B. apply binary_stage; [lia|exact (ib_field _ IB)|exact (proj1 (ib_random _ IB))|exact (ib_poly _ IB)].
Qed.
Lemma a_binary d t k c : k_field k = Some (Binary c) -> binary_over bits (Binary c) ->
  exists x, gen (a_f cfg) None d t k = Ok (set_a x k, 1) /\ 0 <= elem_int x < 2 ^ bits /\ (c_koblitz cfg = true -> x = Int (c_koblitz_value cfg)).
Proof.
  intros K BO. pose proof (ib_value _ IB) as V. destruct (ib_random _ IB) as (_ & R). unfold a_f. destruct (c_koblitz cfg).
  - exists (Int (c_koblitz_value cfg)). split; [|split; [apply small_inside; [exact binary_bits|]; exact (V eq_refl)|reflexivity]]. destruct (V eq_refl) as [-> | ->]; reflexivity.
  - destruct (R eq_refl) as (-> & _). cbn [generator]. rewrite K. cbn [need bind]. destruct (genrand_ok bits c (d_one d) binary_bits BO) as (x & -> & X). exists x. split; [reflexivity|]. split; [exact X|discriminate].
Qed.
Lemma b_binary d t k c : k_field k = Some (Binary c) -> binary_over bits (Binary c) ->
  exists x, gen (b_f cfg) None d t k = Ok (set_b x k, 1) /\ 0 <= elem_int x < 2 ^ bits /\ (c_koblitz cfg = true -> elem_int x = 1).
Proof.
  intros K BO. destruct (ib_random _ IB) as (_ & R). unfold b_f. destruct (c_koblitz cfg).
  - exists (Int 1). split; [reflexivity|]. split; [apply small_inside; [exact binary_bits|]; now right|reflexivity].
  - destruct (R eq_refl) as (_ & ->). cbn [generator]. rewrite K. cbn [need bind]. destruct (genrand_ok bits c (d_one d) binary_bits BO) as (x & -> & X). exists x. split; [reflexivity|]. split; [exact X|discriminate].
Qed.
(** what is known of the curve before the stage [k] *)
Definition binary_front (l : list str) (k : Z) (c : curve) (pos : nat) : Prop :=
  k_seed c = None /\ (2 <= k -> exists poly, k_field c = Some (Binary poly) /\ binary_over bits (Binary poly) /\ (bits < 2 ^ 32 /\ nth 0 poly 0 = 1 /\ (length (exponents poly) <= 4)%nat) /\
    (3 <= k -> exists x, k_a c = Some x /\ 0 <= elem_int x < 2 ^ bits /\ (c_koblitz cfg = true -> x = Int (c_koblitz_value cfg))) /\
    (4 <= k -> exists y, k_b c = Some y /\ 0 <= elem_int y < 2 ^ bits /\ (c_koblitz cfg = true -> elem_int y = 1))).
Lemma binary_result hexw l draws fuel av r w u :
  search P cfg hexw tries delim l draws (snd (Plan_Model.exhaustive_init cfg u)) fuel av = (r, w) ->
  match r with Engine_Model.Returned r => (r = 1 /\ success P cfg (every (binary_over bits)) hexw (binary_front l 4) w) \/ (r = 0 /\ failed cfg (bits <> 1060) w)
  | Engine_Model.NoFuel => True | _ => False end.
Proof.
  pose proof (ib_rest _ IB) as IR. rewrite (plan cfg u (ib_method _ IB) (ib_algo _ IB) (ib_value _ IB) IR). pose proof (in_bits _ IR) as Hb.
  apply (plain_result P cfg _ (binary_over_fits cfg IR) PO IR hexw tries delim l draws _ _ _ _ _ _ _ _ _ _ _ _ (binary_front l) (bits <> 1060)).
  - split; [|split].
    + unfold field_f. destruct (Plan_Model.is_random cfg RANDOM_FIELD); reflexivity.
    + unfold a_f. destruct (c_koblitz cfg); [destruct (c_koblitz_value cfg =? 0); reflexivity|]. destruct (Plan_Model.is_random cfg RANDOM_A); reflexivity.
    + unfold b_f. destruct (c_koblitz cfg); [reflexivity|]. destruct (Plan_Model.is_random cfg RANDOM_B); reflexivity.
  - intros k c pos _ (S & _) _. exact S.
  - intros c pos S. split; [now apply S|]. lia.
  - intros j k c pos L M (S & H). split; [exact S|]. lia.
  - intros k c c' pos (S1 & S2 & S3 & S4 & _) H. unfold binary_front. rewrite S1, S2, S3, S4. exact H.
  - intros c pos (_ & H). destruct (H ltac:(lia)) as (p & A & B & _ & E & G). destruct (E ltac:(lia)) as (x & Ka & X & _). destruct (G ltac:(lia)) as (y & Kb & Y & _).
    exists (Binary p), (elem_int x), (elem_int y). split; [exact A|]. split; [exact B|].
    split; [split; apply (inside_bits bits); assumption || lia|]. exists x, y. auto.
  - intros k d c pos _ Lk (S & H) _. assert (KK : k = 0 \/ k = 1 \/ k = 2 \/ k = 3) by lia.
    destruct KK as [->|[->|[->| ->]]]; cbn [front Z.eqb Pos.eqb fst snd]; cbv zeta.
    + left. split; [reflexivity|]. split; [exact S|]. lia.
    + pose proof (field_binary d (nth pos l []) c) as F. destruct (gen (field_f cfg) None d (nth pos l []) c) as [[c' r']| | |]; [|intros X; contradiction|exact I|exact I].
      destruct F as (-> & p & -> & A & B). left. split; [reflexivity|]. split; [exact S|]. intros _. exists p. split; [reflexivity|]. split; [exact A|]. split; [exact B|]. split; lia.
    + destruct (H ltac:(lia)) as (p & A & B & C & _). destruct (a_binary d (nth pos l []) c p A B) as (x & -> & X). left. split; [reflexivity|]. split; [exact S|].
      intros _. exists p. split; [exact A|]. split; [exact B|]. split; [exact C|]. split; [intros _; exists x; split; [reflexivity|exact X]|]. lia.
    + destruct (H ltac:(lia)) as (p & A & B & C & D & _). destruct (b_binary d (nth pos l []) c p A B) as (y & -> & Y). left. split; [reflexivity|]. split; [exact S|].
      intros _. exists p. split; [exact A|]. split; [exact B|]. split; [exact C|]. split; [intros _; exact (D ltac:(lia))|]. intros _. exists y. split; [reflexivity|exact Y].
  - intros c pos p _ (_ & H) K. destruct (H ltac:(lia)) as (q & A & _). assert (p = Binary q) by congruence. subst p. exact I.
  - unfold ord_f, order_f. destruct (_ && _)%bool; [reflexivity|]. destruct (c_prime cfg); [reflexivity|]. destruct (c_cofactor cfg); [reflexivity|]. destruct (c_smooth cfg); reflexivity.
  - intros d t c p a b pos (_ & H) V ns K. destruct (H ltac:(lia)) as (q & _ & _ & (Small & _) & E & G). destruct (E ltac:(lia)) as (x & Kx & _ & Ix). destruct (G ltac:(lia)) as (y & Ky & _ & Iy).
    assert (Yb : c_koblitz cfg = true -> b = 1) by (intros KO; destruct V as (_ & _ & _ & (x0 & y0 & _ & Ky0 & _ & <-)); assert (y0 = y) by congruence; subst y0; exact (Iy KO)).
    pose proof (ord_binary P cfg PO IR (ib_value _ IB) tries delim d t c p a b x V ns K Small Kx Ix Yb) as X. destruct (gen (ord_f cfg) (order_arg cfg) d t c) as [[c' r']| | |]; [exact X|destruct X..].
  - reflexivity.
Qed.
End Binary.

(** ** The run *)
Section Run.
Variable P : pari.
Variable cfg : config.
Hypothesis PO : pari_over P (binary_over (c_bits cfg)).
Hypothesis IB : in_binary cfg.
Variable hexw hexp dec : Z -> list ascii.
Hypothesis OK : prints hexw hexp dec.
Hypothesis HX : Hex_Props.prints_hex hexw.
Variable junk : nat -> ascii.
Variable draws : Z -> nat -> draw.
Variable tries fuel : nat.
Variable avma : Z.
Variable delim : ascii.
Notation setup := (snd (Plan_Model.exhaustive_init cfg [N_method])).

Lemma binary_shows l c : found cfg hexw (every (binary_over (c_bits cfg))) (fun l => binary_front cfg l 4) l c -> wanted_binary cfg hexw c.
Proof.
  intros (k & f & ((S & St) & SH & (q & Kf & Pf) & (x & Kx & Px) & (y & Ky & Py)) & KF & Of & W & _). pose proof (binary_bits cfg IB) as B.
  destruct (St ltac:(lia)) as (poly & A & BO & (_ & N0 & L4) & E & F). destruct (E ltac:(lia)) as (x' & Kx' & X & XK). destruct (F ltac:(lia)) as (y' & Ky' & Y & YK).
  assert (q = Binary poly) by congruence. assert (f = Binary poly) by congruence. subst q f. assert (x' = x) by congruence. assert (y' = y) by congruence. subst x' y'.
  exists (map Z.of_nat (exponents poly) ++ repeat 0 (4 - length (exponents poly))), poly. split; [exact Pf|]. split; [apply (spelled_ok (c_bits cfg)); assumption || lia|].
  split; [exact BO|]. split; [rewrite SH, S; reflexivity|]. rewrite Px, Py. split; [exact X|]. split; [exact Y|]. split; [|exact W].
  intros KO. rewrite (XK KO). split; [reflexivity|exact (YK KO)].
Qed.
(** C79. Full statement: for every method and field. Missing: typed fields and coefficients; other methods;
    degrees whose polynomial is not shown to be irreducible (see C42); the
    sizes that are printed fit (fitsb). *)
Theorem C79_run_partial ino readable writable reason io seadata fs kbd d input outer i :
  Shell_Spec.separate ino writable io -> Shell_Spec.input_is ino readable io fs kbd d input ->
  Shell_Model.i_append io = false -> Shell_Spec.out_file ino writable io i -> 0 <= c_count cfg < 2 ^ 64 ->
  let '(w, status) := Shell_Model.main ino readable writable (fun _ => None) reason true io seadata
      (exhaustive_do P cfg hexw hexp dec junk draws tries fuel avma delim setup outer) (Shell_Model.fresh fs kbd) in
  status = Some 0 ->
  exists text cs, Shell_Model.files w i = Some text /\ Z.of_nat (length cs) = c_count cfg /\ Forall (wanted_binary cfg hexw) cs /\
    (exists v, json text v) /\
    forall v, json text v -> exists ds, v = JArr ds /\ all read_curve ds = Some cs.
Proof.
  intros S I NA O B.
  pose proof (run_file P cfg hexw hexp dec OK HX junk draws tries fuel avma delim setup (every (binary_over (c_bits cfg))) (fun l => binary_front cfg l 4) _
    (fun l i fuel av r w => binary_result P cfg PO IB tries delim hexw l (draws i) fuel av r w _) ino readable writable reason io seadata fs kbd d input outer i S I NA O B) as H.
  destruct (Shell_Model.main _ _ _ _ _ true io seadata _ (Shell_Model.fresh fs kbd)) as (w, status). intros E.
  destruct (H E) as (text & cs & F & N & EA & J). exists text, cs. split; [exact F|]. split; [exact N|]. split; [|exact J].
  apply (each_all (found cfg hexw (every (binary_over (c_bits cfg))) (fun l => binary_front cfg l 4))) with (2 := EA). exact binary_shows.
Qed.
(** A search leaves no undefined behaviour behind, save for degree 1060 (see C41), when nothing filters the digits and
    the generators are not the point at infinity. *)
Theorem C79_defined_partial l i r w : safe cfg -> c_bits cfg <> 1060 ->
  search P cfg hexw tries delim l (draws i) setup fuel avma = (r, w) ->
  match r with
  | Engine_Model.Returned 1 => w_wrong w = None /\ exists c, to_output (w_curve w) = Ok c
  | Engine_Model.Returned 0 => w_wrong w <> Some Undefined
  | Engine_Model.NoFuel => True
  | _ => False
  end.
Proof.
  intros SF N S. exact (search_defined P cfg hexw draws tries fuel avma delim setup (every (binary_over (c_bits cfg))) (fun l => binary_front cfg l 4) _
    (fun l i fuel av r w => binary_result P cfg PO IB tries delim hexw l (draws i) fuel av r w _) l i r w SF N S).
Qed.
End Run.
Print Assumptions C79_run_partial.
Print Assumptions C79_defined_partial.
