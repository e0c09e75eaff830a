(** C51: the reduced forms of discriminant -4D are enumerated exactly; the room reserved for them is
    not always enough. *)
From Coq Require Import Znumtheory.
From Verif Require Import Base Fp P1363_Model.
Local Open Scope Z_scope.

(** ** Specification *)
(** A x^2 + 2 B x y + C y^2 of determinant D, primitive and reduced *)
Definition reduced (D : Z) (f : form) : Prop :=
  let '(A, B, C) := f in
  A * C - B * B = D /\ 0 < A /\
  (forall g, (g | A) -> (g | 2 * B) -> (g | C) -> (g | 1)) /\
  - A <= 2 * B <= A /\ A <= C /\ (2 * Z.abs B = A \/ A = C -> 0 <= B).

(** ** The enumeration as a list *)
Definition of_divisor (B d div : Z) : list form :=
  if (B * 2 <=? div) && (div * div <=? d) && (Z.gcd (Z.gcd div (B * 2)) (d / div) =? 1) then
    (div, B, d / div) :: if (0 <? B * 2) && (B * 2 <? div) && (div <? d / div) then [(div, - B, d / div)] else []
  else [].
Definition of_b (D B : Z) : list form := flat_map (of_divisor B (D + B * B)) (divisors (D + B * B)).
Definition all_forms (D : Z) : list form := flat_map (of_b D) (elements (bound D + 1)).

Definition fits (room : Z) (l m : list form) : res (list form) := if Z.of_nat (length l + length m) <=? room then Ok (l ++ m) else UB.
Lemma fits_nil room l : Z.of_nat (length l) <= room -> fits room l [] = Ok l.
Proof. intros H. unfold fits. rewrite app_nil_r. cbn [length]. replace (Z.of_nat (length l + 0) <=? room) with true by lia. reflexivity. Qed.
Lemma fits_app room l m n : bind (fits room l m) (fun x => fits room x n) = fits room l (m ++ n).
Proof.
  unfold fits. rewrite app_length. destruct (Z.leb_spec (Z.of_nat (length l + length m)) room) as [H|H]; cbn [bind].
  - rewrite app_length, app_assoc. replace (length l + length m + length n)%nat with (length l + (length m + length n))%nat by lia. reflexivity.
  - replace (Z.of_nat (length l + (length m + length n)) <=? room) with false by lia. reflexivity.
Qed.
Lemma fits_room room l m x : fits room l m = Ok x -> Z.of_nat (length x) <= room.
Proof. unfold fits. destruct (Z.leb_spec (Z.of_nat (length l + length m)) room) as [H|H]; [|discriminate]. intros E. assert (x = l ++ m) by congruence. subst x. rewrite app_length. exact H. Qed.
Lemma push_fits room l f : push room l f = fits room l [f].
Proof. unfold push, fits. cbn [length]. replace (Z.of_nat (length l + 1) <=? room) with (Z.of_nat (length l) <? room) by lia. reflexivity. Qed.
Lemma foldl_fits {A} room (f : list form -> A -> res (list form)) (g : A -> list form) xs l :
  (forall l x, Z.of_nat (length l) <= room -> f l x = fits room l (g x)) -> Z.of_nat (length l) <= room -> foldl_res f xs l = fits room l (flat_map g xs).
Proof.
  intros F. revert l. induction xs as [|x xs IH]; intros l L; cbn [foldl_res flat_map]; [now rewrite fits_nil|].
  rewrite F by exact L. rewrite <- fits_app. destruct (fits room l (g x)) as [y| | |] eqn:E; cbn [bind]; [|reflexivity..].
  apply fits_room in E. now apply IH.
Qed.
Lemma try_divisor_fits room B d l div : Z.of_nat (length l) <= room -> try_divisor room B d l div = fits room l (of_divisor B d div).
Proof.
  intros L. unfold try_divisor, of_divisor. destruct (B * 2 <=? div), (div * div <=? d); cbn [andb]; try (symmetry; now apply fits_nil).
  destruct (_ =? 1); [|symmetry; now apply fits_nil]. rewrite push_fits. etransitivity; [|exact (fits_app room l [(div, B, d / div)] _)].
  destruct (fits room l [(div, B, d / div)]) as [y| | |] eqn:E; cbn [bind]; [|reflexivity..]. apply fits_room in E.
  destruct (_ && _); [apply push_fits|]. symmetry. now apply fits_nil.
Qed.
Lemma bound_nonneg D : 0 <= bound D. Proof. apply Z.sqrt_nonneg. Qed.
Lemma group_fits D : group D = fits (bound D * 2) [] (all_forms D).
Proof.
  pose proof (bound_nonneg D). unfold group, all_forms. change (map Z.of_nat (seq 0 (Z.to_nat (bound D + 1)))) with (elements (bound D + 1)). apply foldl_fits; [|cbn [length]; lia].
  intros l B L. unfold try_b, of_b. apply foldl_fits; [|exact L]. intros. now apply try_divisor_fits.
Qed.

(** ** It lists the reduced forms *)
Lemma in_divisors d a : 0 < d -> (In a (divisors d) <-> 0 < a /\ (a | d)).
Proof.
  intros D. unfold divisors. rewrite filter_In, in_map_iff. split.
  - intros [(n & <- & N) E]. apply in_seq in N. apply Z.eqb_eq in E. split; [lia|]. apply Z.mod_divide; [lia|exact E].
  - intros [A [k K]]. split; [|apply Z.eqb_eq; rewrite K; apply Z.mod_mul; lia]. exists (Z.to_nat a). split; [lia|]. apply in_seq. assert (a <= d) by (apply Z.divide_pos_le; [exact D|exists k; exact K]). lia.
Qed.
Lemma divisors_nodup d : NoDup (divisors d).
Proof. unfold divisors. apply NoDup_filter. apply FinFun.Injective_map_NoDup; [intros a b H; lia|apply seq_NoDup]. Qed.
Lemma gcd_primitive A B C : Z.gcd (Z.gcd A (B * 2)) C = 1 <-> (forall g, (g | A) -> (g | 2 * B) -> (g | C) -> (g | 1)).
Proof.
  rewrite (Z.mul_comm B 2). split.
  - intros E g GA GB GC. rewrite <- E. apply Z.gcd_greatest; [apply Z.gcd_greatest; assumption|exact GC].
  - intros H. assert (D : (Z.gcd (Z.gcd A (2 * B)) C | 1)).
    { apply H; [|eapply Z.divide_trans; [apply Z.gcd_divide_l|apply Z.gcd_divide_r]|apply Z.gcd_divide_r]. eapply Z.divide_trans; [apply Z.gcd_divide_l|apply Z.gcd_divide_l]. }
    apply Z.divide_1_r_nonneg; [apply Z.gcd_nonneg|exact D].
Qed.
Lemma in_of_b D B f : 0 < D -> 0 <= B -> (In f (of_b D B) <-> exists A C, A * C = D + B * B /\ 0 < A /\ 2 * B <= A /\ A <= C /\ (forall g, (g | A) -> (g | 2 * B) -> (g | C) -> (g | 1)) /\
  (f = (A, B, C) \/ f = (A, - B, C) /\ 0 < B /\ 2 * B < A /\ A < C)).
Proof.
  intros HD HB. unfold of_b. rewrite in_flat_map. set (d := D + B * B). assert (Hd : 0 < d) by (unfold d; nia). split.
  - intros (a & A1 & F). apply in_divisors in A1; [|exact Hd]. destruct A1 as [A0 [c K]]. unfold of_divisor in F.
    replace (d / a) with c in F by (rewrite K; symmetry; apply Z.div_mul; lia).
    destruct ((B * 2 <=? a) && (a * a <=? d) && (Z.gcd (Z.gcd a (B * 2)) c =? 1)) eqn:G; [|destruct F].
    rewrite !andb_true_iff, !Z.leb_le, Z.eqb_eq in G. destruct G as [[G1 G2] G3]. exists a, c. rewrite K. split; [ring|]. split; [exact A0|]. split; [lia|].
    split; [rewrite K in G2; now apply Z.mul_le_mono_pos_r in G2|]. split; [now apply gcd_primitive|]. destruct F as [F|F]; [left; now symmetry|].
    destruct ((0 <? B * 2) && (B * 2 <? a) && (a <? c)) eqn:G; [|destruct F]. destruct F as [F|[]]. right. rewrite !andb_true_iff, !Z.ltb_lt in G. split; [now symmetry|lia].
  - intros (A & C & E & A0 & L1 & L2 & P & F). exists A. split; [apply in_divisors; [exact Hd|]; split; [exact A0|exists C; lia]|].
    unfold of_divisor. replace (d / A) with C by (rewrite <- E; symmetry; rewrite (Z.mul_comm A C); apply Z.div_mul; lia).
    apply gcd_primitive in P. rewrite P. replace (B * 2 <=? A) with true by lia. replace (A * A <=? d) with true by (symmetry; apply Z.leb_le; rewrite <- E; apply Z.mul_le_mono_nonneg_l; lia).
    cbn [andb Z.eqb Pos.eqb]. destruct F as [->|(-> & B0 & L3 & L4)]; [now left|]. replace (0 <? B * 2) with true by lia. replace (B * 2 <? A) with true by lia. replace (A <? C) with true by lia. right. now left.
Qed.
Lemma bound_spec D B : 0 < D -> 0 <= B -> (B <= bound D <-> 3 * (B * B) <= D).
Proof.
  intros HD HB. unfold bound. pose proof (Z.div_mod D 3 ltac:(lia)). pose proof (Z.mod_pos_bound D 3 ltac:(lia)). pose proof (Z.div_pos D 3 ltac:(lia) ltac:(lia)).
  rewrite <- Z.sqrt_le_square by lia. split; lia.
Qed.
Lemma in_all_forms D f : 0 < D -> (In f (all_forms D) <-> reduced D f).
Proof.
  intros HD. unfold all_forms. rewrite in_flat_map. split.
  - intros (B & B1 & F). apply in_elements in B1. apply in_of_b in F; [|exact HD|lia]. destruct F as (A & C & E & A0 & L1 & L2 & P & F).
    destruct F as [->|(-> & B0 & L3 & L4)]; unfold reduced.
    + split; [lia|]. split; [exact A0|]. split; [exact P|]. split; [lia|]. split; [exact L2|lia].
    + split; [lia|]. split; [exact A0|]. split.
      { intros g G1 G2 G3. apply P; [exact G1| |exact G3]. apply Z.divide_opp_r. now replace (- (2 * B)) with (2 * - B) by ring. }
      split; [lia|]. split; [exact L2|]. rewrite Z.abs_opp, Z.abs_eq by lia. lia.
  - destruct f as [[A B] C]. intros (E & A0 & P & L1 & L2 & N). exists (Z.abs B).
    assert (AB : Z.abs B * Z.abs B = B * B) by (rewrite <- Z.abs_mul; apply Z.abs_eq, Z.square_nonneg).
    split.
    + apply in_elements. pose proof (Z.abs_nonneg B). assert (Z.abs B <= bound D); [|lia]. apply bound_spec; [exact HD|lia|]. rewrite AB.
      assert (H1 : (2 * Z.abs B) * (2 * Z.abs B) <= A * C) by (apply Z.mul_le_mono_nonneg; lia). replace ((2 * Z.abs B) * (2 * Z.abs B)) with (4 * (B * B)) in H1 by (rewrite <- AB; ring). lia.
    + apply in_of_b; [exact HD|lia|]. exists A, C. rewrite AB. split; [lia|]. split; [exact A0|]. split; [lia|]. split; [exact L2|]. split.
      { intros g G1 G2 G3. apply P; [exact G1| |exact G3]. destruct (Z.abs_eq_or_opp B) as [->| ->] in G2; [exact G2|]. apply Z.divide_opp_r. now replace (- (2 * B)) with (2 * - B) by ring. }
      destruct (Z_lt_le_dec B 0) as [B0|B0]; [right|left; rewrite Z.abs_eq by lia; reflexivity].
      rewrite Z.abs_neq by lia. rewrite Z.opp_involutive. split; [reflexivity|]. split; [lia|].
      assert (~ (2 * Z.abs B = A \/ A = C)) by (intros X; specialize (N X); lia). rewrite Z.abs_neq in * by lia. lia.
Qed.

Lemma flat_map_nodup {A B} (f : A -> list B) xs : NoDup xs -> (forall x, In x xs -> NoDup (f x)) -> (forall x y z, In x xs -> In y xs -> In z (f x) -> In z (f y) -> x = y) -> NoDup (flat_map f xs).
Proof.
  induction 1 as [|x xs H N IH]; intros F S; cbn [flat_map]; [constructor|].
  assert (N1 : NoDup (f x)) by (apply F; now left). assert (N2 : NoDup (flat_map f xs)) by (apply IH; [intros; apply F; now right|intros a b c U V; apply S; now right]).
  assert (Dj : forall z, In z (f x) -> ~ In z (flat_map f xs)).
  { intros z Z1 Z2. apply in_flat_map in Z2. destruct Z2 as (y & Y & Z2). apply H. rewrite (S x y z); [exact Y|now left|now right|exact Z1|exact Z2]. }
  clear - N1 N2 Dj. induction N1 as [|z l H N IH]; cbn [app]; [exact N2|]. constructor.
  - intros I. apply in_app_or in I. destruct I as [I|I]; [contradiction|]. exact (Dj z (or_introl eq_refl) I).
  - apply IH. intros w W. apply Dj. now right.
Qed.
Lemma of_divisor_head B d a f : In f (of_divisor B d a) -> fst (fst f) = a /\ Z.abs (snd (fst f)) = Z.abs B.
Proof.
  unfold of_divisor. destruct (_ && _); [|intros []]. intros [<-|I]; [cbn [fst snd]; auto|]. destruct (_ && _); [|destruct I]. destruct I as [<-|[]]. cbn [fst snd]. rewrite Z.abs_opp. auto.
Qed.
Lemma all_forms_nodup D : NoDup (all_forms D).
Proof.
  unfold all_forms. apply flat_map_nodup; [apply elements_nodup| |].
  - intros B _. unfold of_b. apply flat_map_nodup; [apply divisors_nodup| |].
    + intros a _. unfold of_divisor. destruct (_ && _); [|constructor]. destruct ((0 <? B * 2) && _ && _) eqn:E; [|repeat constructor; intros []]. rewrite !andb_true_iff, Z.ltb_lt in E.
      repeat constructor; [|intros []]. intros [X|[]]. assert (- B = B) by congruence. lia.
    + intros a b f _ _ F G. apply of_divisor_head in F, G. destruct F as [<- _], G as [<- _]. reflexivity.
  - intros B B' f I I' F G. apply in_elements in I, I'. unfold of_b in F, G. apply in_flat_map in F, G. destruct F as (a & _ & F), G as (a' & _ & G).
    apply of_divisor_head in F, G. lia.
Qed.

(** ** Theorems *)
(** Whenever the enumeration stays within its room it returns every reduced form exactly once, and
    nothing else. *)
Theorem C51_exact : forall D l, 0 < D -> group D = Ok l -> NoDup l /\ forall f, In f l <-> reduced D f.
Proof.
  intros D l HD H. rewrite group_fits in H. unfold fits in H. cbn [app length Nat.add] in H. destruct (_ <=? _); [|discriminate].
  assert (l = all_forms D) by congruence. subst l. split; [apply all_forms_nodup|]. intros f. now apply in_all_forms.
Qed.
Print Assumptions C51_exact.
(** It stays within its room exactly when there are at most 2 floor(sqrt(D/3)) reduced forms; otherwise it
    writes past the end of the vector. *)
Theorem C51_room : forall D, 0 < D -> exists forms, NoDup forms /\ (forall f, In f forms <-> reduced D f) /\
  group D = if Z.of_nat (length forms) <=? 2 * Z.sqrt (D / 3) then Ok forms else UB.
Proof.
  intros D HD. exists (all_forms D). split; [apply all_forms_nodup|]. split; [intros f; now apply in_all_forms|].
  rewrite group_fits. unfold fits, bound. cbn [app length Nat.add]. now rewrite (Z.mul_comm (Z.sqrt _) 2).
Qed.
Print Assumptions C51_room.
(** The room is not enough for D = 1, 2, 11, 26, 41, 59, 74, 89, 101, ... *)
Theorem C51_refuted : exists D, 0 < D /\ group D = UB.
Proof. exists 11. split; [lia|]. vm_compute. reflexivity. Qed.
Print Assumptions C51_refuted.
Example overflows : forallb (fun D => match group D with UB => true | _ => false end) [1; 2; 11; 26; 41; 59; 74; 89; 101] = true. Proof. vm_compute. reflexivity. Qed.
(** D = 71, the example of the test suite *)
Example forms_71 : group 71 = Ok [(1, 0, 71); (3, 1, 24); (3, -1, 24); (8, 1, 9); (8, -1, 9); (5, 2, 15); (5, -2, 15)]. Proof. vm_compute. reflexivity. Qed.

(** The integer parameters of the class invariant are defined for every reduced form, unless D is
    divisible by 4: no internal error is reached, and the division by 8 is exact. *)
Theorem C51_parameters : forall D f, 0 < D -> D mod 4 <> 0 -> reduced D f ->
  let '(A, B, C) := f in
  isOk (param_I D) /\ isOk (param_J f) /\ isOk (param_K D) /\ isOk (param_L D f) /\ isOk (param_N D f) /\
  (8 | (if A mod 2 =? 0 then C * C - 1 else A * A - 1)).
Proof.
  intros D [[A B] C] HD M (E & A0 & P & L1 & L2 & N).
  assert (M8 : m8 D <> 0 /\ m8 D <> 4 /\ 0 <= m8 D < 8).
  { unfold m8. pose proof (Z.mod_pos_bound D 8 ltac:(lia)). pose proof (Z.div_mod D 8 ltac:(lia)). split; [|split; [|lia]]; intros X; apply M; rewrite X in *.
    - replace D with (2 * (D / 8) * 4) by lia. apply Z.mod_mul. lia.
    - replace D with ((2 * (D / 8) + 1) * 4) by lia. apply Z.mod_mul. lia. }
  assert (O : A mod 2 = 0 -> C mod 2 = 1).
  { intros X. pose proof (Z.mod_pos_bound C 2 ltac:(lia)). destruct (Z.eq_dec (C mod 2) 0) as [Y|Y]; [exfalso|lia].
    apply Z.mod_divide in X, Y; [|lia..]. assert (D1 : (2 | 1)) by (apply P; [exact X|apply Z.divide_factor_l|exact Y]). apply Z.divide_1_r_nonneg in D1; lia. }
  assert (V : forall x, x mod 2 = 1 -> (8 | x * x - 1)).
  { intros x X. pose proof (Z.div_mod x 2 ltac:(lia)) as Q. rewrite X in Q. set (y := x / 2) in *. replace (x * x - 1) with (4 * (y * (y + 1))) by (rewrite Q; ring).
    assert (T : (2 | y * (y + 1))). { destruct (Z.Even_or_Odd y) as [[z ->]|[z ->]]; [exists (z * (2 * z + 1)); ring|exists ((2 * z + 1) * (z + 1)); ring]. }
    destruct T as [z ->]. exists z. ring. }
  pose proof (Z.mod_pos_bound A 2 ltac:(lia)) as A2. pose proof (Z.mod_pos_bound C 2 ltac:(lia)) as C2.
  assert (AC : (A * C) mod 2 = (A mod 2) * (C mod 2)). { rewrite Zmult_mod. assert (A mod 2 = 0 \/ A mod 2 = 1) as [->| ->] by lia; assert (C mod 2 = 0 \/ C mod 2 = 1) as [->| ->] by lia; reflexivity. }
  split; [|split; [|split; [|split; [|split]]]].
  - unfold param_I, isOk. destruct M8 as (U & W & X). assert (m8 D = 1 \/ m8 D = 2 \/ m8 D = 3 \/ m8 D = 5 \/ m8 D = 6 \/ m8 D = 7) as Y by lia. repeat (destruct Y as [->|Y]; [try (eexists; reflexivity); destruct (_ =? _); eexists; reflexivity|]). rewrite Y. eexists; reflexivity.
  - unfold param_J, isOk. rewrite AC. destruct (_ =? 1) eqn:Q; [eexists; reflexivity|]. destruct (C mod 2 =? 0) eqn:Y; [eexists; reflexivity|]. destruct (A mod 2 =? 0) eqn:Z0; [eexists; reflexivity|].
    exfalso. assert (X1 : A mod 2 = 1) by lia. assert (X2 : C mod 2 = 1) by lia. rewrite X1, X2 in Q. discriminate Q.
  - unfold param_K, isOk. destruct M8 as (U & W & X). assert (m8 D = 1 \/ m8 D = 2 \/ m8 D = 3 \/ m8 D = 5 \/ m8 D = 6 \/ m8 D = 7) as Y by lia. repeat (destruct Y as [->|Y]; [eexists; reflexivity|]). rewrite Y. eexists; reflexivity.
  - unfold param_L, isOk. rewrite AC. destruct (_ || _) eqn:Q; [eexists; reflexivity|]. destruct (A mod 2 =? 0) eqn:Z0; [destruct (_ =? 3); eexists; reflexivity|]. destruct (C mod 2 =? 0) eqn:Y; [eexists; reflexivity|].
    exfalso. assert (X1 : A mod 2 = 1) by lia. assert (X2 : C mod 2 = 1) by lia. rewrite X1, X2 in Q. discriminate Q.
  - unfold param_N, isOk. destruct M8 as (U & W & X). assert (m8 D = 1 \/ m8 D = 2 \/ m8 D = 3 \/ m8 D = 5 \/ m8 D = 6 \/ m8 D = 7) as Y by lia.
    repeat (destruct Y as [->|Y]; [try (eexists; reflexivity); destruct (_ =? 0); eexists; reflexivity|]). rewrite Y. destruct (_ =? 0); eexists; reflexivity.
  - destruct (Z.eqb_spec (A mod 2) 0) as [X|X]; apply V; [now apply O|lia].
Qed.
Print Assumptions C51_parameters.

(** ** The parameters of the standard *)
(** IEEE Std 1363-2000, A.14.4.1, for D > 0 not divisible by 4; the cases of a line exclude each other *)
Definition among (D : Z) (l : list Z) : Prop := In (D mod 8) l.
Definition std_I (D i : Z) : Prop :=
  (among D [1; 2; 6; 7] -> i = 3) /\ (among D [3] -> ~ (3 | D) -> i = 0) /\ (among D [3] -> (3 | D) -> i = 2) /\ (among D [5] -> i = 6).
Definition std_J (f : form) (j : Z) : Prop := let '(A, B, C) := f in
  (Z.Odd (A * C) -> j = 0) /\ (Z.Even C -> j = 1) /\ (Z.Even A -> j = 2).
Definition std_K (D k : Z) : Prop := (among D [1; 2; 6] -> k = 2) /\ (among D [3; 7] -> k = 1) /\ (among D [5] -> k = 4).
Definition std_L (D : Z) (f : form) (l : Z) : Prop := let '(A, B, C) := f in
  (Z.Odd (A * C) \/ (among D [5] /\ Z.Even C) -> l = A - C + A ^ 2 * C) /\
  (among D [1; 2; 3; 6; 7] -> Z.Even C -> l = A + 2 * C - A * C ^ 2) /\
  (among D [3] -> Z.Even A -> l = A - C + 5 * A * C ^ 2) /\
  (among D [1; 2; 5; 6; 7] -> Z.Even A -> l = A - C - A * C ^ 2).
(** [e] even: (-1)^e = 1 *)
Definition sign_is (e m : Z) : Prop := (Z.Even e -> m = 1) /\ (Z.Odd e -> m = -1).
Definition std_M (f : form) (m : Z) : Prop := let '(A, B, C) := f in
  (Z.Odd A -> forall e, 8 * e = A ^ 2 - 1 -> sign_is e m) /\ (Z.Even A -> forall e, 8 * e = C ^ 2 - 1 -> sign_is e m).
Definition std_N (D : Z) (f : form) (m n : Z) : Prop := let '(A, B, C) := f in
  (among D [5] \/ (among D [3] /\ Z.Odd (A * C)) \/ (among D [7] /\ Z.Even (A * C)) -> n = 1) /\
  (among D [1; 2; 6] \/ (among D [7] /\ Z.Odd (A * C)) -> n = m) /\
  (among D [3] /\ Z.Even (A * C) -> n = - m).

Lemma even_mod a : Z.Even a <-> a mod 2 = 0.
Proof. rewrite <- Z.even_spec, Zeven_mod. symmetry. apply Zeq_is_eq_bool. Qed.
Lemma odd_mod a : Z.Odd a <-> a mod 2 = 1.
Proof. rewrite <- Z.odd_spec, Zodd_mod. symmetry. apply Zeq_is_eq_bool. Qed.
Lemma mod2_mul a c : (a * c) mod 2 = (a mod 2) * (c mod 2).
Proof.
  rewrite Zmult_mod. pose proof (Z.mod_pos_bound a 2 ltac:(lia)). pose proof (Z.mod_pos_bound c 2 ltac:(lia)).
  assert (a mod 2 = 0 \/ a mod 2 = 1) as [->| ->] by lia; assert (c mod 2 = 0 \/ c mod 2 = 1) as [->| ->] by lia; reflexivity.
Qed.

(** Everything but K agrees with the standard, and K too unless D is 5 modulo 8. *)
Theorem C51_standard_partial : forall D f, 0 < D -> D mod 4 <> 0 -> reduced D f ->
  exists i j k l n, param_I D = Ok i /\ std_I D i /\ param_J f = Ok j /\ std_J f j /\
    param_K D = Ok k /\ (D mod 8 <> 5 -> std_K D k) /\ param_L D f = Ok l /\ std_L D f l /\
    std_M f (param_M f) /\ param_N D f = Ok n /\ std_N D f (param_M f) n.
Proof.
  intros D [[A B] C] HD M R. pose proof (C51_parameters D (A, B, C) HD M R) as H. cbn beta iota in H.
  destruct H as ((i & Hi) & (j & Hj) & (k & Hk) & (l & Hl) & (n & Hn) & H8).
  destruct R as (_ & _ & P & _).
  assert (NE : ~ (A mod 2 = 0 /\ C mod 2 = 0)).
  { intros (X & Y). apply Z.mod_divide in X, Y; [|lia..]. assert (D1 : (2 | 1)) by (apply P; [exact X|apply Z.divide_factor_l|exact Y]). apply Z.divide_1_r_nonneg in D1; lia. }
  pose proof (Z.mod_pos_bound A 2 ltac:(lia)) as A2. pose proof (Z.mod_pos_bound C 2 ltac:(lia)) as C2.
  exists i, j, k, l, n. split; [exact Hi|]. split.
  { unfold param_I in Hi. unfold std_I, among, m8 in *. cbn [In].
    destruct (D mod 8) as [|[[[|[]|]|[|[]|]|]|[[|[]|]|[|[]|]|]|]|] eqn:E; try discriminate Hi; try (injection Hi as <-; repeat split; intros; intuition lia).
    destruct (Z.eqb_spec (D mod 3) 0) as [X|X]; injection Hi as <-; (repeat split; try (intros; intuition lia)); intros _ Y; exfalso.
    - apply Y. now apply Z.mod_divide.
    - apply X. now apply Z.mod_divide. }
  split; [exact Hj|]. split.
  { unfold param_J in Hj. unfold std_J. rewrite odd_mod, !even_mod, mod2_mul in *.
    destruct (Z.eqb_spec (A mod 2 * (C mod 2)) 1) as [X|X]; [injection Hj as <-; split; [|split]; intros Y; try reflexivity; exfalso; rewrite Y in X; lia|].
    destruct (Z.eqb_spec (C mod 2) 0) as [Y|Y]; [injection Hj as <-; repeat split; intros; lia|].
    destruct (Z.eqb_spec (A mod 2) 0) as [Z0|Z0]; [injection Hj as <-; repeat split; intros; lia|]. discriminate Hj. }
  split; [exact Hk|]. split.
  { intros N5. unfold param_K, std_K, among, m8 in *. cbn [In].
    destruct (D mod 8) as [|[[[|[]|]|[|[]|]|]|[[|[]|]|[|[]|]|]|]|] eqn:E; try discriminate Hk; try congruence; injection Hk as <-; repeat split; intros; intuition lia. }
  split; [exact Hl|]. split.
  { assert (OI : forall a b : Z, Ok a = Ok b -> a = b) by congruence. unfold param_L in Hl. unfold std_L, among, m8 in *. rewrite odd_mod, !even_mod, mod2_mul in *. cbn [In].
    destruct (Z.eqb_spec (A mod 2 * (C mod 2)) 1) as [X|X]; cbn [orb] in Hl.
    - assert (A mod 2 = 1 /\ C mod 2 = 1) as (XA & XC) by nia. apply OI in Hl; subst l. repeat split; intros; try ring; lia.
    - destruct (Z.eqb_spec (D mod 8) 5) as [Y5|Y5]; cbn [andb] in Hl.
      + destruct (Z.eqb_spec (C mod 2) 0) as [Y|Y]; cbn [orb] in Hl.
        * apply OI in Hl; subst l. repeat split; intros; try ring; exfalso; intuition lia.
        * destruct (Z.eqb_spec (A mod 2) 0) as [Z0|Z0]; [|discriminate Hl]. rewrite Y5 in Hl. cbn in Hl. apply OI in Hl; subst l. repeat split; intros; try ring; exfalso; intuition lia.
      + destruct (Z.eqb_spec (A mod 2) 0) as [Z0|Z0].
        * destruct (Z.eqb_spec (D mod 8) 3) as [Y3|Y3]; apply OI in Hl; subst l; repeat split; intros; try ring; try (exfalso; intuition lia).
        * destruct (Z.eqb_spec (C mod 2) 0) as [Y|Y]; [|discriminate Hl]. apply OI in Hl; subst l. repeat split; intros; try ring; exfalso; intuition lia. }
  split.
  { unfold std_M, param_M, sign_is. rewrite odd_mod, even_mod. destruct H8 as [q H8].
    assert (Q : forall e x, 8 * e = x - 1 -> (x - 1) ÷ 8 = e) by (intros e x <-; rewrite Z.mul_comm; apply Z.quot_mul; lia).
    destruct (Z.eqb_spec (A mod 2) 0) as [X|X]; (split; intros Y e He; [|]; try lia); rewrite odd_mod, even_mod;
      (rewrite (Q e) by (rewrite He; ring)); (destruct (Z.eqb_spec (e mod 2) 0); split; intros; lia). }
  split; [exact Hn|].
  unfold param_N in Hn. unfold std_N, among, m8 in *. rewrite odd_mod, even_mod in *. cbn [In].
  pose proof (Z.mod_pos_bound (A * C) 2 ltac:(lia)) as AC2.
  destruct (D mod 8) as [|[[[|[]|]|[|[]|]|]|[[|[]|]|[|[]|]|]|]|] eqn:E; try discriminate Hn;
    try (destruct (Z.eqb_spec ((A * C) mod 2) 0) as [X|X]); injection Hn as <-; repeat split; intros; try reflexivity; intuition lia.
Qed.
Print Assumptions C51_standard_partial.
(** For D = 5 modulo 8 the code takes K = 5, the standard K = 4. (For D = 5 the invariant is then not the unit
    f^4 / 2 = (1 + sqrt 5) / 2, but f^5 / 2.) *)
Theorem C51_K_refuted : exists D f, 0 < D /\ D mod 4 <> 0 /\ reduced D f /\ exists k, param_K D = Ok k /\ ~ std_K D k.
Proof.
  exists 5, (1, 0, 5). split; [lia|]. split; [discriminate|]. split.
  { cbn. split; [lia|]. split; [lia|]. split; [intros g G _ _; exact G|]. lia. }
  exists 5. split; [reflexivity|]. intros (_ & _ & H). specialize (H (or_introl eq_refl)). discriminate H.
Qed.
Print Assumptions C51_K_refuted.
Example C51_standard_example : 0 < 71 /\ 71 mod 4 <> 0 /\ reduced 71 (3, -1, 24) /\ param_L 71 (3, -1, 24) = Ok (3 + 2 * 24 - 3 * 24 * 24).
Proof.
  split; [lia|]. split; [discriminate|]. split; [|reflexivity].
  apply (proj2 (C51_exact 71 _ ltac:(lia) forms_71)). cbn. auto.
Qed.
