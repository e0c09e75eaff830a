(** C41: the tables of binary field polynomials. *)
From Coq Require Import Sorting.Sorted.
From Verif Require Import Base Poly_Tables Poly_Model.
Local Open Scope Z_scope.

(** ** Specification *)
(** x^m + x^e1 + 1 and x^m + x^e1 + x^e2 + x^e3 + 1, with distinct exponents *)
Definition trinomial (p : polynomial) : Prop := 0 < p_e1 p < p_m p /\ p_e2 p = 0 /\ p_e3 p = 0.
Definition pentanomial (p : polynomial) : Prop :=
  0 < p_e1 p < p_m p /\ 0 < p_e2 p < p_m p /\ 0 < p_e3 p < p_m p /\
  p_e1 p <> p_e2 p /\ p_e1 p <> p_e3 p /\ p_e2 p <> p_e3 p.

(** ** bsearch *)
Section Bsearch.
  Context {A : Type} (cmp : A -> Z) (t : list A).

  Lemma bs_sound fuel : forall l u r, bs fuel cmp t l u = Ok (Some r) -> In r t /\ cmp r = 0.
  Proof.
    induction fuel as [|fuel IH]; intros l u r; cbn [bs]; [discriminate|].
    destruct (l <? u)%nat; [|discriminate]. destruct (nth_error t ((l + u) / 2)) as [x|] eqn:E; [|discriminate].
    destruct (Z.ltb_spec (cmp x) 0); [apply IH|]. destruct (Z.ltb_spec 0 (cmp x)); [apply IH|].
    intros [= <-]. split; [eapply nth_error_In; exact E|lia].
  Qed.

  (** it always ends, and looks only inside the table *)
  Lemma bs_total fuel : forall l u, (u - l < fuel)%nat -> (u <= length t)%nat -> exists r, bs fuel cmp t l u = Ok r.
  Proof.
    induction fuel as [|fuel IH]; intros l u Hf Hu; [lia|]. cbn [bs].
    destruct (Nat.ltb_spec l u) as [L|L]; [|eauto].
    assert (M : (l <= (l + u) / 2 < u)%nat) by (split; [apply Nat.div_le_lower_bound|apply Nat.div_lt_upper_bound]; lia).
    destruct (nth_error t ((l + u) / 2)) as [x|] eqn:E; [|apply nth_error_None in E; lia].
    destruct (cmp x <? 0); [apply IH; lia|]. destruct (0 <? cmp x); [apply IH; lia|eauto].
  Qed.

  Context (key : A -> Z) (k : Z).
  Context (Hlt : forall x, In x t -> (cmp x < 0 <-> k < key x)) (Hgt : forall x, In x t -> (0 < cmp x <-> key x < k)).
  Context (Hs : forall i j x y, (i < j)%nat -> nth_error t i = Some x -> nth_error t j = Some y -> key x < key y).

  Lemma bs_complete fuel : forall l u i x, nth_error t i = Some x -> key x = k -> (l <= i < u)%nat ->
    bs fuel cmp t l u = Ok None -> False.
  Proof.
    induction fuel as [|fuel IH]; intros l u i x E K L H; cbn [bs] in H; [discriminate|].
    replace (l <? u)%nat with true in H by lia.
    destruct (nth_error t ((l + u) / 2)) as [y|] eqn:Ey; [|discriminate].
    pose proof (Hlt y (nth_error_In _ _ Ey)) as A1. pose proof (Hgt y (nth_error_In _ _ Ey)) as A2.
    destruct (Z.ltb_spec (cmp y) 0).
    - apply (IH _ _ i x E K) in H; [exact H|]. split; [lia|].
      destruct (lt_eq_lt_dec i ((l + u) / 2)) as [[|C]|C]; [assumption| |].
      + rewrite <- C in Ey. rewrite E in Ey. injection Ey as <-. lia.
      + pose proof (Hs _ _ _ _ C Ey E). lia.
    - destruct (Z.ltb_spec 0 (cmp y)); [|discriminate].
      apply (IH _ _ i x E K) in H; [exact H|]. split; [|lia].
      destruct (lt_eq_lt_dec i ((l + u) / 2)) as [[C|C]|C]; [| |lia].
      + pose proof (Hs _ _ _ _ C E Ey). lia.
      + rewrite <- C in Ey. rewrite E in Ey. injection Ey as <-. lia.
  Qed.

  Lemma bsearch_found x : In x t -> key x = k -> exists y, bsearch cmp t = Ok (Some y) /\ In y t /\ key y = k.
  Proof.
    intros I K. destruct (In_nth_error _ _ I) as [i E].
    destruct (bs_total (S (length t)) 0 (length t)) as [r R]; [lia|lia|]. unfold bsearch. rewrite R.
    destruct r as [y|].
    - exists y. split; [reflexivity|]. destruct (bs_sound _ _ _ _ R) as [Iy C]. split; [exact Iy|].
      pose proof (Hlt y Iy). pose proof (Hgt y Iy). lia.
    - exfalso. apply (bs_complete _ _ _ i x E K) in R; [exact R|]. split; [lia|]. apply nth_error_Some. congruence.
  Qed.
End Bsearch.

Lemma bsearch_none {A} (cmp : A -> Z) t : (forall x, In x t -> cmp x <> 0) -> bsearch cmp t = Ok None.
Proof.
  intros H. unfold bsearch. destruct (bs_total cmp t (S (length t)) 0 (length t)) as [r R]; [lia|lia|]. rewrite R.
  destruct r as [y|]; [|reflexivity]. destruct (bs_sound _ _ _ _ _ _ R) as [I C]. destruct (H y I C).
Qed.

(** ** Checks of the tables *)
Fixpoint ascending (b : Z) (t : list polynomial) : bool :=
  match t with [] => true | p :: t => (b <? p_m p) && ascending (p_m p) t end.

Lemma ascending_lt t : forall b, ascending b t = true -> forall j y, nth_error t j = Some y -> b < p_m y.
Proof.
  induction t as [|p t IH]; intros b H j y E; [destruct j; discriminate|]. cbn [ascending] in H. apply andb_true_iff in H.
  destruct H as [H1 H2]. destruct j as [|j]; cbn in E; [injection E as <-; lia|]. pose proof (IH _ H2 j y E). lia.
Qed.
Lemma ascending_sorted t : forall b, ascending b t = true ->
  forall i j x y, (i < j)%nat -> nth_error t i = Some x -> nth_error t j = Some y -> p_m x < p_m y.
Proof.
  induction t as [|p t IH]; intros b H i j x y L Ei Ej; [destruct i; discriminate|]. cbn [ascending] in H. apply andb_true_iff in H.
  destruct H as [H1 H2]. destruct j as [|j]; [lia|]. cbn in Ej. destruct i as [|i]; cbn in Ei.
  - injection Ei as <-. apply (ascending_lt t _ H2 j y Ej).
  - apply (IH _ H2 i j x y); auto. lia.
Qed.

Definition tri_b (p : polynomial) : bool := (0 <? p_e1 p) && (p_e1 p <? p_m p) && (p_e2 p =? 0) && (p_e3 p =? 0) && (p_m p <? 10001).
Definition penta_b (p : polynomial) : bool :=
  (0 <? p_e1 p) && (p_e1 p <? p_m p) && (0 <? p_e2 p) && (p_e2 p <? p_m p) && (0 <? p_e3 p) && (p_e3 p <? p_m p) &&
  negb (p_e1 p =? p_e2 p) && negb (p_e1 p =? p_e3 p) && negb (p_e2 p =? p_e3 p) && (p_m p <? 10001).

Fixpoint zrange (lo : Z) (n : nat) : list Z := match n with O => [] | S n => lo :: zrange (lo + 1) n end.
Lemma in_zrange n : forall lo m, In m (zrange lo n) <-> lo <= m < lo + Z.of_nat n.
Proof.
  induction n as [|n IH]; intros lo m; cbn [zrange In]; [lia|]. rewrite IH. lia.
Qed.

(** the two sorted tables together have exactly these degrees *)
Fixpoint cover (ms : list Z) (a b : list polynomial) : bool :=
  match ms with
  | [] => match a, b with [], [] => true | _, _ => false end
  | m :: ms =>
      match a with
      | p :: a' => if p_m p =? m then cover ms a' b else
          match b with q :: b' => (p_m q =? m) && cover ms a b' | [] => false end
      | [] => match b with q :: b' => (p_m q =? m) && cover ms a b' | [] => false end
      end
  end.
Lemma cover_iff ms : forall a b, cover ms a b = true -> forall m, In m ms <-> exists p, (In p a \/ In p b) /\ p_m p = m.
Proof.
  induction ms as [|m0 ms IH]; intros a b H m; cbn [cover] in H.
  - destruct a, b; try discriminate. split; [intros []|]. intros (p & [[]|[]] & _).
  - assert (Step : forall a' b', cover ms a' b' = true -> (forall p, (In p a \/ In p b) <-> (In p a' \/ In p b') \/ (In p a \/ In p b) /\ p_m p = m0) ->
      (exists p, (In p a \/ In p b) /\ p_m p = m0) -> In m (m0 :: ms) <-> exists p, (In p a \/ In p b) /\ p_m p = m).
    { intros a' b' C S (p0 & I0 & E0). cbn [In]. rewrite (IH a' b' C m). split.
      - intros [<-|(p & I & E)]; [exists p0; auto|]. exists p. split; [apply S; now left|exact E].
      - intros (p & I & E). apply S in I. destruct I as [I|[I E']]; [right; eauto|left; congruence]. }
    destruct a as [|p a]; [destruct b as [|q b]; [discriminate|]|].
    + apply andb_true_iff in H. destruct H as [E H]. apply Z.eqb_eq in E. apply (Step _ _ H).
      * intros x. cbn [In]. split; [intros [[]|[->|I]]; [right; auto|auto]|tauto].
      * exists q. cbn [In]. auto.
    + destruct (Z.eqb_spec (p_m p) m0) as [E|N].
      * apply (Step _ _ H); [|exists p; cbn [In]; auto].
        intros x. cbn [In]. split; [intros [[->|I]|I]; [right; auto|auto|auto]|tauto].
      * destruct b as [|q b]; [discriminate|]. apply andb_true_iff in H. destruct H as [E H]. apply Z.eqb_eq in E.
        apply (Step _ _ H); [|exists q; cbn [In]; auto].
        intros x. cbn [In]. split; [intros [[->|I]|[->|I]]; [auto|auto|right; auto|auto]|tauto].
Qed.

Definition hp_degrees : list Z := zrange 2 158 ++ zrange 2001 (Z.to_nat 8000).
Definition ansi_degrees : list Z := zrange 160 900 ++ zrange 1061 940.

Lemma hp_cover : cover hp_degrees hp_trinomials hp_pentanomials = true.
Proof. vm_compute. reflexivity. Qed.
Lemma ansi_cover : cover ansi_degrees ansi_trinomials ansi_pentanomials = true.
Proof. vm_compute. reflexivity. Qed.
Lemma hp_tri_ok : (ascending 0 hp_trinomials && forallb tri_b hp_trinomials)%bool = true.
Proof. vm_compute. reflexivity. Qed.
Lemma hp_penta_ok : (ascending 0 hp_pentanomials && forallb penta_b hp_pentanomials)%bool = true.
Proof. vm_compute. reflexivity. Qed.
Lemma ansi_tri_ok : (ascending 0 ansi_trinomials && forallb tri_b ansi_trinomials)%bool = true.
Proof. vm_compute. reflexivity. Qed.
Lemma ansi_penta_ok : (ascending 0 ansi_pentanomials && forallb penta_b ansi_pentanomials)%bool = true.
Proof. vm_compute. reflexivity. Qed.

Definition small (p : polynomial) : Prop := 0 < p_m p < 10001.
Lemma tri_b_ok p : tri_b p = true -> trinomial p /\ small p.
Proof. unfold tri_b, trinomial, small. lia. Qed.
Lemma penta_b_ok p : penta_b p = true -> pentanomial p /\ small p.
Proof. unfold penta_b, pentanomial, small. lia. Qed.

Lemma compare_small m p : 0 <= m < 2 ^ 31 -> 0 <= p_m p < 2 ^ 31 -> compare_poly (u32 m) p = m - p_m p.
Proof.
  intros Hm Hp. unfold compare_poly, u32, int_of_uint. rewrite (Z.mod_small m) by lia.
  destruct (Z.lt_ge_cases m (p_m p)).
  - replace ((m - p_m p) mod 2 ^ 32) with (m - p_m p + 2 ^ 32).
    + replace (m - p_m p + 2 ^ 32 + 2 ^ 31) with (m - p_m p + 2 ^ 31 + 1 * 2 ^ 32) by ring. rewrite Z.mod_add, Z.mod_small by lia. lia.
    + symmetry. rewrite <- (Z.mod_add _ 1) by lia. rewrite Z.mod_small by lia. ring.
  - rewrite (Z.mod_small (m - p_m p)) by lia. rewrite Z.mod_small by lia. lia.
Qed.

Lemma table_search t m : ascending 0 t = true -> (forall p, In p t -> small p) -> 0 <= m < 2 ^ 31 ->
  (exists p, In p t /\ p_m p = m /\ bsearch (compare_poly (u32 m)) t = Ok (Some p)) \/
  ((forall p, In p t -> p_m p <> m) /\ bsearch (compare_poly (u32 m)) t = Ok None).
Proof.
  intros S B Hm.
  assert (C : forall p, In p t -> compare_poly (u32 m) p = m - p_m p).
  { intros p I. apply compare_small; [exact Hm|]. apply B in I. unfold small in I. lia. }
  destruct (existsb (fun p => p_m p =? m) t) eqn:E.
  - left. apply existsb_exists in E. destruct E as (p & I & E). apply Z.eqb_eq in E.
    destruct (bsearch_found (compare_poly (u32 m)) t p_m m) with (x := p) as (y & R & Iy & Ky); auto.
    + intros x Ix. rewrite (C x Ix). lia.
    + intros x Ix. rewrite (C x Ix). lia.
    + apply (ascending_sorted t 0 S).
    + exists y. auto.
  - right. assert (N : forall p, In p t -> p_m p <> m).
    { intros p I Ep. assert (X : existsb (fun p => p_m p =? m) t = true) by (apply existsb_exists; exists p; split; [exact I|lia]). congruence. }
    split; [exact N|]. apply bsearch_none. intros p I. rewrite (C p I). specialize (N p I). lia.
Qed.

Lemma find_in tri penta ms m : (ascending 0 tri && forallb tri_b tri)%bool = true -> (ascending 0 penta && forallb penta_b penta)%bool = true ->
  cover ms tri penta = true -> 0 <= m < 2 ^ 31 ->
  (In m ms /\ exists p, (do r <- bsearch (compare_poly (u32 m)) tri; match r with Some p => Ok (Some p) | None => bsearch (compare_poly (u32 m)) penta end)
      = Ok (Some p) /\ p_m p = m /\ (trinomial p \/ pentanomial p)) \/
  (~ In m ms /\ (do r <- bsearch (compare_poly (u32 m)) tri; match r with Some p => Ok (Some p) | None => bsearch (compare_poly (u32 m)) penta end) = Ok None).
Proof.
  intros T Q C Hm. apply andb_true_iff in T, Q. destruct T as [T1 T2], Q as [Q1 Q2].
  rewrite forallb_forall in T2, Q2.
  assert (Bt : forall p, In p tri -> trinomial p /\ small p) by (intros p I; apply tri_b_ok, T2, I).
  assert (Bq : forall p, In p penta -> pentanomial p /\ small p) by (intros p I; apply penta_b_ok, Q2, I).
  pose proof (cover_iff ms tri penta C m) as M.
  destruct (table_search tri m T1 (fun p I => proj2 (Bt p I)) Hm) as [(p & I & E & R)|[N R]]; rewrite R; cbn [bind].
  - left. split; [apply M; eauto|]. exists p. split; [reflexivity|]. split; [exact E|]. left. apply Bt, I.
  - destruct (table_search penta m Q1 (fun p I => proj2 (Bq p I)) Hm) as [(p & I & E & R')|[N' R']]; rewrite R'.
    + left. split; [apply M; eauto|]. exists p. split; [reflexivity|]. split; [exact E|]. right. apply Bq, I.
    + right. split; [|reflexivity]. intros I. apply M in I. destruct I as (p & [I|I] & E); [apply (N p I E)|apply (N' p I E)].
Qed.

(** ** C41 *)
(** Full statement: as below for every degree from 2 to 10000.
    Missing: degree 1060, where it is false, see [C41_refuted]. *)
Theorem C41_found_partial m : 2 <= m <= 10000 -> m <> 1060 ->
  exists p, poly_find m = Ok (Some p) /\ p_m p = m /\ (trinomial p \/ pentanomial p).
Proof.
  intros Hm N. unfold poly_find, poly_exists. replace ((2 <=? m) && (m <=? 10000)) with true by lia.
  destruct ((m <? 160) || (2000 <? m)) eqn:S.
  - destruct (find_in _ _ _ m hp_tri_ok hp_penta_ok hp_cover) as [[_ H]|[H _]]; [lia|exact H|].
    exfalso. apply H. unfold hp_degrees. apply in_app_iff. rewrite !in_zrange. lia.
  - destruct (find_in _ _ _ m ansi_tri_ok ansi_penta_ok ansi_cover) as [[_ H]|[H _]]; [lia|exact H|].
    exfalso. apply H. unfold ansi_degrees. apply in_app_iff. rewrite !in_zrange. lia.
Qed.

Theorem C41_none m : 0 <= m < 2 -> poly_find m = Ok None /\ field_binaryr m = Abort.
Proof. intros H. unfold field_binaryr, poly_find, poly_exists. replace ((2 <=? m) && (m <=? 10000)) with false by lia. auto. Qed.
Theorem C41_none_above m : 10000 < m -> poly_find m = Ok None /\ field_binaryr m = Abort.
Proof. intros H. unfold field_binaryr, poly_find, poly_exists. replace ((2 <=? m) && (m <=? 10000)) with false by lia. auto. Qed.

(** Degree 1060 is said to exist, but it is in neither table, and a random binary field of 1060 bits
    dereferences NULL. *)
Theorem C41_refuted : exists m, 2 <= m <= 10000 /\ poly_exists m = true /\ poly_find m = Ok None /\ field_binaryr m = UB.
Proof.
  exists 1060. assert (F : poly_find 1060 = Ok None).
  { unfold poly_find. cbn [poly_exists Z.leb Z.ltb Z.compare Pos.compare Pos.compare_cont andb orb].
    destruct (find_in _ _ _ 1060 ansi_tri_ok ansi_penta_ok ansi_cover) as [[H _]|[_ H]]; [lia| |exact H].
    exfalso. unfold ansi_degrees in H. apply in_app_iff in H. rewrite !in_zrange in H. lia. }
  split; [lia|]. split; [reflexivity|]. split; [exact F|].
  unfold field_binaryr, poly_find_gen. rewrite F. reflexivity.
Qed.

(** The polynomial made has degree m and exactly the coefficients of the entry. *)
Theorem C41_coefficients p : trinomial p \/ pentanomial p ->
  exists v, poly_gen p = Ok v /\ length v = Z.to_nat (p_m p + 1) /\
    forall i, 0 <= i -> nth (Z.to_nat i) v 0 =
      if (i =? p_m p) || (i =? p_e1 p) || (i =? p_e2 p) || (i =? p_e3 p) || (i =? 0) then 1 else 0.
Proof.
  intros H.
  assert (B : 0 < p_m p /\ 0 <= p_e1 p < p_m p /\ 0 <= p_e2 p < p_m p /\ 0 <= p_e3 p < p_m p)
    by (unfold trinomial, pentanomial in H; lia).
  clear H. destruct B as (Bm & B1 & B2 & B3). unfold poly_gen.
  rewrite wr_ok by (rewrite repeat_length; lia). cbn [bind].
  rewrite wr_ok by (rewrite upd_length, repeat_length; lia). cbn [bind].
  rewrite wr_ok by (rewrite !upd_length, repeat_length; lia). cbn [bind].
  rewrite wr_ok by (rewrite !upd_length, repeat_length; lia). cbn [bind].
  rewrite wr_ok by (rewrite !upd_length, repeat_length; lia).
  eexists. split; [reflexivity|]. split; [rewrite !upd_length, repeat_length; reflexivity|].
  intros i Hi. rewrite !(upd_nth 0) by (rewrite ?upd_length, repeat_length; lia).
  assert (R : nth (Z.to_nat i) (repeat 0 (Z.to_nat (p_m p + 1))) 0 = 0) by (destruct (nth_in_or_default (Z.to_nat i) (repeat 0 (Z.to_nat (p_m p + 1))) 0) as [I|E]; [apply repeat_spec in I; exact I|exact E]).
  rewrite R. clear R.
  assert (Q : forall k, 0 <= k -> (Z.to_nat i =? Z.to_nat k)%nat = (i =? k)).
  { intros k Hk. destruct (Z.eqb_spec i k) as [->|N]; [apply Nat.eqb_refl|]. apply Nat.eqb_neq. lia. }
  change 0%nat with (Z.to_nat 0) at 1. rewrite !Q by lia.
  destruct (i =? p_m p), (i =? p_e1 p), (i =? p_e2 p), (i =? p_e3 p), (i =? 0); reflexivity.
Qed.

Example C41_ex233 : poly_find 233 = Ok (Some (P 233 74 0 0)) /\ trinomial (P 233 74 0 0).
Proof. split; [vm_compute; reflexivity|unfold trinomial; cbn; lia]. Qed.
Example C41_ex163 : poly_find 163 = Ok (Some (P 163 1 2 8)) /\ pentanomial (P 163 1 2 8).
Proof. split; [vm_compute; reflexivity|unfold pentanomial; cbn; lia]. Qed.
Example C41_ex8 : field_binaryr 8 = Ok [1; 1; 0; 1; 1; 0; 0; 0; 1].
Proof. vm_compute. reflexivity. Qed.

Print Assumptions C41_found_partial.
Print Assumptions C41_none.
Print Assumptions C41_none_above.
Print Assumptions C41_refuted.
Print Assumptions C41_coefficients.
