(** C43: field elements as integers, and the parameters of a binary field. *)
From Coq Require Import Sorting.Sorted Sorting.Permutation.
From Verif Require Import Base Poly_Tables Poly_Model Poly_Props.
Local Open Scope Z_scope.

(** ** Specification *)
(** an element of the field as PARI holds it *)
Definition element_of (f : field) (e : element) : Prop :=
  match f, e with
  | Prime p, Mod z q => q = p /\ 0 <= z < p
  | Binary poly, FF c =>
      (length c < length poly)%nat /\ Forall (fun d => d = 0 \/ d = 1) c /\ (c <> [] -> last c 0 = 1)
  | _, _ => False
  end.
Definition field_size (f : field) : Z := match f with Prime p => p | Binary poly => 2 ^ (Z.of_nat (length poly) - 1) end.
(** the integer that stands for a polynomial: its value at 2 *)
Fixpoint value2 (c : list Z) : Z := match c with [] => 0 | d :: c => d + 2 * value2 c end.

(** ** Proofs *)
Lemma fromdigits_rev c : fromdigits2 (rev c) = value2 c.
Proof.
  unfold fromdigits2. rewrite <- fold_left_rev_right, rev_involutive. induction c as [|d c IH]; cbn [fold_right value2]; [reflexivity|].
  rewrite IH. ring.
Qed.

(** digits of a positive number, least significant first *)
Fixpoint low_digits (p : positive) : list Z :=
  match p with xH => [1] | xO p => 0 :: low_digits p | xI p => 1 :: low_digits p end.
Lemma pos_digits_low p : forall acc, pos_digits p acc = rev (low_digits p) ++ acc.
Proof. induction p as [p IH|p IH|]; intros acc; cbn [pos_digits low_digits rev]; rewrite ?IH, <- ?app_assoc; reflexivity. Qed.
Lemma low_last p : last (low_digits p) 0 = 1.
Proof. induction p as [p IH|p IH|]; cbn [low_digits]; [| |reflexivity]; destruct (low_digits p); cbn in *; try lia; exact IH. Qed.
Lemma low_ne p : low_digits p <> [].
Proof. destruct p; discriminate. Qed.
Lemma low_value p : value2 (low_digits p) = Zpos p.
Proof. induction p as [p IH|p IH|]; cbn [low_digits value2]; rewrite ?IH; lia. Qed.
Lemma low_bits p : Forall (fun d => d = 0 \/ d = 1) (low_digits p).
Proof. induction p; cbn [low_digits]; constructor; auto. Qed.

Lemma drop_zeros_head c : c <> [] -> last c 0 = 1 -> drop_zeros (rev c) = rev c.
Proof.
  intros N L. destruct (rev c) as [|x r] eqn:E; [reflexivity|].
  assert (X : last c 0 = x).
  { rewrite <- (rev_involutive c), E. cbn [rev]. apply last_last. }
  cbn [drop_zeros]. replace (x =? 0) with false by lia. reflexivity.
Qed.

Definition coeffs (i : Z) : list Z := match i with Zpos p | Zneg p => low_digits p | Z0 => [] end.
Lemma ielement_binary poly i : field_ielement (Binary poly) i = FF (coeffs i).
Proof.
  cbn [field_ielement]. f_equal. unfold gtopoly, digits2, coeffs. destruct i as [|p|p]; [reflexivity| |];
  rewrite pos_digits_low, app_nil_r, drop_zeros_head by (try apply low_ne; apply low_last); apply rev_involutive.
Qed.

Lemma value2_bounds c : Forall (fun d => d = 0 \/ d = 1) c -> 0 <= value2 c < 2 ^ Z.of_nat (length c).
Proof.
  induction 1 as [|d c H F IH]; cbn [value2 length]; [lia|]. rewrite Nat2Z.inj_succ, Z.pow_succ_r by lia. lia.
Qed.
Lemma value2_lower c : Forall (fun d => d = 0 \/ d = 1) c -> c <> [] -> last c 0 = 1 -> 2 ^ (Z.of_nat (length c) - 1) <= value2 c.
Proof.
  induction 1 as [|d c H F IH]; intros N L; [congruence|]. destruct c as [|d' c]; [cbn in L |- *; lia|].
  change (last (d :: d' :: c) 0) with (last (d' :: c) 0) in L. specialize (IH ltac:(discriminate) L).
  cbn [value2] in *. cbn [length] in *. rewrite !Nat2Z.inj_succ in *.
  replace (Z.succ (Z.succ (Z.of_nat (length c))) - 1) with (Z.succ (Z.succ (Z.of_nat (length c)) - 1)) by lia.
  rewrite Z.pow_succ_r by lia. lia.
Qed.

(** canonical digit lists are determined by their value *)
Lemma coeffs_value c : Forall (fun d => d = 0 \/ d = 1) c -> (c <> [] -> last c 0 = 1) -> coeffs (value2 c) = c.
Proof.
  induction 1 as [|d c H F IH]; intros L; [reflexivity|].
  assert (L' : c <> [] -> last c 0 = 1).
  { intros N. specialize (L ltac:(discriminate)). destruct c; [congruence|exact L]. }
  specialize (IH L'). pose proof (value2_bounds c F) as B.
  destruct c as [|d' c].
  - specialize (L ltac:(discriminate)). cbn in L. subst d. reflexivity.
  - pose proof (value2_lower (d' :: c) F ltac:(discriminate) (L' ltac:(discriminate))) as Lo.
    assert (P0 : 0 < 2 ^ (Z.of_nat (length (d' :: c)) - 1)) by (apply Z.pow_pos_nonneg; cbn [length]; lia).
    change (value2 (d :: d' :: c)) with (d + 2 * value2 (d' :: c)).
    destruct (value2 (d' :: c)) as [|p|p] eqn:E; try lia. cbn [coeffs] in IH.
    destruct H as [-> | ->]; [change (0 + 2 * Zpos p) with (Zpos (xO p))|change (1 + 2 * Zpos p) with (Zpos (xI p))]; cbn [coeffs low_digits]; now rewrite IH.
Qed.

(** ** C43 *)
Definition good_field (f : field) : Prop :=
  match f with Prime p => 0 < p | Binary poly => poly <> [] end.

(** integer -> element -> integer *)
Theorem C43_integer f i : good_field f -> 0 <= i < field_size f ->
  element_of f (field_ielement f i) /\ field_elementi (field_ielement f i) = i.
Proof.
  intros G H. destruct f as [p|poly]; cbn [field_size good_field] in *.
  - cbn [field_ielement element_of field_elementi]. rewrite Z.mod_small by lia. auto.
  - rewrite ielement_binary. cbn [element_of field_elementi].
    assert (V : value2 (coeffs i) = i) by (destruct i as [|p|p]; cbn [coeffs]; [reflexivity|apply low_value|lia]).
    assert (Bs : Forall (fun d => d = 0 \/ d = 1) (coeffs i)) by (destruct i; cbn [coeffs]; auto; apply low_bits).
    assert (La : coeffs i <> [] -> last (coeffs i) 0 = 1) by (destruct i; cbn [coeffs]; intros N; try congruence; apply low_last).
    split; [split; [|split; assumption]|].
    + destruct (coeffs i) as [|d c] eqn:E; [destruct poly; [congruence|simpl; lia]|].
      pose proof (value2_lower (d :: c) Bs ltac:(discriminate) (La ltac:(discriminate))) as Lo. rewrite V in Lo.
      assert (X : 2 ^ (Z.of_nat (length (d :: c)) - 1) < 2 ^ (Z.of_nat (length poly) - 1)) by lia.
      apply Z.pow_lt_mono_r_iff in X; [lia|lia|]. destruct poly; [congruence|simpl length; lia].
    + unfold gtovec. rewrite fromdigits_rev. exact V.
Qed.

(** element -> integer -> element *)
Theorem C43_element f e : good_field f -> element_of f e ->
  0 <= field_elementi e < field_size f /\ field_ielement f (field_elementi e) = e.
Proof.
  intros G H. destruct f as [p|poly], e as [z|z q|c]; cbn [element_of] in H; try contradiction; cbn [field_elementi field_size good_field] in *.
  - destruct H as [-> H]. split; [lia|]. cbn [field_ielement]. rewrite Z.mod_small by lia. reflexivity.
  - destruct H as (L & F & La). unfold gtovec. rewrite fromdigits_rev. split.
    + pose proof (value2_bounds c F) as B. split; [lia|]. eapply Z.lt_le_trans; [apply B|]. apply Z.pow_le_mono_r; lia.
    + rewrite ielement_binary, coeffs_value by assumption. reflexivity.
Qed.

Example C43_ex : element_of (Binary [1; 1; 0; 1; 1; 0; 0; 0; 1]) (FF [0; 1; 1]) /\
  field_ielement (Binary [1; 1; 0; 1; 1; 0; 0; 0; 1]) 6 = FF [0; 1; 1] /\ field_size (Binary [1; 1; 0; 1; 1; 0; 0; 0; 1]) = 256.
Proof. split; [|split; reflexivity]. cbn. split; [lia|]. split; [|reflexivity]. apply Forall_cons; [auto|]. apply Forall_cons; [auto|]. apply Forall_cons; auto. Qed.

(** ** The parameters *)
Definition nonzero (poly : list Z) (i : nat) : bool := negb (nth i poly 0 =? 0).
Fixpoint down (k : nat) : list nat := match k with O => [] | S k' => k :: down k' end.

Lemma params_ok poly k : forall j pre, (j + length (filter (nonzero poly) (down k)) <= 4)%nat -> length pre = j ->
  params_loop poly k j (pre ++ repeat 0 (4 - j)) =
  Ok (pre ++ map Z.of_nat (filter (nonzero poly) (down k)) ++ repeat 0 (4 - j - length (filter (nonzero poly) (down k)))).
Proof.
  induction k as [|k IH]; intros j pre L Ej.
  - cbn. rewrite Nat.sub_0_r. reflexivity.
  - cbn [params_loop]. change (down (S k)) with (S k :: down k) in *. cbn [filter] in *.
    assert (N : nonzero poly (S k) = negb (nth (S k) poly 0 =? 0)) by reflexivity. rewrite N in *.
    destruct (nth (S k) poly 0 =? 0); cbn [negb] in *; [apply IH; assumption|].
    cbn [length map] in *. rewrite wr_ok by (rewrite app_length, repeat_length; lia). cbn [bind].
    replace (4 - j)%nat with (S (4 - S j)) by lia. cbn [repeat].
    assert (U : upd (pre ++ 0 :: repeat 0 (4 - S j)) j (Z.of_nat (S k)) = (pre ++ [Z.of_nat (S k)]) ++ repeat 0 (4 - S j)).
    { subst j. clear. rewrite <- app_assoc. cbn [app]. generalize (repeat 0 (4 - S (length pre))). intros r.
      induction pre as [|x pre IH]; [reflexivity|]. cbn [app length upd]. now rewrite IH. }
    rewrite U, (IH (S j)) by (rewrite ?app_length; cbn; lia).
    rewrite <- app_assoc. cbn [app]. reflexivity.
Qed.

Lemma down_in k i : In i (down k) <-> (0 < i <= k)%nat.
Proof. induction k as [|k IH]; cbn [down In]; [lia|]. rewrite IH. lia. Qed.
Lemma down_sorted k : StronglySorted gt (down k).
Proof.
  induction k as [|k IH]; [constructor|]. cbn [down]. constructor; [exact IH|]. apply Forall_forall. intros x I. apply down_in in I. lia.
Qed.
Lemma filter_sorted {A} (R : A -> A -> Prop) f l : StronglySorted R l -> StronglySorted R (filter f l).
Proof.
  induction 1 as [|x l S IH F]; cbn [filter]; [constructor|]. destruct (f x); [|exact IH]. constructor; [exact IH|].
  apply Forall_forall. intros y I. apply filter_In in I. rewrite Forall_forall in F. apply F, I.
Qed.
Lemma sorted_nodup l : StronglySorted gt l -> NoDup l.
Proof.
  induction 1 as [|x l S IH F]; constructor; [|exact IH]. intros I. rewrite Forall_forall in F. specialize (F x I). lia.
Qed.

(** For a trinomial or pentanomial the four numbers reported are its exponents in decreasing order
    (0 for those a trinomial does not have). *)
Theorem C43_params p v : trinomial p \/ pentanomial p -> poly_gen p = Ok v ->
  exists out, field_params (Binary v) = Ok out /\ length out = 4%nat /\
    Permutation out [p_m p; p_e1 p; p_e2 p; p_e3 p] /\ StronglySorted Z.ge out.
Proof.
  intros H E. destruct (C41_coefficients p H) as (v' & E' & L & C). rewrite E in E'. injection E' as <-.
  cbn [field_params]. set (k := (length v - 1)%nat).
  assert (B : 0 < p_m p /\ 0 < p_e1 p < p_m p /\ 0 <= p_e2 p < p_m p /\ 0 <= p_e3 p < p_m p)
    by (unfold trinomial, pentanomial in H; lia).
  assert (Kk : k = Z.to_nat (p_m p)) by (unfold k; rewrite L; lia).
  set (fl := filter (nonzero v) (down k)).
  assert (Mem : forall i, In i fl <-> Z.of_nat i = p_m p \/ Z.of_nat i = p_e1 p \/ (0 < Z.of_nat i /\ Z.of_nat i = p_e2 p) \/ (0 < Z.of_nat i /\ Z.of_nat i = p_e3 p)).
  { intros i. unfold fl. rewrite filter_In, down_in. unfold nonzero.
    specialize (C (Z.of_nat i) ltac:(lia)). rewrite Nat2Z.id in C. rewrite C.
    destruct (Z.eqb_spec (Z.of_nat i) (p_m p)), (Z.eqb_spec (Z.of_nat i) (p_e1 p)), (Z.eqb_spec (Z.of_nat i) (p_e2 p)), (Z.eqb_spec (Z.of_nat i) (p_e3 p)),
      (Z.eqb_spec (Z.of_nat i) 0); cbn [orb Z.eqb negb]; lia. }
  assert (So : StronglySorted gt fl) by (apply filter_sorted, down_sorted).
  pose proof (sorted_nodup _ So) as Nd.
  set (ex := map Z.to_nat ([p_m p; p_e1 p] ++ filter (fun e => 0 <? e) [p_e2 p; p_e3 p])).
  assert (Pe : Permutation fl ex).
  { apply NoDup_Permutation; [exact Nd| |].
    - unfold ex. cbn [app filter].
      destruct H as [(H1 & H2 & H3)|(H1 & H2 & H3 & H4 & H5 & H6)].
      + rewrite H2, H3. cbn. repeat constructor; cbn [In]; try tauto. intros [X|[]]. lia.
      + replace (0 <? p_e2 p) with true by lia. replace (0 <? p_e3 p) with true by lia. cbn.
        repeat constructor; cbn [In]; lia.
    - intros i. rewrite Mem. unfold ex. rewrite in_map_iff. split.
      + intros [X|[X|[X|X]]].
        * exists (p_m p). split; [lia|]. now left.
        * exists (p_e1 p). split; [lia|]. right; now left.
        * exists (p_e2 p). split; [lia|]. right; right. apply filter_In. split; [now left|lia].
        * exists (p_e3 p). split; [lia|]. right; right. apply filter_In. split; [right; now left|lia].
      + intros (x & X & [<-|[<-|I]]); [lia|lia|]. apply filter_In in I. destruct I as [[<-|[<-|[]]] Hx]; lia. }
  assert (Ln : (length fl <= 4)%nat).
  { rewrite (Permutation_length Pe). unfold ex. rewrite map_length, app_length. cbn [filter]. destruct (0 <? p_e2 p), (0 <? p_e3 p); cbn; lia. }
  change [0; 0; 0; 0] with ([] ++ repeat 0 (4 - 0)).
  rewrite params_ok by (cbn [length]; fold fl; auto; lia). fold fl. cbn [app].
  eexists. split; [reflexivity|]. split; [rewrite app_length, map_length, repeat_length; lia|]. split.
  - transitivity (map Z.of_nat ex ++ repeat 0 (4 - 0 - length fl)); [apply Permutation_app_tail, Permutation_map, Pe|].
    rewrite (Permutation_length Pe). unfold ex. rewrite map_map.
    assert (Id : forall l, Forall (fun x => 0 <= x) l -> map (fun x => Z.of_nat (Z.to_nat x)) l = l).
    { induction 1 as [|x l X F IH]; cbn [map]; [reflexivity|]. rewrite IH. f_equal. lia. }
    rewrite Id by (apply Forall_app; split; [repeat constructor; lia|]; apply Forall_forall; intros x I; apply filter_In in I; lia).
    rewrite map_length, app_length. cbn [filter].
    destruct (Z.ltb_spec 0 (p_e2 p)), (Z.ltb_spec 0 (p_e3 p)); cbn [length app Nat.add Nat.sub repeat].
    + apply Permutation_refl.
    + replace (p_e3 p) with 0 by lia. apply Permutation_refl.
    + replace (p_e2 p) with 0 by lia. do 2 apply perm_skip. apply perm_swap.
    + replace (p_e2 p) with 0 by lia. replace (p_e3 p) with 0 by lia. apply Permutation_refl.
  - assert (G0 : Forall (fun i => (0 < i)%nat) fl) by (apply Forall_forall; intros i I; apply filter_In in I; destruct I as [I _]; apply down_in in I; lia).
    clear - So G0. generalize (4 - 0 - length fl)%nat. intros r.
    assert (R0 : StronglySorted Z.ge (repeat 0 r)).
    { induction r; cbn; constructor; auto. apply Forall_forall. intros x I. apply repeat_spec in I. lia. }
    induction So as [|x l S IH F]; cbn [map app]; [exact R0|]. inversion G0; subst. constructor; [auto|].
    apply Forall_app. split.
    + apply Forall_forall. intros y I. apply in_map_iff in I. destruct I as (z & <- & I). rewrite Forall_forall in F. specialize (F z I). lia.
    + apply Forall_forall. intros y I. apply repeat_spec in I. lia.
Qed.

Example C43_params_ex : exists v, poly_gen (P 163 1 2 8) = Ok v /\ field_params (Binary v) = Ok [163; 8; 2; 1].
Proof. eexists. split; [vm_compute; reflexivity|vm_compute; reflexivity]. Qed.

(** a prime field has its prime *)
Theorem C43_params_prime p : field_params (Prime p) = Ok [p].
Proof. reflexivity. Qed.

Print Assumptions C43_integer.
Print Assumptions C43_element.
Print Assumptions C43_params.
