(** C50: the discriminants accepted for a prime order are right; every subset of the current list of primes from
    the current position on is tried, but when the list grows the subsets that avoid its first elements are
    passed over. *)
From Coq Require Import Znumtheory.
From Verif Require Import Base Primes Bits_Model Bits_Spec Bits_Ops CmPrime_Model.
Local Open Scope Z_scope.

(** ** Specification: subsets of a list, given by a mask *)
Fixpoint select (mask : list bool) (l : list Z) : list Z :=
  match mask, l with
  | true :: m, x :: l => x :: select m l
  | false :: m, _ :: l => select m l
  | _, _ => []
  end.
Definition product (l : list Z) : Z := fold_right Z.mul 1 l.

(** ** The candidates *)
Lemma product_snoc l x : product (l ++ [x]) = product l * x.
Proof. induction l as [|y l IH]; cbn [app product fold_right]; [ring|]. fold (product (l ++ [x])). rewrite IH. fold (product l). ring. Qed.
Lemma select_snoc m b l x : length m = length l ->
  select (m ++ [b]) (l ++ [x]) = select m l ++ (if b then [x] else []).
Proof.
  revert l; induction m as [|c m IH]; intros [|y l] L; try discriminate L; cbn [app select].
  - destruct b; reflexivity.
  - cbn in L. destruct c; rewrite IH by lia; reflexivity.
Qed.
Lemma firstn_S {A} (d : A) l j : (j < length l)%nat -> firstn (S j) l = firstn j l ++ [nth j l d].
Proof.
  revert l; induction j as [|j IH]; intros [|x l] H; cbn in H; try lia; [reflexivity|].
  cbn [firstn nth app]. rewrite <- IH by lia. reflexivity.
Qed.
Lemma pprod_ok Sp i : 0 <= i < imax Sp -> exists mask,
  length mask = length Sp /\ bval mask = i /\ pprod Sp i = Ok (product (select mask Sp)).
Proof.
  intros H. unfold imax in H. destruct (from_i_len_fits i (length Sp)) as (L & V); [lia|].
  rewrite Z.abs_eq in V by lia. exists (from_i_len_bits i (length Sp)). split; [assumption|split; [assumption|]].
  unfold pprod. destruct (bits_from_i_len_ok i (length Sp)) as (b & E & W & C & S & B). rewrite E. cbn [bind].
  set (m := from_i_len_bits i (length Sp)) in *.
  assert (Lb : bitlen b = length Sp).
  { rewrite <- L, <- B. unfold bits_of. rewrite map_length, seq_length. reflexivity. }
  edestruct (for_to_inv (fun k v => v = product (select (firstn k m) (firstn k Sp)))) as (t & Et & Pt).
  3: { rewrite Et. rewrite Pt. rewrite firstn_all, (firstn_all2 m) by lia. reflexivity. }
  - reflexivity.
  - intros j t Hj ->. rewrite GET_WF by (assumption || lia). cbn [bind]. rewrite B. fold m.
    rewrite (firstn_S false m) by lia. rewrite (firstn_S 0 Sp) by lia.
    rewrite select_snoc by (rewrite !firstn_length; lia).
    destruct (nth j m false); cbn [N.b2n N.eqb Pos.eqb].
    + rewrite (rd_nth 0) by lia. cbn [bind]. rewrite product_snoc. eauto.
    + rewrite app_nil_r. eauto.
Qed.

Lemma pprod_mask Sp mask : length mask = length Sp -> pprod Sp (bval mask) = Ok (product (select mask Sp)).
Proof.
  intros L. destruct (pprod_ok Sp (bval mask)) as (m & Lm & Vm & E).
  - unfold imax. rewrite <- L. apply bval_bound.
  - assert (m = mask) by (apply bval_inj; congruence). subst. assumption.
Qed.

(** every index below 2^n stands for exactly one subset of the list, and the candidate is the product of it *)
Theorem C50_subsets : forall Sp mask, length mask = length Sp ->
  0 <= bval mask < imax Sp /\ pprod Sp (bval mask) = Ok (product (select mask Sp)) /\
  (forall i, 0 <= i < imax Sp -> exists m, length m = length Sp /\ bval m = i) /\
  (forall m, length m = length Sp -> bval m = bval mask -> m = mask).
Proof.
  intros Sp mask L. split; [unfold imax; rewrite <- L; apply bval_bound|]. split; [apply pprod_mask; assumption|].
  split.
  - intros i H. destruct (pprod_ok Sp i H) as (m & Lm & Vm & _). eauto.
  - intros m Lm V. apply bval_inj; congruence.
Qed.
Print Assumptions C50_subsets.
Example C50_subsets_example :
  pprod [2; -3; -7; 13] 10 = Ok (-14) /\ select [true; false; true; false] [2; -3; -7; 13] = [2; -7].
Proof. vm_compute. auto. Qed.

(** ** The list of primes *)
Lemma add_loop_ok kronecker order : forall ps nalloc Sp, (1 <= nalloc)%nat -> (length Sp <= nalloc)%nat ->
  add_loop kronecker order nalloc Sp ps =
  Ok (Sp ++ map pstar (filter (fun q => kronecker order q =? 1) ps)).
Proof.
  induction ps as [|q ps IH]; intros nalloc Sp H1 H2; cbn [add_loop filter map].
  - rewrite app_nil_r. reflexivity.
  - destruct (kronecker order q =? 1); [|apply IH; assumption].
    set (na := if (length Sp =? nalloc)%nat then _ else _).
    assert (length Sp < na)%nat by (unfold na; destruct (Nat.eqb_spec (length Sp) nalloc); lia).
    destruct (Nat.ltb_spec (length Sp) na); [|lia].
    rewrite IH; [|lia|rewrite app_length; cbn; lia]. rewrite <- app_assoc. reflexivity.
Qed.

Section Search.
Variable forprime : Z -> Z -> list Z.
Variable kronecker : Z -> Z -> Z.
Variable cornacchia2 : Z -> Z -> option (Z * Z).
Variable isprime : Z -> bool.
Variable logN : Z.
Variable order : Z.
Notation add_primes := (add_primes forprime kronecker logN order).
Notation candidate := (candidate cornacchia2 isprime order).
Notation search := (search forprime kronecker cornacchia2 isprime logN order).
Notation qdisc_next := (qdisc_next forprime kronecker cornacchia2 isprime logN order).

(** the primes found in the interval, with their signs *)
Definition fresh (r : Z) : list Z :=
  map pstar (filter (fun q => kronecker order q =? 1) (forprime (r * logN) ((r + 1) * logN))).
Lemma add_primes_ok r Sp :
  add_primes r Sp = match Sp ++ fresh r with [] => Abort | _ => Ok (Sp ++ fresh r) end.
Proof.
  clear cornacchia2 isprime. unfold CmPrime_Model.add_primes.
  rewrite add_loop_ok; [fold (fresh r); cbn [bind]; reflexivity|destruct Sp; cbn; lia|destruct Sp; cbn; lia].
Qed.

Lemma search_none fuel rlog2 q pp : q_i q < imax (q_Sp q) -> pprod (q_Sp q) (q_i q) = Ok pp ->
  candidate rlog2 pp = None ->
  search (S fuel) rlog2 q = search fuel rlog2 {| q_r := q_r q; q_i := q_i q + 1; q_Sp := q_Sp q |}.
Proof.
  intros H E C. cbn [CmPrime_Model.search]. destruct (Z.ltb_spec (q_i q) (imax (q_Sp q))); [|lia].
  rewrite E. cbn [bind]. rewrite C. reflexivity.
Qed.

(** ** What is accepted is right *)
Definition cornacchia_ok : Prop := forall d n x y, cornacchia2 d n = Some (x, y) -> x * x + d * (y * y) = 4 * n.
Definition right_discriminant (D p : Z) : Prop :=
  prime p /\ D < 0 /\ D mod 8 = 5 /\ exists y, (p + 1 - order) * (p + 1 - order) - 4 * p = D * (y * y).

Lemma candidate_sound rlog2 pp D p t : cornacchia_ok -> (forall n, isprime n = true -> prime n) ->
  candidate rlog2 pp = Some (D, p, t) -> D = pp /\ Z.abs D < rlog2 /\ right_discriminant D p.
Proof.
  intros HC HP. unfold CmPrime_Model.candidate.
  destruct ((Z.abs pp <? rlog2) && (pp mod 8 =? 5) && negb (Z.abs pp mod 4 =? 1) && negb (Z.abs pp mod 4 =? 2)) eqn:E;
    [|discriminate].
  rewrite !andb_true_iff, !negb_true_iff in E. destruct E as (((E1 & E2) & E3) & E4).
  destruct (cornacchia2 (Z.abs pp) order) as [(x & y)|] eqn:C; [|discriminate].
  apply HC in C.
  assert (N : pp < 0) by (clear - E2 E3; lia).
  assert (A : Z.abs pp = - pp) by lia. rewrite A in C.
  assert (G : forall q s, (s = 1 \/ s = -1) -> q = order + 1 + s * x ->
    (q + 1 - order) * (q + 1 - order) - 4 * q = pp * (y * y)).
  { intros q s Hs ->. assert (pp * (y * y) = x * x - 4 * order) as -> by (rewrite <- C; ring).
    destruct Hs as [-> | ->]; ring. }
  destruct (isprime (order + 1 + x)) eqn:P1; [|destruct (isprime (order + 1 - x)) eqn:P2; [|discriminate]].
  - intros [= <- <- _]. split; [reflexivity|]. split; [lia|]. split; [auto|]. split; [assumption|]. split; [lia|].
    exists y. apply (G _ 1); [auto|ring].
  - intros [= <- <- _]. split; [reflexivity|]. split; [lia|]. split; [auto|]. split; [assumption|]. split; [lia|].
    exists y. apply (G _ (-1)); [auto|ring].
Qed.

Lemma search_sound : cornacchia_ok -> (forall n, isprime n = true -> prime n) ->
  forall fuel rlog2 q D p t q', 0 <= q_i q -> search fuel rlog2 q = Ok (D, p, t, q') ->
  right_discriminant D p /\ 0 <= q_i q' /\
  exists mask, length mask = length (q_Sp q') /\ D = product (select mask (q_Sp q')) /\ q_i q' = bval mask + 1.
Proof.
  intros HC HP. induction fuel as [|fuel IH]; intros rlog2 q D p t q' Hi; cbn [CmPrime_Model.search]; [discriminate|].
  destruct (Z.ltb_spec (q_i q) (imax (q_Sp q))) as [H|H].
  - destruct (pprod_ok (q_Sp q) (q_i q)) as (m & Lm & Vm & E); [lia|]. rewrite E. cbn [bind].
    destruct (candidate rlog2 (product (select m (q_Sp q)))) as [((D' & p') & t')|] eqn:C.
    + intros X. assert (D' = D /\ p' = p /\ q' = {| q_r := q_r q; q_i := q_i q + 1; q_Sp := q_Sp q |}) as (-> & -> & ->)
        by (repeat split; congruence).
      apply candidate_sound in C as (C1 & C2 & C3); auto. split; [assumption|]. cbn [q_i q_Sp]. split; [lia|].
      exists m. split; [assumption|]. split; [assumption|lia].
    + intros X. eapply IH; [|exact X]. cbn; lia.
  - destruct (add_primes (q_r q + 1) (q_Sp q)) eqn:A; cbn [bind]; try discriminate.
    intros X. eapply IH; [|exact X]. cbn; lia.
Qed.

(** Every accepted discriminant is negative, 5 modulo 8, the product of a subset of the small primes (with their
    signs), and belongs to the trace of curves of the requested order over the prime field chosen. *)
Theorem C50_sound : cornacchia_ok -> (forall n, isprime n = true -> prime n) ->
  forall fuel q D p t q', 0 <= q_i q -> qdisc_next fuel q = Ok (D, p, t, q') ->
  right_discriminant D p /\ 0 <= q_i q' /\
  exists mask, length mask = length (q_Sp q') /\ D = product (select mask (q_Sp q')) /\ q_i q' = bval mask + 1.
Proof.
  intros HC HP fuel q D p t q' Hi. unfold CmPrime_Model.qdisc_next.
  destruct ((q_i q =? imax (q_Sp q)) || (length (q_Sp q) =? 0)%nat).
  - destruct (add_primes (q_r q) (q_Sp q)) eqn:A; cbn [bind]; try discriminate.
    apply search_sound; auto.
  - apply search_sound; auto.
Qed.

(** ** What is tried *)
(** the first acceptable index from the current one on is found, whatever comes before it is rejected *)
Lemma search_finds : forall n rlog2 q k pp found, 0 <= q_i q -> q_i q <= k < imax (q_Sp q) ->
  pprod (q_Sp q) k = Ok pp -> candidate rlog2 pp = Some found ->
  (forall j pp', q_i q <= j < k -> pprod (q_Sp q) j = Ok pp' -> candidate rlog2 pp' = None) ->
  Z.of_nat n = k - q_i q -> forall m,
  search (S n + m) rlog2 q = Ok (found, {| q_r := q_r q; q_i := k + 1; q_Sp := q_Sp q |}).
Proof.
  induction n as [|n IH]; intros rlog2 q k pp found H0 Hk E C N Hn m.
  - assert (q_i q = k) as Ek by lia. cbn [Nat.add CmPrime_Model.search].
    destruct (Z.ltb_spec (q_i q) (imax (q_Sp q))); [|lia]. rewrite Ek, E. cbn [bind]. rewrite C. reflexivity.
  - destruct (pprod_ok (q_Sp q) (q_i q)) as (mk & _ & _ & E0); [lia|].
    cbn [Nat.add]. erewrite search_none; [|lia|exact E0|refine (N (q_i q) _ _ E0); lia].
    refine (IH rlog2 {| q_r := q_r q; q_i := q_i q + 1; q_Sp := q_Sp q |} k pp found _ _ E C _ _ m); cbn [q_i q_Sp]; try lia.
    intros j pp' Hj. apply N. lia.
Qed.

Lemma first_index (P : Z -> bool) lo : forall n, P (lo + Z.of_nat n) = true ->
  exists k, lo <= k <= lo + Z.of_nat n /\ P k = true /\ forall j, lo <= j < k -> P j = false.
Proof.
  induction n as [n IH] using lt_wf_ind. intros H.
  destruct (existsb (fun m => P (lo + Z.of_nat m)) (seq 0 n)) eqn:E.
  - apply existsb_exists in E as (m & Hm & Pm). apply in_seq in Hm.
    destruct (IH m) as (k & Hk & Pk & Nk); [lia|assumption|]. exists k. split; [lia|auto].
  - exists (lo + Z.of_nat n). split; [lia|]. split; [assumption|]. intros j Hj.
    destruct (P j) eqn:Pj; [|reflexivity]. exfalso.
    assert (X : existsb (fun m => P (lo + Z.of_nat m)) (seq 0 n) = true); [|congruence].
    apply existsb_exists. exists (Z.to_nat (j - lo)). split; [apply in_seq; lia|].
    rewrite Z2Nat.id by lia. replace (lo + (j - lo)) with j by ring. assumption.
Qed.

(** a good subset of the current list that has not been passed is found (or a good one before it) *)
Lemma search_complete rlog2 q mask found : 0 <= q_i q -> length mask = length (q_Sp q) -> q_i q <= bval mask ->
  candidate rlog2 (product (select mask (q_Sp q))) = Some found ->
  exists fuel found' q', forall m, search (fuel + m) rlog2 q = Ok (found', q') /\ q_Sp q' = q_Sp q /\ q_i q' <= bval mask + 1.
Proof.
  intros H0 L Hi C.
  set (P := fun j => match pprod (q_Sp q) j with Ok pp => match candidate rlog2 pp with Some _ => true | None => false end | _ => false end).
  assert (B : 0 <= bval mask < imax (q_Sp q)) by (unfold imax; rewrite <- L; apply bval_bound).
  destruct (first_index P (q_i q) (Z.to_nat (bval mask - q_i q))) as (k & Hk & Pk & Nk).
  { rewrite Z2Nat.id by lia. replace (q_i q + (bval mask - q_i q)) with (bval mask) by ring.
    unfold P. rewrite pprod_mask, C by assumption. reflexivity. }
  unfold P in Pk. destruct (pprod (q_Sp q) k) as [pp| | |] eqn:E; try discriminate.
  destruct (candidate rlog2 pp) as [found'|] eqn:C'; [|discriminate].
  exists (S (Z.to_nat (k - q_i q))), found', {| q_r := q_r q; q_i := k + 1; q_Sp := q_Sp q |}. intros m. split.
  - apply (search_finds _ rlog2 q k pp found'); auto; try lia.
    intros j pp' Hj Ej. specialize (Nk j Hj). unfold P in Nk. rewrite Ej in Nk. destruct (candidate rlog2 pp'); congruence.
  - cbn [q_Sp q_i]. split; [reflexivity|lia].
Qed.

(** The first list: when any subset of the admissible primes up to log N gives an acceptable discriminant, the
    search ends (with that discriminant or one tried before it). What is missing for the full claim is the same for the
    later lists; see C50_round_partial and C50_refuted. *)
Theorem C50_first_partial : forall mask found, length mask = length (fresh 0) -> fresh 0 <> [] ->
  candidate (bound logN 0) (product (select mask (fresh 0))) = Some found ->
  exists fuel found' q', forall m,
    qdisc_next (fuel + m) qdisc_init = Ok (found', q') /\ q_Sp q' = fresh 0 /\ q_i q' <= bval mask + 1.
Proof.
  intros mask found L NE C. unfold CmPrime_Model.qdisc_next. cbn [qdisc_init q_i q_Sp q_r length Nat.eqb orb].
  rewrite orb_true_r. rewrite add_primes_ok. cbn [app].
  destruct (fresh 0) as [|x l] eqn:F; [congruence|]. rewrite <- F in *. cbn [bind].
  destruct (search_complete (bound logN 0) {| q_r := 0; q_i := 0; q_Sp := fresh 0 |} mask found) as (fu & fo & q' & X);
    cbn [q_i q_Sp]; auto; [lia|apply bval_bound|]. exists fu, fo, q'. exact X.
Qed.

(** the index of a subset is at least 2^n exactly when one of the elements before the last n is in it *)
Lemma mask_index mask n : (n <= length mask)%nat ->
  (2 ^ Z.of_nat n <= bval mask <-> In true (firstn (length mask - n) mask)).
Proof.
  intros H. rewrite <- (firstn_skipn (length mask - n) mask) at 1. rewrite bval_app, skipn_length.
  replace (length mask - (length mask - n))%nat with n by lia.
  set (h := firstn (length mask - n) mask).
  assert (B : 0 <= bval (skipn (length mask - n) mask) < 2 ^ Z.of_nat n).
  { pose proof (bval_bound (skipn (length mask - n) mask)) as B. rewrite skipn_length in B.
    replace (length mask - (length mask - n))%nat with n in B by lia. assumption. }
  assert (Z0 : In true h <-> 1 <= bval h).
  { clear. induction h as [|b h IH]; [cbn; lia|]. rewrite bval_cons. pose proof (bval_bound h). cbn [In].
    destruct b; cbn [Z.b2z]; [split; [intros _|intros _; left; reflexivity]|].
    - assert (0 < 2 ^ Z.of_nat (length h)) by (apply Z.pow_pos_nonneg; lia). lia.
    - rewrite IH. split; [intros [|]; [discriminate|lia]|intros; right; lia]. }
  rewrite Z0. split; intros X; nia.
Qed.

(** A later list: with k new primes at the end, exactly the subsets that contain one of the first k elements of the
    grown list are still to be tried; a good one among them is found. *)
Theorem C50_round_partial : forall rlog2 q news mask found,
  q_i q = imax (q_Sp q) -> length mask = length (q_Sp q ++ news) ->
  (q_i q <= bval mask <-> In true (firstn (length news) mask)) /\
  (In true (firstn (length news) mask) -> candidate rlog2 (product (select mask (q_Sp q ++ news))) = Some found ->
   exists fuel found' q', forall m,
     search (fuel + m) rlog2 {| q_r := q_r q; q_i := q_i q; q_Sp := q_Sp q ++ news |} = Ok (found', q')
     /\ q_Sp q' = q_Sp q ++ news /\ q_i q' <= bval mask + 1).
Proof.
  intros rlog2 q news mask found Hi L.
  assert (M : q_i q <= bval mask <-> In true (firstn (length news) mask)).
  { rewrite Hi. unfold imax. rewrite mask_index by (rewrite L, app_length; lia).
    rewrite L, app_length. replace (length (q_Sp q) + length news - length (q_Sp q))%nat with (length news) by lia. reflexivity. }
  split; [assumption|]. intros T C.
  destruct (search_complete rlog2 {| q_r := q_r q; q_i := q_i q; q_Sp := q_Sp q ++ news |} mask found) as (fu & fo & q' & X);
    cbn [q_i q_Sp]; auto.
  - rewrite Hi. unfold imax. apply Z.pow_nonneg. lia.
  - apply M; assumption.
  - exists fu, fo, q'. exact X.
Qed.
End Search.
Print Assumptions C50_sound.
Print Assumptions C50_first_partial.
Print Assumptions C50_round_partial.

(** ** An instance of PARI's functions *)
Definition forprime_b (lo hi : Z) : list Z :=
  filter isprime_b (map (fun k => lo + Z.of_nat k) (seq 0 (Z.to_nat (hi - lo + 1)))).
Definition kronecker_b (n q : Z) : Z :=
  if q =? 2 then (if Z.even n then 0 else if (n mod 8 =? 1) || (n mod 8 =? 7) then 1 else -1)
  else if n mod q =? 0 then 0
  else if existsb (fun x => (Z.of_nat x * Z.of_nat x) mod q =? n mod q) (seq 1 (Z.to_nat (q - 1))) then 1 else -1.
(** the solution with the largest x *)
Definition cornacchia_b (d n : Z) : option (Z * Z) :=
  match filter (fun x => (0 <=? 4 * n - x * x) && ((4 * n - x * x) mod d =? 0) &&
                  (let y := Z.sqrt ((4 * n - x * x) / d) in y * y * d =? 4 * n - x * x))
          (map Z.of_nat (rev (seq 0 (Z.to_nat (Z.sqrt (4 * n) + 1))))) with
  | x :: _ => Some (x, Z.sqrt ((4 * n - x * x) / d))
  | [] => None
  end.
Lemma cornacchia_b_ok : cornacchia_ok cornacchia_b.
Proof.
  intros d n x y. unfold cornacchia_b.
  destruct (filter _ _) as [|x0 l] eqn:F; [discriminate|]. intros E.
  assert (x0 = x /\ Z.sqrt ((4 * n - x0 * x0) / d) = y) as (Ex & Ey) by (split; congruence). clear E.
  assert (I : In x0 (x0 :: l)) by (left; reflexivity). rewrite <- F in I. apply filter_In in I as (_ & I).
  rewrite !andb_true_iff in I. destruct I as (_ & I). apply Z.eqb_eq in I. cbn zeta in I.
  rewrite Ey in I. subst x0. transitivity (x * x + y * y * d); [ring|]. rewrite I. ring.
Qed.

(** For N = 13 the discriminant -3 with the prime 7 is found at once, for N = 43 (log N = 4) -3 with 31. *)
Example C50_sound_example :
  qdisc_next forprime_b kronecker_b cornacchia_b isprime_b 3 13 10 qdisc_init
    = Ok (-3, 7, 7, {| q_r := 0; q_i := 2; q_Sp := [-3] |}) /\
  qdisc_next forprime_b kronecker_b cornacchia_b isprime_b 4 43 10 qdisc_init
    = Ok (-3, 31, 13, {| q_r := 0; q_i := 2; q_Sp := [-3] |}) /\
  right_discriminant 43 (-3) 31.
Proof.
  split; [vm_compute; reflexivity|]. split; [vm_compute; reflexivity|].
  split; [apply isprime_b_ok; reflexivity|]. split; [lia|]. split; [reflexivity|]. exists 1. reflexivity.
Qed.
(** ** What is passed over *)
Lemma even_rejected cornacchia2 isprime order rlog2 pp : Z.even pp = true -> candidate cornacchia2 isprime order rlog2 pp = None.
Proof.
  intros E. unfold candidate.
  assert ((pp mod 8 =? 5) = false) as ->.
  { apply Z.eqb_neq. intros C. pose proof (Z.div_mod pp 8 ltac:(lia)) as D. rewrite C in D.
    apply Z.even_spec in E as (h & ->). lia. }
  rewrite andb_false_r. reflexivity.
Qed.
Lemma forprime_short r : 2 <= r -> forprime_b (r * 2) ((r + 1) * 2) = [] \/ forprime_b (r * 2) ((r + 1) * 2) = [r * 2 + 1].
Proof.
  intros Hr. unfold forprime_b. replace ((r + 1) * 2 - r * 2 + 1) with 3 by ring.
  change (Z.to_nat 3) with 3%nat. cbn [seq map filter].
  assert (Ev : forall x, 2 <= x -> isprime_b (x * 2) = false).
  { intros x Hx. destruct (isprime_b (x * 2)) eqn:E; [|reflexivity]. exfalso. apply isprime_b_ok in E.
    assert (X : (2 | x * 2)) by (exists x; ring). apply (prime_divisors _ E 2) in X. lia. }
  replace (r * 2 + Z.of_nat 0) with (r * 2) by lia. replace (r * 2 + Z.of_nat 2) with ((r + 1) * 2) by lia.
  rewrite !Ev by lia. replace (r * 2 + Z.of_nat 1) with (r * 2 + 1) by lia.
  destruct (isprime_b (r * 2 + 1)); auto.
Qed.

Section Seven.
Variable cornacchia2 : Z -> Z -> option (Z * Z).
Variable isprime : Z -> bool.
Notation search := (search forprime_b kronecker_b cornacchia2 isprime 2 7).

Lemma seven_rounds : forall fuel rlog2 q rest, 1 <= q_r q -> q_Sp q = 2 :: rest ->
  2 ^ Z.of_nat (length rest) <= q_i q <= imax (q_Sp q) -> search fuel rlog2 q = Fuel.
Proof.
  induction fuel as [|fuel IH]; intros rlog2 q rest Hr E Hi; cbn [CmPrime_Model.search]; [reflexivity|].
  destruct (Z.ltb_spec (q_i q) (imax (q_Sp q))) as [H|H].
  - destruct (pprod_ok (q_Sp q) (q_i q)) as (m & Lm & Vm & Ep); [lia|]. rewrite Ep. cbn [bind].
    assert (T : exists m', m = true :: m').
    { rewrite E in Lm. destruct m as [|b m']; [discriminate|]. exists m'. f_equal. destruct b; [reflexivity|].
      exfalso. rewrite bval_cons in Vm. cbn in Lm. pose proof (bval_bound m') as Bm.
      replace (length m') with (length rest) in Bm by lia. cbn [Z.b2z] in Vm. lia. }
    destruct T as (m' & ->). rewrite even_rejected.
    2: { rewrite E. cbn [select product fold_right]. rewrite Z.even_mul. reflexivity. }
    apply (IH _ _ rest); cbn [q_r q_Sp q_i]; [lia|assumption|lia].
  - assert (Ei : q_i q = imax (q_Sp q)) by lia. rewrite add_primes_ok, E. cbn [app]. cbn [bind].
    set (f := fresh forprime_b kronecker_b 2 7 (q_r q + 1)).
    assert (Lf : (length f <= 1)%nat).
    { unfold f, fresh. rewrite map_length.
      destruct (forprime_short (q_r q + 1) ltac:(lia)) as [X|X]; rewrite X; cbn [filter];
        [cbn; lia|destruct (kronecker_b _ _ =? 1); cbn; lia]. }
    apply (IH _ _ (rest ++ f)); cbn [q_r q_Sp q_i]; [lia|reflexivity|].
    rewrite Ei, E. unfold imax. cbn [length]. rewrite app_length.
    split; [|apply Z.pow_le_mono_r; lia]. apply Z.pow_le_mono_r; lia.
Qed.

Lemma seven_never : forall fuel,
  qdisc_next forprime_b kronecker_b cornacchia2 isprime 2 7 fuel qdisc_init = Fuel.
Proof.
  intros fuel. unfold qdisc_next.
  replace (add_primes forprime_b kronecker_b 2 7 (q_r qdisc_init) (q_Sp qdisc_init)) with (Ok [2]) by (vm_compute; reflexivity).
  cbn [qdisc_init q_i q_Sp q_r length Nat.eqb]. rewrite orb_true_r. cbn [bind].
  destruct fuel as [|fuel]; [reflexivity|].
  erewrite search_none with (pp := 1); [|reflexivity|vm_compute; reflexivity|unfold candidate; rewrite andb_false_r; reflexivity].
  cbn [q_r q_i q_Sp Z.add].
  destruct fuel as [|fuel]; [reflexivity|].
  erewrite search_none with (pp := 2); [|reflexivity|vm_compute; reflexivity|apply even_rejected; reflexivity].
  cbn [q_r q_i q_Sp Z.add Pos.add].
  destruct fuel as [|fuel]; [reflexivity|]. cbn [CmPrime_Model.search q_r q_i q_Sp].
  change (2 <? imax [2]) with false. cbn iota.
  replace (add_primes forprime_b kronecker_b 2 7 (0 + 1) [2]) with (Ok [2; 2; -3]) by (vm_compute; reflexivity).
  cbn [bind].
  destruct fuel as [|fuel]; [reflexivity|].
  erewrite search_none with (pp := 2); [|reflexivity|vm_compute; reflexivity|apply even_rejected; reflexivity].
  cbn [q_r q_i q_Sp Z.add Pos.add Pos.succ].
  destruct fuel as [|fuel]; [reflexivity|].
  erewrite search_none with (pp := -6); [|reflexivity|vm_compute; reflexivity|apply even_rejected; reflexivity].
  cbn [q_r q_i q_Sp Z.add Pos.add Pos.succ].
  apply (seven_rounds _ _ _ [2; -3]); cbn [q_r q_Sp q_i]; [lia|reflexivity|vm_compute; split; discriminate].
Qed.
End Seven.

(** For the order 7 (log 7 rounds to 2) the discriminant -3 with the prime 13 is right, 3 is admissible and is added to
    the list in the second round, where the bound is 16; yet the subset consisting of -3 alone is never tried and the
    search never ends, whatever [cornacchia2] and [isprime] answer. *)
Theorem C50_refuted : exists N D p r,
  right_discriminant N D p /\ Z.abs D < bound 2 r /\ Z.abs D mod 4 = 3 /\ cornacchia_b (Z.abs D) N <> None /\
  In D (fresh forprime_b kronecker_b 2 N r) /\
  forall cornacchia2 isprime fuel, qdisc_next forprime_b kronecker_b cornacchia2 isprime 2 N fuel qdisc_init = Fuel.
Proof.
  exists 7, (-3), 13, 1. split.
  { split; [apply isprime_b_ok; reflexivity|]. split; [lia|]. split; [reflexivity|]. exists 1. reflexivity. }
  split; [reflexivity|]. split; [reflexivity|]. split; [vm_compute; discriminate|]. split; [vm_compute; auto|].
  intros. apply seven_never.
Qed.
Print Assumptions C50_refuted.

(** When no prime up to log N is admissible the array is reallocated to size zero and the run ends with an error: the
    order 173 (8 bits, log N = 5), with every answer of the other functions. *)
Theorem C50_empty_refuted : exists N logN, isprime_b N = true /\
  forall cornacchia2 isprime fuel, qdisc_next forprime_b kronecker_b cornacchia2 isprime logN N fuel qdisc_init = Abort.
Proof. exists 173, 5. split; [vm_compute; reflexivity|]. intros. reflexivity. Qed.
Print Assumptions C50_empty_refuted.

(** the hypotheses of the partial theorems are met: N = 43 *)
Example C50_first_example :
  fresh forprime_b kronecker_b 4 43 0 = [-3] /\
  candidate cornacchia_b isprime_b 43 (bound 4 0) (product (select [true] [-3])) = Some (-3, 31, 13).
Proof. vm_compute. auto. Qed.
(** for N = 211 the second list repeats 5; the subset {-3, 5, 5} gives -75 and the prime 199 *)
Example C50_round_example :
  fresh forprime_b kronecker_b 5 211 0 = [-3; 5] /\ fresh forprime_b kronecker_b 5 211 1 = [5; -7] /\
  let q := {| q_r := 0; q_i := 4; q_Sp := [-3; 5] |} in
  let mask := [true; true; true; false] in
  q_i q = imax (q_Sp q) /\ length mask = length (q_Sp q ++ [5; -7]) /\ In true (firstn 2 mask) /\
  candidate cornacchia_b isprime_b 211 (bound 5 1) (product (select mask (q_Sp q ++ [5; -7]))) = Some (-75, 199, 13).
Proof. vm_compute. repeat split; auto. Qed.
