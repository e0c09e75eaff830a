(** C46: the parameters of the pairing-friendly families. *)
From Coq Require Import Znumtheory.
From Verif Require Import Base Primes ZPoly Poly_Props Cli_Model Family_Model.
Local Open Scope Z_scope.

(** ** Specification *)
Definition families : list Z := [FAMILY_BN; FAMILY_BLS12; FAMILY_BLS24; FAMILY_KSS16; FAMILY_KSS18; FAMILY_KSS36; FAMILY_KSS40].
(** the cyclotomic polynomial of the embedding degree: 12, 12, 24, 16, 18, 36, 40 *)
Definition degree_of (family : Z) : Z :=
  if (family =? FAMILY_BN) || (family =? FAMILY_BLS12) then 12 else if family =? FAMILY_BLS24 then 24
  else if family =? FAMILY_KSS16 then 16 else if family =? FAMILY_KSS18 then 18 else if family =? FAMILY_KSS36 then 36 else 40.
Definition phi_list (k : Z) : list Z :=
  if k =? 12 then [1; 0; -1; 0; 1]
  else if k =? 24 then [1; 0; 0; 0; -1; 0; 0; 0; 1]
  else if k =? 16 then [1; 0; 0; 0; 0; 0; 0; 0; 1]
  else if k =? 18 then [1; 0; 0; -1; 0; 0; 1]
  else if k =? 36 then [1; 0; 0; 0; 0; 0; -1; 0; 0; 0; 0; 0; 1]
  else [1; 0; 0; 0; -1; 0; 0; 0; 1; 0; 0; 0; -1; 0; 0; 0; 1].
Definition Phi (k x : Z) : Z := peval (phi_list k) x.
(** the trace of Frobenius of the family (Barreto-Naehrig; Barreto-Lynn-Scott; Kachisa-Schaefer-Scott) *)
Definition trace_of (family n t : Z) : Prop :=
  if family =? FAMILY_BN then t = 6 * n ^ 2 + 1
  else if (family =? FAMILY_BLS12) || (family =? FAMILY_BLS24) then t = n + 1
  else if family =? FAMILY_KSS16 then 35 * t = 2 * n ^ 5 + 41 * n + 35
  else if family =? FAMILY_KSS18 then 7 * t = n ^ 4 + 16 * n + 7
  else if family =? FAMILY_KSS36 then 259 * t = 2 * n ^ 7 + 757 * n + 259
  else 1185 * t = 2 * n ^ 11 + 6469 * n + 1185.
Definition is_square (x : Z) : Prop := exists y, x = y * y.

(** these are the cyclotomic polynomials: they divide x^k - 1 and no x^j - 1 for the divisors j of k *)
Example phi_12 x : Phi 12 x * ((x ^ 6 - 1) * (x ^ 2 + 1)) = x ^ 12 - 1.
Proof. unfold Phi, phi_list. cbn [Z.eqb Pos.eqb peval]. ring. Qed.
Example phi_16 x : Phi 16 x * (x ^ 8 - 1) = x ^ 16 - 1.
Proof. unfold Phi, phi_list. cbn [Z.eqb Pos.eqb peval]. ring. Qed.
Example phi_18 x : Phi 18 x * ((x ^ 9 - 1) * (x ^ 3 + 1)) = x ^ 18 - 1.
Proof. unfold Phi, phi_list. cbn [Z.eqb Pos.eqb peval]. ring. Qed.
Example phi_24 x : Phi 24 x * ((x ^ 12 - 1) * (x ^ 4 + 1)) = x ^ 24 - 1.
Proof. unfold Phi, phi_list. cbn [Z.eqb Pos.eqb peval]. ring. Qed.
Example phi_36 x : Phi 36 x * ((x ^ 18 - 1) * (x ^ 6 + 1)) = x ^ 36 - 1.
Proof. unfold Phi, phi_list. cbn [Z.eqb Pos.eqb peval]. ring. Qed.
Example phi_40 x : Phi 40 x * ((x ^ 20 - 1) * (x ^ 4 + 1)) = x ^ 40 - 1.
Proof. unfold Phi, phi_list. cbn [Z.eqb Pos.eqb peval]. ring. Qed.

(** ** Tools *)
Lemma peval_cong l k a b : (k | a - b) -> (k | peval l a - peval l b).
Proof.
  intros H. induction l as [|c l IH]; cbn [peval]; [rewrite Z.sub_diag; apply Z.divide_0_r|].
  replace (c + a * peval l a - (c + b * peval l b)) with (a * (peval l a - peval l b) + peval l b * (a - b)) by ring.
  apply Z.divide_add_r; apply Z.divide_mul_r; assumption.
Qed.
Definition no_root (q : Z) (l : list Z) : bool := forallb (fun i => negb (peval l i mod q =? 0)) (zrange 0 (Z.to_nat q)).
Lemma no_root_ok q l z : prime q -> no_root q l = true -> rel_prime (peval l z) q.
Proof.
  intros P H. apply rel_prime_sym, prime_rel_prime; [exact P|]. intros Hd.
  pose proof (prime_ge_2 q P) as G. pose proof (Z.mod_pos_bound z q ltac:(lia)) as B.
  unfold no_root in H. rewrite forallb_forall in H. specialize (H (z mod q)). rewrite in_zrange in H. specialize (H ltac:(lia)).
  assert (C : (q | peval l z - peval l (z mod q))) by (apply peval_cong; exists (z / q); pose proof (Z.div_mod z q ltac:(lia)); lia).
  assert (E : (q | peval l (z mod q))).
  { replace (peval l (z mod q)) with (peval l z - (peval l z - peval l (z mod q))) by ring. apply Z.divide_sub_r; assumption. }
  apply Z.mod_divide in E; [|lia]. rewrite E in H. discriminate.
Qed.

Section Hom.
  Context (m N : list Z) (d : Z).
  (** d^deg * phi(N / d) modulo x^|m| + m *)
  Fixpoint hom (phi : list Z) : list Z :=
    match phi with [] => [] | c :: a => padd [c * d ^ Z.of_nat (length a)] (pmulmod m N (hom a)) end.
  Lemma hom_ok x T phi : m <> [] -> d <> 0 -> peval N x = d * T -> (length (hom phi) <= length m)%nat /\
    (x ^ Z.of_nat (length m) + peval m x | d ^ Z.of_nat (length phi) * peval phi T - d * peval (hom phi) x).
  Proof.
    intros Hm Hd HN. induction phi as [|c a [IL IH]].
    - cbn [hom peval length]. split; [lia|]. replace (d ^ Z.of_nat 0 * 0 - d * 0) with 0 by ring. apply Z.divide_0_r.
    - cbn [hom length peval]. destruct (pmulmod_ok m N (hom a) x IL) as [ML MD]. split.
      + rewrite padd_length. destruct m; [congruence|]. cbn [length] in *. lia.
      + rewrite peval_add. cbn [peval]. rewrite Nat2Z.inj_succ, Z.pow_succ_r by lia. rewrite HN in MD.
        set (M := x ^ Z.of_nat (length m) + peval m x) in *. set (dd := d ^ Z.of_nat (length a)) in *.
        replace (d * dd * (c + T * peval a T) - d * (c * dd + x * 0 + peval (pmulmod m N (hom a)) x))
          with (d * T * (dd * peval a T - d * peval (hom a) x) + d * (d * T * peval (hom a) x - peval (pmulmod m N (hom a)) x)) by ring.
        apply Z.divide_add_r; apply Z.divide_mul_r; assumption.
  Qed.
  Lemma hom_zero x T phi r : m <> [] -> d <> 0 -> peval N x = d * T -> pzero (hom phi) = true ->
    (r | x ^ Z.of_nat (length m) + peval m x) -> rel_prime r d -> (r | peval phi T).
  Proof.
    intros Hm Hd HN Hz Hr Rp. destruct (hom_ok x T phi Hm Hd HN) as [_ H]. rewrite (pzero_ok _ x Hz) in H.
    assert (H' : (r | d ^ Z.of_nat (length phi) * peval phi T)).
    { replace (d ^ Z.of_nat (length phi) * peval phi T) with (d ^ Z.of_nat (length phi) * peval phi T - d * 0) by ring. eapply Z.divide_trans; eassumption. }
    apply (Gauss r (d ^ Z.of_nat (length phi)) (peval phi T) H').
    clear - Rp. induction (length phi) as [|k IH]; [apply rel_prime_sym, rel_prime_1|]. rewrite Nat2Z.inj_succ, Z.pow_succ_r by lia. apply rel_prime_mult; assumption.
  Qed.
End Hom.

(** a formula evaluated at n(z) *)
Lemma formula_at f l nl z dl : num f (peval nl z) = peval l (peval nl z) -> den f <> 0 ->
  peq (pscale (den f) dl) (pcomp l nl) = true -> closure_callgen1 f (peval nl z) = Some (peval dl z).
Proof.
  intros E N C. apply (peq_ok _ _ z) in C. rewrite peval_scale, peval_comp in C. unfold closure_callgen1. rewrite E, <- C.
  rewrite (Z.mul_comm (den f)), Z_mod_mult, Z_div_mult_full by exact N. reflexivity.
Qed.

Definition divided (d : Z) (l nl : list Z) : list Z := map (fun c => c / d) (pcomp l nl).

(** the checks made of a family whose polynomials have integer coefficients in z *)
Definition family_ok (absD : Z) (pl rl tl hl yl : list Z) : bool :=
  peq (padd (padd pl [1]) (pscale (-1) tl)) (pmul hl rl) &&
  peq (padd (pscale 4 pl) (pscale (-1) (pmul tl tl))) (pscale absD (pmul yl yl)).
Lemma family_ok_at absD pl rl tl hl yl z : family_ok absD pl rl tl hl yl = true ->
  (peval rl z | peval pl z + 1 - peval tl z) /\ exists y, 4 * peval pl z - peval tl z ^ 2 = absD * (y * y).
Proof.
  intros H. apply andb_true_iff in H. destruct H as [H1 H2]. apply (peq_ok _ _ z) in H1, H2.
  rewrite !peval_add, peval_scale, peval_mul in H1. rewrite peval_add, !peval_scale, !peval_mul in H2. cbn [peval] in H1. split.
  - exists (peval hl z). rewrite <- H1. ring.
  - exists (peval yl z). rewrite <- H2. ring.
Qed.
(** from the trace to p: p = t - 1 modulo r *)
Lemma phi_transfer k p t r : (r | p + 1 - t) -> (r | Phi k (t - 1)) -> (r | Phi k p).
Proof.
  intros H1 H2. replace (Phi k p) with (Phi k (t - 1) + (Phi k p - Phi k (t - 1))) by ring. apply Z.divide_add_r; [exact H2|].
  apply peval_cong. replace (p - (t - 1)) with (p + 1 - t) by ring. exact H1.
Qed.

Lemma prime3 : prime 3. Proof. apply prime_3. Qed.
Ltac small_prime := apply prime_intro; [lia|]; intros n Hn; unfold rel_prime;
  match goal with |- Zis_gcd n ?q 1 =>
    assert (G : forallb (fun i => Z.gcd i q =? 1) (zrange 1 (Z.to_nat (q - 1))) = true) by (vm_compute; reflexivity);
    rewrite forallb_forall in G; specialize (G n); rewrite in_zrange in G; specialize (G ltac:(lia)); apply Z.eqb_eq in G; rewrite <- G; apply Zgcd_is_gcd end.
Lemma prime5 : prime 5. Proof. small_prime. Qed.
Lemma prime7 : prime 7. Proof. small_prime. Qed.
Lemma prime79 : prime 79. Proof. small_prime. Qed.

(** ** The families one by one *)
Definition good (family z : Z) (s : stored) (absD : Z) : Prop :=
  forall p r, closure_callgen1 (pz s) (nz s z) = Some p -> closure_callgen1 (rz s) (nz s z) = Some r ->
  exists t y, trace_of family (nz s z) t /\ (r | p + 1 - t) /\ (r | Phi (degree_of family) p) /\ 4 * p - t ^ 2 = absD * (y * y).

Lemma some_inj {A} (x y : A) : Some x = Some y -> x = y.
Proof. congruence. Qed.
Lemma whole f x : den f = 1 -> closure_callgen1 f x = Some (num f x).
Proof. intros E. unfold closure_callgen1. rewrite E, Z.mod_1_r, Z.div_1_r. reflexivity. Qed.

Ltac open_store := match goal with Hs : store _ = Some ?s |- _ =>
  cbv beta iota delta [store Z.eqb Pos.eqb FAMILY_BN FAMILY_BLS12 FAMILY_BLS24 FAMILY_KSS16 FAMILY_KSS18 FAMILY_KSS36 FAMILY_KSS40] in Hs; apply some_inj in Hs; subst s end.
Lemma good_bn z s : store FAMILY_BN = Some s -> good FAMILY_BN z s 3.
Proof.
  intros Hs p r Hp Hr. open_store. rewrite whole in Hp, Hr by reflexivity. cbn [pz rz nz num] in *. apply some_inj in Hp. subst p. apply some_inj in Hr. subst r.
  exists (6 * z ^ 2 + 1), (6 * z ^ 2 + 4 * z + 1). split; [reflexivity|]. split; [exists 1; ring|]. split; [|ring].
  apply (phi_transfer _ _ (6 * z ^ 2 + 1)); [exists 1; ring|]. exists (36 * z ^ 4 - 36 * z ^ 3 + 18 * z ^ 2 - 6 * z + 1).
  change (degree_of FAMILY_BN) with 12. unfold Phi, phi_list. cbn [Z.eqb Pos.eqb peval]. ring.
Qed.

Lemma bls_z z x : (x mod 3 = 1) -> ((z - 1) ^ 2 * x + 3 * z) mod 3 = 0 -> exists w, z = 3 * w + 1.
Proof.
  intros Hx H. exists ((z - 1) / 3). apply Z.mod_divide in H; [|lia].
  assert (H' : (3 | (z - 1) ^ 2 * x)) by (apply (Z.divide_add_cancel_r 3 (3 * z)); [exists z; ring|rewrite Z.add_comm; exact H]).
  assert (G : (3 | (z - 1))).
  { apply prime_mult in H'; [|exact prime3]. destruct H' as [H'|H'].
    - rewrite Z.pow_2_r in H'. apply prime_mult in H'; [tauto|exact prime3].
    - apply Z.mod_divide in H'; lia. }
  destruct G as [g G]. rewrite G, Z.div_mul by lia. lia.
Qed.
Lemma mod3_fun l z : forallb (fun i => peval l i mod 3 =? 1) [0; 1; 2] = true -> peval l z mod 3 = 1.
Proof.
  intros H. rewrite forallb_forall in H.
  assert (B : In (z mod 3) [0; 1; 2]) by (pose proof (Z.mod_pos_bound z 3 ltac:(lia)); cbn [In]; lia).
  specialize (H _ B). apply Z.eqb_eq in H. rewrite <- H.
  assert (C : (3 | peval l z - peval l (z mod 3))) by (apply peval_cong; exists (z / 3); pose proof (Z.div_mod z 3 ltac:(lia)); lia).
  destruct C as [c C]. replace (peval l z) with (peval l (z mod 3) + c * 3) by lia. apply Z.mod_add. lia.
Qed.

Lemma good_bls12 z s : store FAMILY_BLS12 = Some s -> good FAMILY_BLS12 z s 3.
Proof.
  intros Hs p r Hp Hr. open_store. rewrite whole in Hr by reflexivity. cbn [pz rz nz num] in *. apply some_inj in Hr. subst r.
  unfold closure_callgen1 in Hp. cbn [num den] in Hp. destruct (Z.eqb_spec (((z - 1) ^ 2 * (z ^ 4 - z ^ 2 + 1) + 3 * z) mod 3) 0) as [E|]; [|discriminate].
  assert (X : (z ^ 4 - z ^ 2 + 1) mod 3 = 1).
  { replace (z ^ 4 - z ^ 2 + 1) with (peval [1; 0; -1; 0; 1] z) by (cbn [peval]; ring). apply (mod3_fun [1; 0; -1; 0; 1]). reflexivity. }
  destruct (bls_z _ _ X E) as [w ->]. clear X.
  clear E. apply some_inj in Hp. subst p.
  replace ((3 * w + 1 - 1) ^ 2 * ((3 * w + 1) ^ 4 - (3 * w + 1) ^ 2 + 1) + 3 * (3 * w + 1))
    with ((3 * w ^ 2 * ((3 * w + 1) ^ 4 - (3 * w + 1) ^ 2 + 1) + (3 * w + 1)) * 3) by ring.
  rewrite Z.div_mul by lia.
  assert (Hd : ((3 * w + 1) ^ 4 - (3 * w + 1) ^ 2 + 1 | 3 * w ^ 2 * ((3 * w + 1) ^ 4 - (3 * w + 1) ^ 2 + 1) + (3 * w + 1) + 1 - (3 * w + 1 + 1)))
    by (exists (3 * w ^ 2); ring).
  exists (3 * w + 1 + 1), (w * (2 * (3 * w + 1) ^ 2 - 1)). split; [reflexivity|]. split; [exact Hd|]. split; [|ring].
  apply (phi_transfer _ _ _ _ Hd). exists 1. change (degree_of FAMILY_BLS12) with 12. unfold Phi, phi_list. cbn [Z.eqb Pos.eqb peval]. ring.
Qed.
Lemma good_bls24 z s : store FAMILY_BLS24 = Some s -> good FAMILY_BLS24 z s 3.
Proof.
  intros Hs p r Hp Hr. open_store. rewrite whole in Hr by reflexivity. cbn [pz rz nz num] in *. apply some_inj in Hr. subst r.
  unfold closure_callgen1 in Hp. cbn [num den] in Hp. destruct (Z.eqb_spec (((z - 1) ^ 2 * (z ^ 8 - z ^ 4 + 1) + 3 * z) mod 3) 0) as [E|]; [|discriminate].
  assert (X : (z ^ 8 - z ^ 4 + 1) mod 3 = 1).
  { replace (z ^ 8 - z ^ 4 + 1) with (peval [1; 0; 0; 0; -1; 0; 0; 0; 1] z) by (cbn [peval]; ring). apply (mod3_fun [1; 0; 0; 0; -1; 0; 0; 0; 1]). reflexivity. }
  destruct (bls_z _ _ X E) as [w ->]. clear X.
  clear E. apply some_inj in Hp. subst p.
  replace ((3 * w + 1 - 1) ^ 2 * ((3 * w + 1) ^ 8 - (3 * w + 1) ^ 4 + 1) + 3 * (3 * w + 1))
    with ((3 * w ^ 2 * ((3 * w + 1) ^ 8 - (3 * w + 1) ^ 4 + 1) + (3 * w + 1)) * 3) by ring.
  rewrite Z.div_mul by lia.
  assert (Hd : ((3 * w + 1) ^ 8 - (3 * w + 1) ^ 4 + 1 | 3 * w ^ 2 * ((3 * w + 1) ^ 8 - (3 * w + 1) ^ 4 + 1) + (3 * w + 1) + 1 - (3 * w + 1 + 1)))
    by (exists (3 * w ^ 2); ring).
  exists (3 * w + 1 + 1), (w * (2 * (3 * w + 1) ^ 4 - 1)). split; [reflexivity|]. split; [exact Hd|]. split; [|ring].
  apply (phi_transfer _ _ _ _ Hd). exists 1. change (degree_of FAMILY_BLS24) with 24. unfold Phi, phi_list. cbn [Z.eqb Pos.eqb peval]. ring.
Qed.

(** KSS16 *)
Definition n16 := [25; 70].
Definition p16 := [3125; 2398; 625; 0; 240; 152; 48; 0; 5; 2; 1].
Definition m16 := [625; 0; 0; 0; 48; 0; 0; 0].
Definition t16 := [35; 41; 0; 0; 0; 2].
Lemma good_16 z s : store FAMILY_KSS16 = Some s -> good FAMILY_KSS16 z s 4.
Proof.
  intros Hs p r Hp Hr. open_store. cbn [pz rz nz] in *.
  assert (En : 70 * z + 25 = peval n16 z) by (unfold n16; cbn [peval]; ring). rewrite En in *.
  rewrite (formula_at _ p16 n16 z (divided 980 p16 n16)) in Hp; [|cbn [num]; unfold p16; generalize (peval n16 z); intros n; cbn [peval]; ring|discriminate|vm_compute; reflexivity].
  rewrite (formula_at _ (m16 ++ [1]) n16 z (divided 61250 (m16 ++ [1]) n16)) in Hr; [|cbn [num]; unfold m16; generalize (peval n16 z); intros n; cbn [peval app]; ring|discriminate|vm_compute; reflexivity].
  apply some_inj in Hp. subst p. apply some_inj in Hr. subst r.
  destruct (family_ok_at 4 (divided 980 p16 n16) (divided 61250 (m16 ++ [1]) n16) (divided 35 t16 n16) (divided 2 [625; 250; 125] n16) (divided 70 [120; 38; 0; 0; 5; 1] n16) z
    ltac:(vm_compute; reflexivity)) as [H1 [y H2]].
  assert (Et : 35 * peval (divided 35 t16 n16) z = peval t16 (peval n16 z)).
  { rewrite <- peval_scale, <- peval_comp. apply peq_ok. vm_compute. reflexivity. }
  assert (Er : 61250 * peval (divided 61250 (m16 ++ [1]) n16) z = peval n16 z ^ Z.of_nat (length m16) + peval m16 (peval n16 z)).
  { rewrite <- peval_scale. transitivity (peval (m16 ++ [1]) (peval n16 z)).
    - rewrite <- peval_comp. apply peq_ok. vm_compute. reflexivity.
    - generalize (peval n16 z). intros n. unfold m16. cbn [app peval length Z.of_nat Pos.of_succ_nat Pos.succ]. ring. }
  exists (peval (divided 35 t16 n16) z), y. split; [|split; [exact H1|split; [|exact H2]]].
  - change (35 * peval (divided 35 t16 n16) z = 2 * peval n16 z ^ 5 + 41 * peval n16 z + 35). rewrite Et. generalize (peval n16 z). intros n. unfold t16. cbn [peval]. ring.
  - apply (phi_transfer _ _ _ _ H1). change (degree_of FAMILY_KSS16) with 16. unfold Phi.
    apply (hom_zero m16 [0; 41; 0; 0; 0; 2] 35 (peval n16 z) _ (phi_list 16)); [discriminate|discriminate| | | |].
    + rewrite Z.mul_sub_distr_l, Et. generalize (peval n16 z). intros n. unfold t16. cbn [peval]. ring.
    + vm_compute. reflexivity.
    + rewrite <- Er. apply Z.divide_factor_r.
    + change 35 with (5 * 7). apply rel_prime_mult; apply no_root_ok; [exact prime5| |exact prime7|]; vm_compute; reflexivity.
Qed.

(** KSS18 *)
Definition n18 := [14; 42].
Definition p18 := [2401; 1763; 343; 259; 188; 37; 7; 5; 1].
Definition m18 := [343; 0; 0; 37; 0; 0].
Definition t18 := [7; 16; 0; 0; 1].
Lemma good_18 z s : store FAMILY_KSS18 = Some s -> good FAMILY_KSS18 z s 3.
Proof.
  intros Hs p r Hp Hr. open_store. cbn [pz rz nz] in *.
  assert (En : 42 * z + 14 = peval n18 z) by (unfold n18; cbn [peval]; ring). rewrite En in *.
  rewrite (formula_at _ p18 n18 z (divided 21 p18 n18)) in Hp; [|cbn [num]; unfold p18; generalize (peval n18 z); intros n; cbn [peval]; ring|discriminate|vm_compute; reflexivity].
  rewrite (formula_at _ (m18 ++ [1]) n18 z (divided 343 (m18 ++ [1]) n18)) in Hr; [|cbn [num]; unfold m18; generalize (peval n18 z); intros n; cbn [peval app]; ring|discriminate|vm_compute; reflexivity].
  apply some_inj in Hp. subst p. apply some_inj in Hr. subst r.
  destruct (family_ok_at 3 (divided 21 p18 n18) (divided 343 (m18 ++ [1]) n18) (divided 7 t18 n18) (divided 3 [343; 245; 49] n18) (divided 21 [259; 94; 0; 14; 5] n18) z
    ltac:(vm_compute; reflexivity)) as [H1 [y H2]].
  assert (Et : 7 * peval (divided 7 t18 n18) z = peval t18 (peval n18 z)).
  { rewrite <- peval_scale, <- peval_comp. apply peq_ok. vm_compute. reflexivity. }
  assert (Er : 343 * peval (divided 343 (m18 ++ [1]) n18) z = peval n18 z ^ Z.of_nat (length m18) + peval m18 (peval n18 z)).
  { rewrite <- peval_scale. transitivity (peval (m18 ++ [1]) (peval n18 z)).
    - rewrite <- peval_comp. apply peq_ok. vm_compute. reflexivity.
    - generalize (peval n18 z). intros n. unfold m18. cbn [app peval length Z.of_nat Pos.of_succ_nat Pos.succ]. ring. }
  exists (peval (divided 7 t18 n18) z), y. split; [|split; [exact H1|split; [|exact H2]]].
  - change (7 * peval (divided 7 t18 n18) z = peval n18 z ^ 4 + 16 * peval n18 z + 7). rewrite Et. generalize (peval n18 z). intros n. unfold t18. cbn [peval]. ring.
  - apply (phi_transfer _ _ _ _ H1). change (degree_of FAMILY_KSS18) with 18. unfold Phi.
    apply (hom_zero m18 [0; 16; 0; 0; 1] 7 (peval n18 z) _ (phi_list 18)); [discriminate|discriminate| | | |].
    + rewrite Z.mul_sub_distr_l, Et. generalize (peval n18 z). intros n. unfold t18. cbn [peval]. ring.
    + vm_compute. reflexivity.
    + rewrite <- Er. apply Z.divide_factor_r.
    + apply no_root_ok; [exact prime7|]; vm_compute; reflexivity.
Qed.

(** KSS40 *)
Definition n40 := [1205; 2370].
Definition p40 := [48828125; -13398638; 9765625; 0; 0; 0; 0; 0; 0; 0; 31160; -10568; 6232; 0; 0; 0; 0; 0; 0; 0; 5; -2; 1].
Definition m40 := [390625; 0; 125000; 0; 24375; 0; 2800; 0; -79; 0; 112; 0; 39; 0; 8; 0].
Definition t40 := [1185; 6469; 0; 0; 0; 0; 0; 0; 0; 0; 0; 2].
Definition h40 := [9765625; -3906250; -1171875; 1250000; -234375; -156250; 78125].
Definition y40 := [-15580; 2642; 0; 0; 0; 0; 0; 0; 0; 0; -5; 1].
Lemma good_40 z s : store FAMILY_KSS40 = Some s -> good FAMILY_KSS40 z s 4.
Proof.
  intros Hs p r Hp Hr. open_store. cbn [pz rz nz] in *.
  assert (En : 2370 * z + 1205 = peval n40 z) by (unfold n40; cbn [peval]; ring). rewrite En in *.
  rewrite (formula_at _ p40 n40 z (divided 1123380 p40 n40)) in Hp; [|cbn [num]; unfold p40; generalize (peval n40 z); intros n; cbn [peval]; ring|discriminate|vm_compute; reflexivity].
  rewrite (formula_at _ (m40 ++ [1]) n40 z (divided 2437890625 (m40 ++ [1]) n40)) in Hr; [|cbn [num]; unfold m40; generalize (peval n40 z); intros n; cbn [peval app]; ring|discriminate|vm_compute; reflexivity].
  apply some_inj in Hp. subst p. apply some_inj in Hr. subst r.
  destruct (family_ok_at 4 (divided 1123380 p40 n40) (divided 2437890625 (m40 ++ [1]) n40) (divided 1185 t40 n40) (divided 36 h40 n40) (divided 2370 y40 n40) z
    ltac:(vm_compute; reflexivity)) as [H1 [y H2]].
  assert (Et : 1185 * peval (divided 1185 t40 n40) z = peval t40 (peval n40 z)).
  { rewrite <- peval_scale, <- peval_comp. apply peq_ok. vm_compute. reflexivity. }
  assert (Er : 2437890625 * peval (divided 2437890625 (m40 ++ [1]) n40) z = peval n40 z ^ Z.of_nat (length m40) + peval m40 (peval n40 z)).
  { rewrite <- peval_scale. transitivity (peval (m40 ++ [1]) (peval n40 z)).
    - rewrite <- peval_comp. apply peq_ok. vm_compute. reflexivity.
    - generalize (peval n40 z). intros n. unfold m40. cbn [app peval length Z.of_nat Pos.of_succ_nat Pos.succ]. ring. }
  exists (peval (divided 1185 t40 n40) z), y. split; [|split; [exact H1|split; [|exact H2]]].
  - change (1185 * peval (divided 1185 t40 n40) z = 2 * peval n40 z ^ 11 + 6469 * peval n40 z + 1185). rewrite Et. generalize (peval n40 z). intros n. unfold t40. cbn [peval]. ring.
  - apply (phi_transfer _ _ _ _ H1). change (degree_of FAMILY_KSS40) with 40. unfold Phi.
    apply (hom_zero m40 [0; 6469; 0; 0; 0; 0; 0; 0; 0; 0; 0; 2] 1185 (peval n40 z) _ (phi_list 40)); [discriminate|discriminate| | | |].
    + rewrite Z.mul_sub_distr_l, Et. generalize (peval n40 z). intros n. unfold t40. cbn [peval]. ring.
    + vm_compute. reflexivity.
    + rewrite <- Er. apply Z.divide_factor_r.
    + change 1185 with (3 * (5 * 79)). apply rel_prime_mult; [|apply rel_prime_mult]; apply no_root_ok;
        [exact prime3| |exact prime5| |exact prime79|]; vm_compute; reflexivity.
Qed.

(** KSS36: 37 may divide r, so the powers are compared as polynomials in z: the sixth power of t - 1 is
    a primitive sixth root of unity modulo r *)
Definition n36 := [287; 777].
Definition p36 := [823543; -386569; 117649; 0; 0; 0; 4781; -2510; 683; 0; 0; 0; 7; -4; 1].
Definition r36 := [117649; 0; 0; 0; 0; 0; 683; 0; 0; 0; 0; 0; 1].
Definition t36 := [259; 757; 0; 0; 0; 0; 0; 2].
Definition u36 := divided 37 [360; 0; 0; 0; 0; 0; 1] n36.
Definition v36 := [1861358298062904253879642443060155100998271154152875139135780763959764; 151178612988925574767146597461197686224501015984368059860380837703316216; 5934682380623445635301395622618430680387177539402766213921316638200397876; 149959291373744251668180435465495002821111728730722194715714241622650077840; 2740414611262012460389046162548583470558420866323748991274720782640847854292; 38579690576098327144428111533152403512489580937244937775067847898047194510872; 435197729059557241027166144957928001244157679663699368651922159787620225745628; 4039605401444159568502144990565913745744092098866853406947083437036119771624832; 31442416432578169744966194750308279333553731133346558539059103549058838455896528; 208082333139155591512162921165158169628462604422090500656591777182785720277731968; 1183024191578867550618459739478673936892932767654147587090784881052813348744301696; 5823311985155077196749150409129807360171548600075801764421158968270986259648730432; 24962123936364947629953050733862596508674329103515081505751492949295136661595844368; 93572839821492848816004455967075127955429791376768582396558087324025034652272445184; 307616635441033649367619172946420730180167585872881123661367442034697802242645881472; 888336820395557577088005656914740121309509850027381895518133939133495114582845479680; 2254696350546629870564316680224738161427272973865390863008349575554506322270387307888; 5026970055594607229108158721556914840411848148077702008634330978755347269590336347424; 9829156897321125660958228452021364259849600259588436134056116454655764726169919319664; 16806722705047125075295544736263776991498694893304976552057252544823482464402866509568; 25025620027881115816029684436066567754491786394213973906065980300440262362333944820672; 32262994461031384211107228962789800796059017982631872593648232955056136078127546470528; 35732518255621224156596654552877906397601795072134222496340125313795811671498875003712; 33648437127244585219740348631662482719354645918350703764761058353754761067322360693248; 26569954926696180858764727171285557819652566403455776895310117129321204830981708313792; 17263990225541128163173789485881878072536132503903810511296964736758445426770445289856; 8988287593973101435798736552218050966470500506253860069202453498030897947333580802880; 3605058438775119275062907885442470306335051693565233848894208991080143350150054088960; 1045718170829368221773474151439322832760951405886082640837780134172201860278717780160; 195247631559394234847528394970167930086569564429529307204362649105322803180719383680; 17619908213896552900874513692429788812690424107055083820881507358285228579723456576].
Lemma e36 z : (peval (divided 259 t36 n36) z - 1) ^ 6 = peval u36 z + peval (divided 161061481 r36 n36) z * peval v36 z.
Proof.
  replace (peval (divided 259 t36 n36) z - 1) with (peval (padd (divided 259 t36 n36) [-1]) z) by (rewrite peval_add; cbn [peval]; ring).
  change 6 with (Z.of_nat 6). rewrite <- peval_pow, <- peval_mul, <- peval_add. apply peq_ok. vm_compute. reflexivity.
Qed.
Lemma u36_ok z : peval u36 z * peval u36 z - peval u36 z + 1 = 117649 * peval (divided 161061481 r36 n36) z.
Proof.
  replace (peval u36 z * peval u36 z - peval u36 z + 1) with (peval (padd (pmul u36 u36) (padd (pscale (-1) u36) [1])) z)
    by (rewrite !peval_add, peval_mul, peval_scale; cbn [peval]; ring).
  rewrite <- peval_scale. apply peq_ok. vm_compute. reflexivity.
Qed.
Lemma phi36 T r u v : T ^ 6 = u + r * v -> u * u - u + 1 = 117649 * r -> (r | Phi 36 T).
Proof.
  intros E6 Eu. replace (Phi 36 T) with ((T ^ 6) * (T ^ 6) - T ^ 6 + 1) by (unfold Phi, phi_list; cbn [Z.eqb Pos.eqb peval]; ring).
  rewrite E6. exists (117649 + 2 * u * v + r * v * v - v).
  replace ((u + r * v) * (u + r * v) - (u + r * v) + 1) with ((u * u - u + 1) + r * (2 * u * v + r * v * v - v)) by ring. rewrite Eu. ring.
Qed.
Lemma good_36 z s : store FAMILY_KSS36 = Some s -> good FAMILY_KSS36 z s 3.
Proof.
  intros Hs p r Hp Hr. open_store. cbn [pz rz nz] in *.
  assert (En : 777 * z + 287 = peval n36 z) by (unfold n36; cbn [peval]; ring). rewrite En in *.
  rewrite (formula_at _ p36 n36 z (divided 28749 p36 n36)) in Hp; [|cbn [num]; unfold p36; generalize (peval n36 z); intros n; cbn [peval]; ring|discriminate|vm_compute; reflexivity].
  rewrite (formula_at _ r36 n36 z (divided 161061481 r36 n36)) in Hr; [|cbn [num]; unfold r36; generalize (peval n36 z); intros n; cbn [peval]; ring|discriminate|vm_compute; reflexivity].
  apply some_inj in Hp. subst p. apply some_inj in Hr. subst r.
  destruct (family_ok_at 3 (divided 28749 p36 n36) (divided 161061481 r36 n36) (divided 259 t36 n36) (divided 3 [117649; -67228; 16807] n36)
    (divided 777 [-4781; 1255; 0; 0; 0; 0; -14; 4] n36) z ltac:(vm_compute; reflexivity)) as [H1 [y H2]].
  assert (Et : 259 * peval (divided 259 t36 n36) z = peval t36 (peval n36 z)).
  { rewrite <- peval_scale, <- peval_comp. apply peq_ok. vm_compute. reflexivity. }
  exists (peval (divided 259 t36 n36) z), y. split; [|split; [exact H1|split; [|exact H2]]].
  - change (259 * peval (divided 259 t36 n36) z = 2 * peval n36 z ^ 7 + 757 * peval n36 z + 259). rewrite Et. generalize (peval n36 z). intros n. unfold t36. cbn [peval]. ring.
  - apply (phi_transfer _ _ _ _ H1). change (degree_of FAMILY_KSS36) with 36.
    exact (phi36 _ _ _ _ (e36 z) (u36_ok z)).
Qed.


Lemma bls_integral z : (z ^ 4 - z ^ 2 + 1) mod 3 = 1 ->
  (exists p, closure_callgen1 (Fm (fun z => (z - 1)^2 * (z^4 - z^2 + 1) + 3 * z) 3) z = Some p) <-> (FAMILY_BLS12 = FAMILY_BLS12 \/ FAMILY_BLS12 = FAMILY_BLS24 -> z mod 3 = 1).
Proof.
  intros X. unfold closure_callgen1. cbn [num den]. split.
  - intros [p H] _. destruct (Z.eqb_spec (((z - 1) ^ 2 * (z ^ 4 - z ^ 2 + 1) + 3 * z) mod 3) 0) as [E|]; [|discriminate].
    destruct (bls_z _ _ X E) as [w ->]. rewrite Z.add_comm, Z.mul_comm, Z.mod_add by lia. reflexivity.
  - intros H. specialize (H ltac:(auto)). pose proof (Z.div_mod z 3 ltac:(lia)) as E. rewrite H in E. set (w := z / 3) in *. clearbody w. subst z.
    replace ((3 * w + 1 - 1) ^ 2 * ((3 * w + 1) ^ 4 - (3 * w + 1) ^ 2 + 1) + 3 * (3 * w + 1))
      with ((3 * w ^ 2 * ((3 * w + 1) ^ 4 - (3 * w + 1) ^ 2 + 1) + (3 * w + 1)) * 3) by ring.
    rewrite Z_mod_mult. cbn [Z.eqb]. eauto.
Qed.
Lemma bls_integral24 z : (z ^ 8 - z ^ 4 + 1) mod 3 = 1 ->
  (exists p, closure_callgen1 (Fm (fun z => (z - 1)^2 * (z^8 - z^4 + 1) + 3 * z) 3) z = Some p) <-> (FAMILY_BLS24 = FAMILY_BLS12 \/ FAMILY_BLS24 = FAMILY_BLS24 -> z mod 3 = 1).
Proof.
  intros X. unfold closure_callgen1. cbn [num den]. split.
  - intros [p H] _. destruct (Z.eqb_spec (((z - 1) ^ 2 * (z ^ 8 - z ^ 4 + 1) + 3 * z) mod 3) 0) as [E|]; [|discriminate].
    destruct (bls_z _ _ X E) as [w ->]. rewrite Z.add_comm, Z.mul_comm, Z.mod_add by lia. reflexivity.
  - intros H. specialize (H ltac:(auto)). pose proof (Z.div_mod z 3 ltac:(lia)) as E. rewrite H in E. set (w := z / 3) in *. clearbody w. subst z.
    replace ((3 * w + 1 - 1) ^ 2 * ((3 * w + 1) ^ 8 - (3 * w + 1) ^ 4 + 1) + 3 * (3 * w + 1))
      with ((3 * w ^ 2 * ((3 * w + 1) ^ 8 - (3 * w + 1) ^ 4 + 1) + (3 * w + 1)) * 3) by ring.
    rewrite Z_mod_mult. cbn [Z.eqb]. eauto.
Qed.

(** ** C46 *)
Lemma family_cases family (Q : Z -> Prop) : In family families ->
  Q FAMILY_BN -> Q FAMILY_BLS12 -> Q FAMILY_BLS24 -> Q FAMILY_KSS16 -> Q FAMILY_KSS18 -> Q FAMILY_KSS36 -> Q FAMILY_KSS40 -> Q family.
Proof. intros I. cbn [families In] in I. destruct I as [<-|[<-|[<-|[<-|[<-|[<-|[<-|[]]]]]]]]; auto. Qed.

(** For every family and every z for which p and r are integers: r divides p + 1 - t and Phi_k(p), and
    4p - t^2 is |D| times a square. *)
Theorem C46_parameters family s z p r : In family families -> store family = Some s ->
  closure_callgen1 (pz s) (nz s z) = Some p -> closure_callgen1 (rz s) (nz s z) = Some r ->
  exists t y, trace_of family (nz s z) t /\ (r | p + 1 - t) /\ (r | Phi (degree_of family) p) /\ 4 * p - t ^ 2 = - D s * (y * y).
Proof.
  intros I Hs Hp Hr.
  assert (G : good family z s (- D s)).
  { revert Hs. clear Hp Hr. revert s. pattern family. apply (family_cases family); [exact I| | | | | | |]; intros s Hs; pose proof Hs as Hs'; open_store; cbn [D].
    - apply (good_bn z _ Hs). - apply (good_bls12 z _ Hs). - apply (good_bls24 z _ Hs). - apply (good_16 z _ Hs).
    - apply (good_18 z _ Hs). - apply (good_36 z _ Hs). - apply (good_40 z _ Hs). }
  exact (G p r Hp Hr).
Qed.
Example C46_ex : exists s, store FAMILY_KSS16 = Some s /\ closure_callgen1 (pz s) (nz s 1) = Some 62415714535676897 /\ closure_callgen1 (rz s) (nz s 1) = Some 108313603633.
Proof. eexists. split; [reflexivity|]. split; vm_compute; reflexivity. Qed.

(** p and r are integers for every z, for the BLS families exactly when z = 1 modulo 3. *)
Theorem C46_integral family s z : In family families -> store family = Some s ->
  (exists p, closure_callgen1 (pz s) (nz s z) = Some p) <-> (family = FAMILY_BLS12 \/ family = FAMILY_BLS24 -> z mod 3 = 1).
Proof.
  intros I. revert s. pattern family. apply (family_cases family); [exact I| | | | | | |]; clear; intros s Hs; open_store; cbn [pz nz].
  - split; [intros _ [C|C]; discriminate|]. intros _. rewrite whole by reflexivity. eauto.
  - assert (X : (z ^ 4 - z ^ 2 + 1) mod 3 = 1).
    { replace (z ^ 4 - z ^ 2 + 1) with (peval [1; 0; -1; 0; 1] z) by (cbn [peval]; ring). apply (mod3_fun [1; 0; -1; 0; 1]). reflexivity. }
    apply bls_integral, X.
  - assert (X : (z ^ 8 - z ^ 4 + 1) mod 3 = 1).
    { replace (z ^ 8 - z ^ 4 + 1) with (peval [1; 0; 0; 0; -1; 0; 0; 0; 1] z) by (cbn [peval]; ring). apply (mod3_fun [1; 0; 0; 0; -1; 0; 0; 0; 1]). reflexivity. }
    apply bls_integral24, X.
  - split; [intros _ [C|C]; discriminate|]. intros _. eexists. replace (70 * z + 25) with (peval n16 z) by (unfold n16; cbn [peval]; ring).
    apply (formula_at _ p16 n16 z (divided 980 p16 n16)); [cbn [num]; unfold p16; generalize (peval n16 z); intros n; cbn [peval]; ring|discriminate|vm_compute; reflexivity].
  - split; [intros _ [C|C]; discriminate|]. intros _. eexists. replace (42 * z + 14) with (peval n18 z) by (unfold n18; cbn [peval]; ring).
    apply (formula_at _ p18 n18 z (divided 21 p18 n18)); [cbn [num]; unfold p18; generalize (peval n18 z); intros n; cbn [peval]; ring|discriminate|vm_compute; reflexivity].
  - split; [intros _ [C|C]; discriminate|]. intros _. eexists. replace (777 * z + 287) with (peval n36 z) by (unfold n36; cbn [peval]; ring).
    apply (formula_at _ p36 n36 z (divided 28749 p36 n36)); [cbn [num]; unfold p36; generalize (peval n36 z); intros n; cbn [peval]; ring|discriminate|vm_compute; reflexivity].
  - split; [intros _ [C|C]; discriminate|]. intros _. eexists. replace (2370 * z + 1205) with (peval n40 z) by (unfold n40; cbn [peval]; ring).
    apply (formula_at _ p40 n40 z (divided 1123380 p40 n40)); [cbn [num]; unfold p40; generalize (peval n40 z); intros n; cbn [peval]; ring|discriminate|vm_compute; reflexivity].
Qed.

(** ** The embedding degree is exactly k *)
Lemma natlike_ind_strong (Q : Z -> Prop) : (forall b, 0 <= b -> (forall y, 0 <= y < b -> Q y) -> Q b) -> forall b, 0 <= b -> Q b.
Proof.
  intros H b Hb. assert (X : forall n y, 0 <= y < Z.of_nat n -> Q y).
  { induction n as [|n IH]; intros y Hy; [lia|]. apply H; [lia|]. intros x Hx. apply IH. lia. }
  apply (X (Z.to_nat (b + 1))). lia.
Qed.
Lemma pow_gcd r p : forall b, 0 <= b -> forall a, 0 <= a -> (r | p ^ a - 1) -> (r | p ^ b - 1) -> (r | p ^ Z.gcd a b - 1).
Proof.
  apply (natlike_ind_strong (fun b => forall a, 0 <= a -> (r | p ^ a - 1) -> (r | p ^ b - 1) -> (r | p ^ Z.gcd a b - 1))). intros b Hb IH a Ha Da Db.
  destruct (Z.eq_dec b 0) as [->|N]; [rewrite Z.gcd_0_r, Z.abs_eq by lia; exact Da|].
  pose proof (Z.mod_pos_bound a b ltac:(lia)) as B. rewrite Z.gcd_comm, <- Z.gcd_mod by exact N.
  rewrite Z.gcd_comm. apply IH; [lia|lia|exact Db|].
  assert (Q : forall k, (r | (p ^ b) ^ Z.of_nat k - 1)).
  { induction k as [|k IHk]; [rewrite Z.pow_0_r; apply Z.divide_0_r|]. rewrite Nat2Z.inj_succ, Z.pow_succ_r by lia.
    replace (p ^ b * (p ^ b) ^ Z.of_nat k - 1) with (p ^ b * ((p ^ b) ^ Z.of_nat k - 1) + (p ^ b - 1)) by ring.
    apply Z.divide_add_r; [apply Z.divide_mul_r; exact IHk|exact Db]. }
  specialize (Q (Z.to_nat (a / b))). rewrite Z2Nat.id in Q by (apply Z.div_pos; lia). rewrite <- Z.pow_mul_r in Q by (try lia; apply Z.div_pos; lia).
  pose proof (Z.div_mod a b N) as E.
  assert (Hq : 0 <= b * (a / b)) by (apply Z.mul_nonneg_nonneg; [lia|apply Z.div_pos; lia]).
  assert (Ea : p ^ a = p ^ (b * (a / b)) * p ^ (a mod b)) by (rewrite <- Z.pow_add_r by lia; f_equal; exact E).
  replace (p ^ (a mod b) - 1) with ((p ^ a - 1) - p ^ (a mod b) * (p ^ (b * (a / b)) - 1)) by (rewrite Ea; ring).
  apply Z.divide_sub_r; [exact Da|apply Z.divide_mul_r; exact Q].
Qed.

(** the primes q dividing k, with the number k / q *)
Definition maximal (k : Z) : list (Z * Z) :=
  filter (fun qm => (fst qm * snd qm =? k)) [(2, k / 2); (3, k / 3); (5, k / 5)].
Lemma phi_sum k : In k [12; 24; 16; 18; 36; 40] -> forall q m x, In (q, m) (maximal k) ->
  exists A, Phi k x * A = match q with 2 => x ^ m + 1 | 3 => x ^ m * x ^ m + x ^ m + 1 | _ => x ^ m * x ^ m * (x ^ m * x ^ m) + x ^ m * (x ^ m * x ^ m) + x ^ m * x ^ m + x ^ m + 1 end.
Proof.
  intros I q m x J. cbn [In] in I. unfold Phi, phi_list.
  destruct I as [<-|[<-|[<-|[<-|[<-|[<-|[]]]]]]]; cbn in J.
  - destruct J as [[= <- <-]|[[= <- <-]|[]]]; cbn [Z.eqb Pos.eqb peval]; [exists (x ^ 2 + 1)|exists (x ^ 4 + x ^ 2 + 1)]; ring.
  - destruct J as [[= <- <-]|[[= <- <-]|[]]]; cbn [Z.eqb Pos.eqb peval]; [exists (x ^ 4 + 1)|exists (x ^ 8 + x ^ 4 + 1)]; ring.
  - destruct J as [[= <- <-]|[]]; cbn [Z.eqb Pos.eqb peval]; exists 1; ring.
  - destruct J as [[= <- <-]|[[= <- <-]|[]]]; cbn [Z.eqb Pos.eqb peval]; [exists (x ^ 3 + 1)|exists (x ^ 6 + x ^ 3 + 1)]; ring.
  - destruct J as [[= <- <-]|[[= <- <-]|[]]]; cbn [Z.eqb Pos.eqb peval]; [exists (x ^ 6 + 1)|exists (x ^ 12 + x ^ 6 + 1)]; ring.
  - destruct J as [[= <- <-]|[[= <- <-]|[]]]; cbn [Z.eqb Pos.eqb peval]; [exists (x ^ 4 + 1)|exists (x ^ 16 + x ^ 12 + x ^ 8 + x ^ 4 + 1)]; ring.
Qed.

Lemma phi_divides k x : In k [12; 24; 16; 18; 36; 40] -> (Phi k x | x ^ k - 1).
Proof.
  intros I. cbn [In] in I. destruct I as [<-|[<-|[<-|[<-|[<-|[<-|[]]]]]]].
  - rewrite <- phi_12. apply Z.divide_factor_l.
  - rewrite <- phi_24. apply Z.divide_factor_l.
  - rewrite <- phi_16. apply Z.divide_factor_l.
  - rewrite <- phi_18. apply Z.divide_factor_l.
  - rewrite <- phi_36. apply Z.divide_factor_l.
  - rewrite <- phi_40. apply Z.divide_factor_l.
Qed.

Lemma exact_order k r p : In k [12; 24; 16; 18; 36; 40] -> prime r -> ~ (r | k) -> (r | Phi k p) ->
  (r | p ^ k - 1) /\ forall j, 0 < j < k -> ~ (r | p ^ j - 1).
Proof.
  intros I Pr Nk Hd. assert (Hk : (r | p ^ k - 1)) by (eapply Z.divide_trans; [exact Hd|apply phi_divides, I]).
  split; [exact Hk|]. intros j Hj Dj.
  assert (Kp : 0 < k) by (cbn [In] in I; lia).
  assert (G : exists q m, In (q, m) (maximal k) /\ (Z.gcd j k | m) /\ 0 <= m).
  { assert (Ch : forallb (fun k => forallb (fun j => existsb (fun qm => (snd qm mod Z.gcd j k =? 0) && (0 <=? snd qm)) (maximal k)) (zrange 1 (Z.to_nat (k - 1)))) [12; 24; 16; 18; 36; 40] = true)
      by (vm_compute; reflexivity).
    rewrite forallb_forall in Ch. specialize (Ch k I). rewrite forallb_forall in Ch. specialize (Ch j). rewrite in_zrange in Ch. specialize (Ch ltac:(lia)).
    apply existsb_exists in Ch. destruct Ch as ([q m] & Iq & E). cbn [snd] in E. exists q, m. split; [exact Iq|].
    assert (Gp : 0 < Z.gcd j k) by (pose proof (Z.gcd_nonneg j k); destruct (Z.eq_dec (Z.gcd j k) 0) as [C|C]; [apply Z.gcd_eq_0_l in C; lia|lia]).
    split; [apply Z.mod_divide; lia|lia]. }
  destruct G as (q & m & Iq & [c Gm] & Hm).
  pose proof (pow_gcd r p k ltac:(lia) j ltac:(lia) Dj Hk) as Dg.
  assert (Gp : 0 < Z.gcd j k) by (pose proof (Z.gcd_nonneg j k); destruct (Z.eq_dec (Z.gcd j k) 0) as [C|C]; [apply Z.gcd_eq_0_l in C; lia|lia]).
  assert (Dm : (r | p ^ m - 1)).
  { assert (Hc : 0 <= c) by (clear - Gm Hm Gp; destruct (Z.lt_ge_cases c 0); [exfalso; assert (c * Z.gcd j k < 0) by (apply Z.mul_neg_pos; lia); lia|lia]).
    rewrite Gm, Z.mul_comm, Z.pow_mul_r by lia. set (x := p ^ Z.gcd j k) in *.
    rewrite <- (Z2Nat.id c) by exact Hc. generalize (Z.to_nat c). intros n. induction n as [|n IHn]; [apply Z.divide_0_r|].
    rewrite Nat2Z.inj_succ, Z.pow_succ_r by lia. replace (x * x ^ Z.of_nat n - 1) with (x * (x ^ Z.of_nat n - 1) + (x - 1)) by ring.
    apply Z.divide_add_r; [apply Z.divide_mul_r; exact IHn|exact Dg]. }
  destruct (phi_sum k I q m p Iq) as [A EA].
  assert (Ds : (r | match q with 2 => p ^ m + 1 | 3 => p ^ m * p ^ m + p ^ m + 1 | _ => p ^ m * p ^ m * (p ^ m * p ^ m) + p ^ m * (p ^ m * p ^ m) + p ^ m * p ^ m + p ^ m + 1 end)).
  { rewrite <- EA. apply Z.divide_mul_l. exact Hd. }
  assert (Q : (r | q) /\ (q | k)).
  { unfold maximal in Iq. apply filter_In in Iq. destruct Iq as [Iq Ek]. cbn [fst snd] in Ek. split; [|exists m; lia].
    set (y := p ^ m) in *. clearbody y. cbn [In] in Iq. destruct Dm as [d Dm]. assert (y = d * r + 1) as -> by lia. destruct Ds as [e De].
    destruct Iq as [[= <- <-]|[[= <- <-]|[[= <- <-]|[]]]]; cbn iota in De.
    - exists (e - d). lia.
    - exists (e - (d * d * r + 3 * d)). replace ((d * r + 1) * (d * r + 1) + (d * r + 1) + 1) with ((d * d * r + 3 * d) * r + 3) in De by ring.
      rewrite Z.mul_sub_distr_r. lia.
    - set (g := d * d * d * d * r * r * r + 5 * d * d * d * r * r + 10 * d * d * r + 10 * d).
      exists (e - g). rewrite Z.mul_sub_distr_r, <- De. unfold g. ring. }
  apply Nk. destruct Q. eapply Z.divide_trans; eassumption.
Qed.

(** When r is prime and does not divide k, k is the embedding degree: r divides p^k - 1 and no earlier
    p^j - 1. *)
Theorem C46_embedding family s z p r : In family families -> store family = Some s ->
  closure_callgen1 (pz s) (nz s z) = Some p -> closure_callgen1 (rz s) (nz s z) = Some r ->
  prime r -> ~ (r | degree_of family) ->
  (r | p ^ degree_of family - 1) /\ forall j, 0 < j < degree_of family -> ~ (r | p ^ j - 1).
Proof.
  intros I Hs Hp Hr Pr Nk. destruct (C46_parameters family s z p r I Hs Hp Hr) as (t & y & _ & _ & Hphi & _).
  apply exact_order; auto. clear - I. pattern family. apply (family_cases family _ I); cbn; tauto.
Qed.

(** The stored trace is the trace of the family, except for BN. It is not used by the program.
    Full statement: for every family; false, see [C46_trace_refuted]. *)
Theorem C46_trace_partial family s z : In family families -> family <> FAMILY_BN -> store family = Some s ->
  exists t, closure_callgen1 (tz s) (nz s z) = Some t /\ trace_of family (nz s z) t.
Proof.
  intros I. revert s. pattern family. apply (family_cases family _ I); clear; intros s N Hs; open_store; cbn [tz nz].
  - congruence.
  - exists (z + 1). split; [apply whole; reflexivity|reflexivity].
  - exists (z + 1). split; [apply whole; reflexivity|reflexivity].
  - replace (70 * z + 25) with (peval n16 z) by (unfold n16; cbn [peval]; ring). exists (peval (divided 35 t16 n16) z). split.
    + apply (formula_at _ t16); [cbn [num]; unfold t16; generalize (peval n16 z); intros n; cbn [peval]; ring|discriminate|vm_compute; reflexivity].
    + change (35 * peval (divided 35 t16 n16) z = 2 * peval n16 z ^ 5 + 41 * peval n16 z + 35).
      transitivity (peval t16 (peval n16 z)); [rewrite <- peval_scale, <- peval_comp; apply peq_ok; vm_compute; reflexivity|].
      generalize (peval n16 z). intros n. unfold t16. cbn [peval]. ring.
  - replace (42 * z + 14) with (peval n18 z) by (unfold n18; cbn [peval]; ring). exists (peval (divided 7 t18 n18) z). split.
    + apply (formula_at _ t18); [cbn [num]; unfold t18; generalize (peval n18 z); intros n; cbn [peval]; ring|discriminate|vm_compute; reflexivity].
    + change (7 * peval (divided 7 t18 n18) z = peval n18 z ^ 4 + 16 * peval n18 z + 7).
      transitivity (peval t18 (peval n18 z)); [rewrite <- peval_scale, <- peval_comp; apply peq_ok; vm_compute; reflexivity|].
      generalize (peval n18 z). intros n. unfold t18. cbn [peval]. ring.
  - replace (777 * z + 287) with (peval n36 z) by (unfold n36; cbn [peval]; ring). exists (peval (divided 259 t36 n36) z). split.
    + apply (formula_at _ t36); [cbn [num]; unfold t36; generalize (peval n36 z); intros n; cbn [peval]; ring|discriminate|vm_compute; reflexivity].
    + change (259 * peval (divided 259 t36 n36) z = 2 * peval n36 z ^ 7 + 757 * peval n36 z + 259).
      transitivity (peval t36 (peval n36 z)); [rewrite <- peval_scale, <- peval_comp; apply peq_ok; vm_compute; reflexivity|].
      generalize (peval n36 z). intros n. unfold t36. cbn [peval]. ring.
  - replace (2370 * z + 1205) with (peval n40 z) by (unfold n40; cbn [peval]; ring). exists (peval (divided 1185 t40 n40) z). split.
    + apply (formula_at _ t40); [cbn [num]; unfold t40; generalize (peval n40 z); intros n; cbn [peval]; ring|discriminate|vm_compute; reflexivity].
    + change (1185 * peval (divided 1185 t40 n40) z = 2 * peval n40 z ^ 11 + 6469 * peval n40 z + 1185).
      transitivity (peval t40 (peval n40 z)); [rewrite <- peval_scale, <- peval_comp; apply peq_ok; vm_compute; reflexivity|].
      generalize (peval n40 z). intros n. unfold t40. cbn [peval]. ring.
Qed.
Theorem C46_trace_refuted : exists s z p r t, store FAMILY_BN = Some s /\
  closure_callgen1 (pz s) (nz s z) = Some p /\ closure_callgen1 (rz s) (nz s z) = Some r /\ closure_callgen1 (tz s) (nz s z) = Some t /\
  prime p /\ prime r /\ ~ (r | p + 1 - t).
Proof.
  eexists _, (-2), 373, 349, (-11). split; [reflexivity|]. repeat (split; [vm_compute; reflexivity|]).
  split; [small_prime|]. split; [small_prime|]. intros H. apply Z.mod_divide in H; [discriminate|lia].
Qed.

(** What the program accepts: the field and the order of its subgroup are prime, and the accepted order
    of the curve is a multiple of r, the number of points. *)
Theorem C46_accepted isprime family s z p :
  (forall n, isprime n = true <-> prime n) -> In family families -> store family = Some s -> family_gen_field isprime s z = Some p ->
  prime p /\ exists r t y, prime r /\ trace_of family (nz s z) t /\ (r | p + 1 - t) /\ (r | Phi (degree_of family) p) /\
    4 * p - t ^ 2 = - D s * (y * y) /\
    forall card, family_gen_order s z card = Ok (if card mod r =? 0 then Some card else None).
Proof.
  intros Hprime I Hs H. unfold family_gen_field in H.
  destruct (closure_callgen1 (pz s) (nz s z)) as [p'|] eqn:Ep; [|discriminate]. destruct (isprime p') eqn:Pp; [|discriminate].
  destruct (closure_callgen1 (rz s) (nz s z)) as [r|] eqn:Er; [|discriminate]. destruct (isprime r) eqn:Pr; [|discriminate].
  apply some_inj in H. subst p'. split; [apply Hprime, Pp|].
  destruct (C46_parameters family s z p r I Hs Ep Er) as (t & y & H1 & H2 & H3 & H4). exists r, t, y.
  split; [apply Hprime, Pr|]. do 4 (split; [assumption|]). intros card. unfold family_gen_order. rewrite Er. reflexivity.
Qed.
Example C46_accepted_ex : exists s, store FAMILY_BN = Some s /\ family_gen_field isprime_b s 1 = Some 103 /\
  family_gen_order s 1 97 = Ok (Some 97) /\ family_gen_order s 1 100 = Ok None.
Proof. eexists. split; [reflexivity|]. split; [|split]; vm_compute; reflexivity. Qed.

Print Assumptions C46_parameters.
Print Assumptions C46_integral.
Print Assumptions C46_embedding.
Print Assumptions C46_trace_partial.
Print Assumptions C46_trace_refuted.
Print Assumptions C46_accepted.
