(** C86: the checks of the largest prime factor of the order and of the discriminant. *)
From Coq Require Import Ascii String Znumtheory Sorted.
From Verif Require Import Base Primes Cli_Model Cli_Spec Input_Model Input_Props Hex_Model Gens_Props OrderCheck_Model.
From Verif Require Engine_Model.
Import ListNotations.
Local Open Scope Z_scope.
Local Open Scope list_scope.

(** ** What PARI gives *)
(** factor(n): the primes that divide n, in increasing order *)
Definition factor_ok (factor_primes : Z -> list Z) : Prop :=
  forall n, 1 <= n -> (forall q, In q (factor_primes n) <-> prime q /\ (q | n)) /\ StronglySorted Z.lt (factor_primes n).
(** core(n): n without its square factors *)
Definition squarefree_part (n d : Z) : Prop := squarefree d /\ exists f, 0 < f /\ n = d * (f * f).
Definition core_ok (core : Z -> Z) : Prop := forall n, n <> 0 -> squarefree_part n (core n).

(** ** The largest prime factor *)
Lemma strtoi_exact t v : magnitude t v -> strtoi t = v.
Proof. intros H. rewrite <- (app_nil_r t). apply (strtoi_magnitude t v [] H). now left. Qed.
Lemma last_largest (l : list Z) x r : StronglySorted Z.lt l -> rev l = x :: r -> In x l /\ forall y, In y l -> y <= x.
Proof.
  intros S R. assert (E : l = rev r ++ [x]) by (rewrite <- (rev_involutive l), R; reflexivity). split; [rewrite E; apply in_or_app; right; now left|].
  revert E. generalize (rev r) as m. clear R r. induction S as [|y l S IH F]; intros m E z I; [destruct I|].
  destruct m as [|y' m]; cbn [app] in E; injection E as E1 E2.
  - subst. destruct I as [->|I]; [lia|destruct I].
  - subst y'. destruct I as [<-|I]; [|exact (IH m E2 z I)]. rewrite Forall_forall in F. specialize (F x ltac:(rewrite E2; apply in_or_app; right; now left)). lia.
Qed.
(** C86, first part. The check passes exactly if a prime above the bound divides the order; otherwise it goes back to the
    field. *)
Theorem C86_pohlig_hellman factor_primes N t v : factor_ok factor_primes -> 1 < N -> magnitude t v ->
  (order_check_pohlig_hellman factor_primes N (Some t) = Ok 1 /\ exists q, prime q /\ (q | N) /\ v < q) \/
  (order_check_pohlig_hellman factor_primes N (Some t) = Ok (OFFSET_FIELD - OFFSET_ORDER) /\ forall q, prime q -> (q | N) -> q <= v).
Proof.
  intros F L M. destruct (F N ltac:(lia)) as (P & S). unfold order_check_pohlig_hellman. rewrite (strtoi_exact t v M). cbv zeta.
  destruct (rev (factor_primes N)) as [|x r] eqn:R.
  - exfalso. destruct (prime_factor N L) as (q & Q & D). assert (I : In q (factor_primes N)) by (apply P; auto). apply in_rev in I. rewrite R in I. destruct I.
  - destruct (last_largest _ _ _ S R) as (I & X). destruct (Z.leb_spec x v) as [G|G]; [right|left].
    + split; [reflexivity|]. intros q Q D. specialize (X q ltac:(apply P; auto)). lia.
    + split; [reflexivity|]. exists x. apply P in I. destruct I. auto.
Qed.
Theorem C86_no_argument factor_primes core binary p N : order_check_pohlig_hellman factor_primes N None = Ok Engine_Model.INT_MIN /\
  order_check_discriminant core binary p N None = Ok Engine_Model.INT_MIN.
Proof. split; reflexivity. Qed.
(** A curve with one point: y^2 = x^3 + 2x + 2 over three elements. The check reads an entry that is not there. *)
Theorem C86_one_point_refuted : (forall x y, 0 <= x < 3 -> 0 <= y < 3 -> (y * y) mod 3 <> (x * x * x + 2 * x + 2) mod 3) /\
  (4 * 2 ^ 3 + 27 * 2 ^ 2) mod 3 <> 0 /\
  forall factor_primes t, factor_ok factor_primes -> order_check_pohlig_hellman factor_primes 1 (Some t) = UB.
Proof.
  split; [|split; [vm_compute; discriminate|]].
  - intros x y X Y. assert (X' : x = 0 \/ x = 1 \/ x = 2) by lia. assert (Y' : y = 0 \/ y = 1 \/ y = 2) by lia.
    destruct X' as [->|[->| ->]], Y' as [->|[->| ->]]; vm_compute; discriminate.
  - intros fp t F. destruct (F 1 ltac:(lia)) as (P & _). unfold order_check_pohlig_hellman. cbv zeta. destruct (rev (fp 1)) as [|x r] eqn:R; [reflexivity|].
    assert (I : In x (fp 1)) by (apply in_rev; rewrite R; now left). apply P in I. destruct I as (Q & D). pose proof (prime_ge_2 x Q). apply Z.divide_1_r in D. lia.
Qed.

(** ** The discriminant *)
Lemma coprime_square_divides a b d : Z.gcd a b = 1 -> (a * a | d * (b * b)) -> (a * a | d).
Proof.
  intros G D. assert (R : rel_prime a b) by (apply Zgcd_1_rel_prime; exact G).
  apply Gauss with (b * b); [rewrite (Z.mul_comm (b * b) d); exact D|]. apply rel_prime_mult; apply rel_prime_sym; apply rel_prime_mult; apply rel_prime_sym; exact R.
Qed.
(** a number has one square free part *)
Lemma part_unique n d e : n <> 0 -> squarefree_part n d -> squarefree_part n e -> d = e.
Proof.
  intros N (D & f & F & E1) (G & g & Gp & E2). set (h := Z.gcd f g).
  assert (H : 0 < h) by (pose proof (Z.gcd_nonneg f g); assert (h <> 0) by (intros X; apply Z.gcd_eq_0_l in X; lia); unfold h in *; lia).
  destruct (Z.gcd_divide_l f g) as (f1 & F1). destruct (Z.gcd_divide_r f g) as (g1 & G1). fold h in F1, G1.
  assert (C : Z.gcd f1 g1 = 1). { assert (X : Z.gcd f g = Z.gcd f1 g1 * h) by (rewrite F1, G1 at 1; rewrite Z.gcd_mul_mono_r, Z.abs_eq by lia; reflexivity). fold h in X. nia. }
  assert (E : d * (f1 * f1) = e * (g1 * g1)).
  { apply (Z.mul_reg_r _ _ (h * h)); [nia|]. transitivity n; [rewrite E1, F1; ring|rewrite E2, G1; ring]. }
  assert (P1 : 0 < f1) by nia. assert (P2 : 0 < g1) by nia.
  assert (Q1 : f1 = 1). { assert (~ 1 < f1); [intros X; apply (G f1 X); apply (coprime_square_divides f1 g1); [exact C|exists d; lia]|lia]. }
  assert (Q2 : g1 = 1). { assert (~ 1 < g1); [intros X; apply (D g1 X); apply (coprime_square_divides g1 f1); [rewrite Z.gcd_comm; exact C|exists e; lia]|lia]. }
  subst f1 g1. lia.
Qed.
Lemma not_square p t : prime p -> t * t - 4 * p <> 0.
Proof.
  intros P E. pose proof (prime_ge_2 p P) as L. assert (D : (p | t * t)) by (exists 4; lia).
  assert (D' : (p | t)) by (destruct (prime_mult p P t t D); assumption). destruct D' as (k & ->). assert (K : k * k * p = 4) by nia.
  assert (K1 : k <> 0) by (intros ->; lia). assert (K2 : 1 <= k * k) by nia. assert (p <= 4) by nia. assert (p = 2 \/ p = 3 \/ p = 4) by lia. destruct H0 as [->|[->| ->]]; [|lia|].
  - assert (k * k = 2) by lia. assert (-2 <= k <= 2) by nia. assert (k = -2 \/ k = -1 \/ k = 0 \/ k = 1 \/ k = 2) by lia. destruct H2 as [->|[->|[->|[->| ->]]]]; discriminate H0.
  - assert (X : (2 | 4)) by (exists 2; reflexivity). destruct (prime_divisors 4 P 2 X) as [|[|[|]]]; lia.
Qed.
(** C86, second part. The check passes exactly if the square free part of t^2 - 4p is above the bound, t being the trace
    p + 1 - N; otherwise it goes back to the field. *)
Theorem C86_discriminant core p N t v : core_ok core -> prime p -> magnitude t v -> 0 <= v ->
  let tp := (p + 1 - N) * (p + 1 - N) - 4 * p in
  exists d, squarefree_part tp d /\ (forall e, squarefree_part tp e -> e = d) /\
    ((order_check_discriminant core false p N (Some t) = Ok 1 /\ v < Z.abs d) \/
     (order_check_discriminant core false p N (Some t) = Ok (OFFSET_FIELD - OFFSET_ORDER) /\ Z.abs d <= v)).
Proof.
  intros C P M V tp. pose proof (not_square p (p + 1 - N) P) as Z0. fold tp in Z0. exists (core tp). pose proof (C tp Z0) as S. split; [exact S|].
  split; [intros e E; exact (part_unique tp e (core tp) Z0 E S)|].
  unfold order_check_discriminant. cbv zeta. rewrite (strtoi_exact t v M). replace (- (N - (p + 1)) * - (N - (p + 1)) - p * 4) with tp by (unfold tp; ring).
  rewrite (Z.abs_eq v V). destruct (Z.leb_spec (Z.abs (core tp)) v); [right|left]; auto.
Qed.
Theorem C86_binary core p N t : order_check_discriminant core true p N (Some t) = Ok 1.
Proof. reflexivity. Qed.
(** In terms of the discriminant of the field of t^2 - 4p: if it is even a quarter of it is compared. *)
Theorem C86_fundamental core p N t v D y : core_ok core -> prime p -> magnitude t v -> 0 <= v ->
  fundamental D -> 0 < y -> (p + 1 - N) * (p + 1 - N) - 4 * p = D * (y * y) ->
  order_check_discriminant core false p N (Some t) = Ok 1 <-> v < Z.abs (if D mod 4 =? 1 then D else D / 4).
Proof.
  intros C P M V FD Y E. destruct (C86_discriminant core p N t v C P M V) as (d & S & U & H).
  assert (X : d = if D mod 4 =? 1 then D else D / 4).
  { symmetry. apply U. destruct FD as [(D1 & Sq)|(m & -> & Sq & _)].
    - rewrite D1. split; [exact Sq|]. exists y. auto.
    - replace (4 * m) with (m * 4) in * by ring. rewrite Z.mod_mul by lia. cbn [Z.eqb]. rewrite Z.div_mul by lia. split; [exact Sq|]. exists (2 * y). split; [lia|]. rewrite E. ring. }
  rewrite <- X. destruct H as [(-> & H)|(-> & H)]; split; intros Q; try exact H; try reflexivity; [discriminate Q|lia].
Qed.
(** A curve over 19 elements with 26 points has the discriminant -40, and a check for more than 12 refuses it. *)
Theorem C86_discriminant_refuted : exists p N D y, prime p /\ fundamental D /\ 0 < y /\ (p + 1 - N) * (p + 1 - N) - 4 * p = D * (y * y) /\ 12 < Z.abs D /\
  forall core, core_ok core -> order_check_discriminant core false p N (Some (lit "12")) = Ok (OFFSET_FIELD - OFFSET_ORDER).
Proof.
  exists 19, 26, (-40), 1. assert (P : prime 19) by (apply isprime_b_ok; vm_compute; reflexivity).
  assert (M : magnitude (lit "12") 12) by (change 12 with (dec (lit "12")); is_dec).
  assert (Sq : squarefree (-10)).
  { intros k K (q & D). assert (L : k * k <= 10) by (apply Z.divide_pos_le; [lia|]; exists (- q); lia). assert (k = 2 \/ k = 3) as [->| ->] by nia; lia. }
  assert (F : fundamental (-40)) by (right; exists (-10); split; [reflexivity|]; split; [exact Sq|left; reflexivity]).
  split; [exact P|]. split; [exact F|]. split; [lia|]. split; [reflexivity|]. split; [vm_compute; reflexivity|]. intros core C.
  destruct (C86_discriminant core 19 26 (lit "12") 12 C P M ltac:(lia)) as (d & S & U & [(_ & H)|(H & _)]); [|exact H].
  assert (X : -10 = d). { apply U. split; [exact Sq|]. exists 2. split; [lia|reflexivity]. } subst d. vm_compute in H. discriminate H.
Qed.

(** ** Functions as PARI's *)
Definition numbers (n : Z) : list Z := map Z.of_nat (seq 1 (Z.to_nat n)).
Lemma in_numbers n x : In x (numbers n) <-> 1 <= x <= n.
Proof.
  unfold numbers. rewrite in_map_iff. split.
  - intros (k & <- & K). apply in_seq in K. lia.
  - intros H. exists (Z.to_nat x). split; [lia|]. apply in_seq. lia.
Qed.
Lemma sorted_numbers n : StronglySorted Z.lt (numbers n).
Proof.
  unfold numbers. generalize 1%nat as s. induction (Z.to_nat n) as [|k IH]; intros s; cbn [seq map]; [constructor|]. constructor; [apply IH|].
  apply Forall_forall. intros x X. apply in_map_iff in X. destruct X as (j & <- & J). apply in_seq in J. lia.
Qed.
Lemma sorted_filter (f : Z -> bool) l : StronglySorted Z.lt l -> StronglySorted Z.lt (filter f l).
Proof.
  induction 1 as [|x l S IH F]; cbn [filter]; [constructor|]. destruct (f x); [|exact IH]. constructor; [exact IH|].
  apply Forall_forall. intros y Y. apply filter_In in Y. rewrite Forall_forall in F. apply F, Y.
Qed.
Definition factor_x (n : Z) : list Z := filter (fun q => if n mod q =? 0 then isprime_b q else false) (numbers n).
Lemma factor_x_ok : factor_ok factor_x.
Proof.
  intros n L. split; [|apply sorted_filter, sorted_numbers]. intros q. unfold factor_x. rewrite filter_In, in_numbers. split.
  - intros (R & H). destruct (Z.eqb_spec (n mod q) 0) as [M|M]; [|discriminate H]. split; [now apply isprime_b_ok|]. apply Z.mod_divide; [lia|exact M].
  - intros (P & D). pose proof (prime_ge_2 q P). pose proof (Z.divide_pos_le q n ltac:(lia) D). split; [lia|]. apply Z.mod_divide in D; [|lia]. rewrite D. cbn. now apply isprime_b_ok.
Qed.
Definition side_x (n : Z) : Z := last (filter (fun f => n mod (f * f) =? 0) (numbers (Z.abs n))) 1.
Definition core_x (n : Z) : Z := n / (side_x n * side_x n).
Lemma last_max l d : StronglySorted Z.lt l -> l <> [] -> In (last l d) l /\ forall y, In y l -> y <= last l d.
Proof.
  intros S N. destruct (rev l) as [|x r] eqn:R; [exfalso; apply N; rewrite <- (rev_involutive l), R; reflexivity|].
  assert (E : last l d = x) by (rewrite <- (rev_involutive l), R; cbn [rev]; apply last_last). rewrite E. exact (last_largest l x r S R).
Qed.
Lemma core_x_ok : core_ok core_x.
Proof.
  intros n N. set (l := filter (fun f => n mod (f * f) =? 0) (numbers (Z.abs n))).
  assert (I1 : In 1 l) by (apply filter_In; split; [apply in_numbers; lia|]; rewrite Z.mod_1_r; reflexivity).
  destruct (last_max l 1) as (I & X); [apply sorted_filter, sorted_numbers|intros E; rewrite E in I1; destruct I1|]. fold (side_x n) in I, X. change (last l 1) with (side_x n) in I, X.
  apply filter_In in I. destruct I as (R & M). apply in_numbers in R. apply Z.eqb_eq in M. apply Z.mod_divide in M; [|nia]. destruct M as (c & M).
  assert (C : core_x n = c) by (unfold core_x; rewrite M at 1; apply Z.div_mul; nia). rewrite C. split; [|exists (side_x n); split; [lia|exact M]].
  intros k K (j & J). assert (D : (k * side_x n * (k * side_x n) | n)) by (exists j; rewrite M at 1; rewrite J; ring).
  assert (J0 : j <> 0) by (intros ->; apply N; rewrite M, J; reflexivity).
  assert (B : k * side_x n <= Z.abs n).
  { set (m := k * side_x n) in *. assert (M1 : 1 <= m) by (unfold m; nia). apply Z.divide_abs_r in D. apply Z.divide_pos_le in D; [|lia]. nia. }
  assert (Y : In (k * side_x n) l). { apply filter_In. split; [apply in_numbers; nia|]. apply Z.eqb_eq. apply Z.mod_divide; [nia|exact D]. }
  specialize (X _ Y). nia.
Qed.
(** the orders of the program's own tests: 26 over 19 elements *)
Example C86_example : factor_ok factor_x /\ core_ok core_x /\ prime 19 /\ magnitude (lit "12") 12 /\ magnitude (lit "0xd") 13 /\
  order_check_pohlig_hellman factor_x 26 (Some (lit "12")) = Ok 1 /\ order_check_pohlig_hellman factor_x 26 (Some (lit "0xd")) = Ok (-4) /\
  order_check_discriminant core_x false 19 26 (Some (lit "9")) = Ok 1 /\ order_check_discriminant core_x false 19 26 (Some (lit "12")) = Ok (-4).
Proof.
  split; [exact factor_x_ok|]. split; [exact core_x_ok|]. split; [apply isprime_b_ok; vm_compute; reflexivity|].
  split; [change 12 with (dec (lit "12")); is_dec|]. split.
  { apply (mag_hex "x"%char (lit "d") 13); [auto|discriminate|]. apply (hexnum_snoc [] 0 "d"%char 13); [constructor|vm_compute; auto 25]. }
  vm_compute. auto.
Qed.
Print Assumptions C86_pohlig_hellman.
Print Assumptions C86_no_argument.
Print Assumptions C86_one_point_refuted.
Print Assumptions C86_discriminant.
Print Assumptions C86_binary.
Print Assumptions C86_fundamental.
Print Assumptions C86_discriminant_refuted.
