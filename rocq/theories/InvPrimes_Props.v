(** C37: the primes of the invalid curve method. *)
From Coq Require Import Ascii String Znumtheory Sorting.Sorted.
From Verif Require Import Base Primes Factor Cli_Model Cli_Spec Cli_Proofs Brainpool_Props Invalid_Model.
Local Open Scope Z_scope.

(** ** Specification *)
(** exactly the primes from a to b, in increasing order *)
Definition primes_between (a b : Z) (l : list Z) : Prop :=
  StronglySorted Z.lt l /\ forall q, In q l <-> prime q /\ a <= q <= b.
(** the smallest prime >= n *)
Definition smallest_prime (n p : Z) : Prop :=
  prime p /\ n <= p /\ forall q, n <= q < p -> ~ prime q.
(** the primes 2, 3, 5, ... up to the first point where their product exceeds [bound] *)
Definition exceeding (bound : Z) (l : list Z) : Prop :=
  (exists p, primes_between 2 p l) /\ bound < zprod l /\ zprod (removelast l) <= bound.

(** ** What is assumed of PARI's unextprime *)
Definition unextprime_ok (unextprime : Z -> Z) : Prop :=
  forall x, 0 <= x < 2 ^ 64 -> (exists p, prime p /\ x <= p < 2 ^ 64) ->
    smallest_prime x (unextprime x) /\ unextprime x < 2 ^ 64.

Lemma unextprime_contract : exists u, unextprime_ok u.
Proof.
  exists next_prime. intros x Hx (p & P & Hp). destruct (next_prime_ok x) as (A & B & C).
  split; [split; [|split]; assumption|].
  destruct (Z.lt_ge_cases (next_prime x) (2 ^ 64)) as [|L]; [assumption|]. exfalso. apply (C p); [lia|assumption].
Qed.

(** ** Lists *)
Lemma ss_snoc l x : StronglySorted Z.lt l -> (forall y, In y l -> y < x) -> StronglySorted Z.lt (l ++ [x]).
Proof.
  induction 1 as [|y l S IH F]; intros H; simpl.
  - repeat constructor.
  - constructor.
    + apply IH. intros z Hz. apply H. now right.
    + apply Forall_app. split; [assumption|]. constructor; [|constructor]. apply H. now left.
Qed.

Section Proofs.
  Context (unextprime : Z -> Z) (U : unextprime_ok unextprime).

  (** ** With an upper bound *)
  Lemma loop_upper fuel : forall bound upper product last size acc,
    0 < upper -> 0 <= last < 2 ^ 64 -> (exists p, prime p /\ upper < p < 2 ^ 64) ->
    (Z.to_nat (upper + 1 - last) <= fuel)%nat -> (length acc < size)%nat ->
    StronglySorted Z.lt acc -> (forall y, In y acc -> y <= last) ->
    exists l, primes_loop unextprime fuel bound upper product last size acc = Ok l /\
      StronglySorted Z.lt l /\ forall q, In q l <-> In q acc \/ prime q /\ last < q <= upper.
  Proof.
    induction fuel as [|fuel IH]; intros bound upper product last size acc Hu Hl Hp Hf Hs S1 S2.
    - simpl. replace ((upper =? 0) && (product <=? bound) || (last <=? upper))%bool with false by lia.
      exists acc. split; [reflexivity|]. split; [assumption|]. intros q. intuition lia.
    - cbn [primes_loop].
      destruct (((upper =? 0) && (product <=? bound) || (last <=? upper))%bool) eqn:C.
      2:{ exists acc. split; [reflexivity|]. split; [assumption|]. intros q. intuition lia. }
      assert (Lu : last <= upper) by lia.
      destruct Hp as (p & Pp & Hp).
      rewrite (u64_small (last + 1)) by lia.
      destruct (U (last + 1)) as ((N1 & N2 & N3) & N4).
      { lia. }
      { exists p. split; [assumption|lia]. }
      set (next := unextprime (last + 1)) in *.
      destruct (negb (upper =? 0) && (upper <? next))%bool eqn:B.
      + exists acc. split; [reflexivity|]. split; [assumption|]. intros q. split; [tauto|].
        intros [H|[H1 H2]]; [assumption|]. exfalso. apply (N3 q); [lia|assumption].
      + replace (length acc <? size)%nat with true by lia.
        edestruct (IH bound upper (product * i64 last) next
                     (if (length (acc ++ [next]) =? size)%nat then (size * 2)%nat else size) (acc ++ [next]))
          as (l & E1 & E2 & E3).
        * assumption.
        * lia.
        * exists p. split; [assumption|lia].
        * lia.
        * rewrite app_length. cbn [length]. destruct (Nat.eqb_spec (length acc + 1) size); lia.
        * apply ss_snoc; [assumption|]. intros y Hy. specialize (S2 y Hy). lia.
        * intros y Hy. apply in_app_iff in Hy. destruct Hy as [Hy|[<-|[]]]; [|lia]. specialize (S2 y Hy). lia.
        * exists l. split; [exact E1|]. split; [exact E2|]. intros q. rewrite E3, in_app_iff. cbn [In].
          split.
          -- intros [[H|[<-|[]]]|[H1 H2]]; [tauto|right; split; [assumption|lia]|right; split; [assumption|lia]].
          -- intros [H|[H1 H2]]; [tauto|].
             destruct (Z.lt_trichotomy q next) as [L|[L|L]].
             ++ exfalso. apply (N3 q); [lia|assumption].
             ++ left. right. left. symmetry. exact L.
             ++ right. split; [assumption|lia].
  Qed.

  Definition digits (ds : str) : Prop := ds <> [] /\ Forall digit ds.

  Lemma strtol_digits ds rest : digits ds -> match rest with c :: _ => ~ digit c | [] => True end ->
    0 <= dec ds < 2 ^ 63 -> strtol (ds ++ rest) = (dec ds, rest).
  Proof.
    intros [H1 H2] H3 R. unfold strtol.
    rewrite (scan_numeral (ds ++ rest) false ds rest).
    - f_equal. unfold LONG_MAX. lia.
    - apply (numeral_intro [] [] false ds rest); auto.
  Qed.

  Lemma strtol_all ds : digits ds -> 0 <= dec ds < 2 ^ 63 -> strtol ds = (dec ds, []).
  Proof.
    intros H R. pose proof (strtol_digits ds [] H I R) as E. rewrite app_nil_r in E. exact E.
  Qed.

  (** C37, full statement: a range a-b gives exactly the primes of [a, b]; a single n exactly the
      smallest prime >= n; no range the list [exceeding (order^2)].
      Proved: ranges with a and b positive (and a prime above b that fits a word, so that
      unextprime can say so).
      Missing: a = 0 and b = 0, where it is false, see [C37_zero_refuted] and
      [C37_open_refuted]. *)
  Theorem C37_range_partial order da db :
    digits da -> digits db -> 0 < dec da < 2 ^ 63 -> 0 < dec db < 2 ^ 63 ->
    (exists p, prime p /\ dec db < p < 2 ^ 64) ->
    exists fuel l, invalid_primes unextprime fuel order (Some (da ++ "-"%char :: db)) = Ok l /\
      primes_between (dec da) (dec db) l.
  Proof.
    intros Da Db Ra Rb Hp.
    exists (Z.to_nat (dec db + 2)).
    unfold invalid_primes, primes_range. rewrite strtol_digits; [|assumption| |lia].
    2:{ intros H. vm_compute in H. lia. }
    rewrite (strtol_all db); [|assumption|lia]. cbn [fst].
    rewrite (u64_small (dec da - 1)), (u64_small (dec db)) by lia.
    edestruct (loop_upper (Z.to_nat (dec db + 2)) (order * order) (dec db) 1 (dec da - 1) 10 [])
      as (l & E1 & E2 & E3); try lia.
    - exact Hp.
    - simpl. lia.
    - constructor.
    - intros y [].
    - exists l. split; [exact E1|]. split; [exact E2|]. intros q. rewrite E3. simpl. intuition lia.
  Qed.

  (** Single values n >= 1 (with two primes above n that fit a word).
      Missing: n = 0, see [C37_zero_refuted]. *)
  Theorem C37_single_partial order dn :
    digits dn -> 0 < dec dn < 2 ^ 63 ->
    (exists p p', prime p /\ prime p' /\ dec dn <= p < p' /\ p' < 2 ^ 64) ->
    exists fuel q, invalid_primes unextprime fuel order (Some dn) = Ok [q] /\ smallest_prime (dec dn) q.
  Proof.
    intros Dn Rn (p & p' & P & P' & Hp & Hp').
    unfold invalid_primes, primes_range.
    rewrite (strtol_all dn); [|assumption|lia].
    rewrite (u64_small (dec dn - 1)) by lia.
    replace (dec dn - 1 + 1) with (dec dn) by lia. rewrite (u64_small (dec dn)) by lia.
    destruct (U (dec dn)) as ((N1 & N2 & N3) & N4); [lia|exists p; split; [assumption|lia]|].
    set (n := unextprime (dec dn)) in *.
    assert (Np : n <= p).
    { destruct (Z.le_gt_cases n p) as [|L]; [assumption|]. exfalso. apply (N3 p); [lia|assumption]. }
    edestruct (loop_upper (Z.to_nat (n + 2)) (order * order) n 1 (dec dn - 1) 10 [])
      as (l & E1 & E2 & E3); try lia.
    - exists p'. split; [assumption|lia].
    - simpl. lia.
    - constructor.
    - intros y [].
    - exists (Z.to_nat (n + 2)), n. split; [|split; [|split]; assumption].
      rewrite E1. f_equal.
      assert (In_n : forall q, In q l <-> q = n).
      { intros q. rewrite E3. simpl. split.
        - intros [[]|[H1 H2]]. destruct (Z.eq_dec q n) as [|D]; [assumption|]. exfalso. apply (N3 q); [lia|assumption].
        - intros ->. right. split; [assumption|lia]. }
      destruct l as [|x [|y l]].
      + exfalso. apply (proj2 (In_n n) eq_refl).
      + f_equal. apply In_n. now left.
      + exfalso. inversion_clear E2 as [|? ? S F]. inversion_clear F as [|? ? L F'].
        assert (x = n) by (apply In_n; now left). assert (y = n) by (apply In_n; right; now left). lia.
  Qed.

  (** ** Without a range *)
  Lemma zprod_snoc l x : zprod (l ++ [x]) = zprod l * x.
  Proof. rewrite zprod_app. unfold zprod at 2. cbn [fold_right]. ring. Qed.
  Lemma zprod_ge l : (forall x, In x l -> 1 <= x) -> 1 <= zprod l.
  Proof.
    unfold zprod. induction l as [|y l IH]; simpl; intros H; [lia|].
    assert (1 <= y) by (apply H; now left). assert (1 <= fold_right Z.mul 1 l) by (apply IH; intros; apply H; now right). nia.
  Qed.

  Lemma prefix_split {A} (acc : list A) x rest l p :
    acc ++ x :: rest = l ++ [p] -> exists m, l = acc ++ m.
  Proof.
    revert l. induction acc as [|y acc IH]; intros l H; [exists l; reflexivity|].
    destruct l as [|z l]; simpl in H.
    - injection H as _ H. destruct acc; discriminate.
    - injection H as <- H. destruct (IH l H) as [m ->]. exists m. reflexivity.
  Qed.

  (** the loop goes on with the next prime as long as the product of the primes but the last does
      not exceed the bound *)
  Lemma loop_default bound l p rest : forall fuel product last size acc,
    primes_between 2 p (l ++ [p]) -> (forall q, In q (l ++ [p]) -> q < 2 ^ 63) ->
    bound < zprod l -> zprod (removelast l) <= bound ->
    acc ++ rest = l ++ [p] -> (length rest <= fuel)%nat -> (length acc < size)%nat ->
    (acc = [] /\ last = 1 /\ product = 1 \/ exists a, acc = a ++ [last] /\ product = zprod a) ->
    primes_loop unextprime fuel bound 0 product last size acc = Ok (l ++ [p]).
  Proof.
    induction rest as [|x rest IH]; intros fuel product last size acc Hb Hw B1 B2 Ha Hf Hs Hc.
    - rewrite app_nil_r in Ha.
      assert (product = zprod l).
      { destruct Hc as [(-> & _)|(a & -> & ->)].
        - destruct l; discriminate.
        - apply app_inj_tail in Ha. destruct Ha as [-> _]. reflexivity. }
      assert (1 <= last).
      { destruct Hc as [(_ & -> & _)|(a & -> & _)]; [lia|].
        assert (I : In last (l ++ [p])) by (rewrite <- Ha; apply in_app_iff; right; now left).
        apply Hb in I. destruct I as [I _]. apply prime_ge_2 in I. lia. }
      destruct fuel; cbn [primes_loop];
        replace ((0 =? 0) && (product <=? bound) || (last <=? 0))%bool with false by lia; rewrite Ha; reflexivity.
    - destruct fuel as [|fuel]; [simpl in Hf; lia|].
      destruct (prefix_split acc x rest l p Ha) as [m Hm].
      assert (Pos : forall q, In q (l ++ [p]) -> 2 <= q) by (intros q Hq; apply Hb in Hq; lia).
      assert (Hprod : product <= bound).
      { assert (L1 : 1 <= bound).
        { eapply Z.le_trans; [|exact B2]. apply zprod_ge. intros y Hy.
          destruct l as [|z l' _] using rev_ind; [destruct Hy|]. rewrite removelast_last in Hy.
          assert (2 <= y); [|lia]. apply Pos. rewrite !in_app_iff. tauto. }
        destruct Hc as [(-> & _ & ->)|(a & -> & ->)]; [assumption|].
        eapply Z.le_trans; [|exact B2].
        rewrite Hm. rewrite <- app_assoc. simpl.
        rewrite removelast_app by discriminate. rewrite zprod_app.
        assert (Q1 : 1 <= zprod a).
        { apply zprod_ge. intros y Hy. assert (2 <= y); [|lia]. apply Pos. rewrite Hm, !in_app_iff. tauto. }
        assert (Q2 : 1 <= zprod (removelast (last :: m))).
        { apply zprod_ge. intros y Hy. assert (2 <= y); [|lia]. apply Pos. rewrite Hm, !in_app_iff.
          assert (I : In y (last :: m)).
          { rewrite (app_removelast_last 0 (l := last :: m)) by discriminate. apply in_app_iff. now left. }
          destruct I as [<-|I]; [left; left; right; now left|left; right; exact I]. }
        clear - Q1 Q2. nia. }
      assert (Hlast : 1 <= last < 2 ^ 63).
      { destruct Hc as [(_ & -> & _)|(a & -> & _)]; [lia|].
        assert (I : In last (l ++ [p])) by (rewrite Hm, !in_app_iff; left; left; right; now left).
        split; [specialize (Pos last I); lia|apply (Hw last I)]. }
      cbn [primes_loop].
      replace ((0 =? 0) && (product <=? bound) || (last <=? 0))%bool with true by lia.
      replace (negb (0 =? 0) && (0 <? unextprime (u64 (last + 1))))%bool with false by reflexivity.
      replace (length acc <? size)%nat with true by lia.
      assert (Hx : In x (l ++ [p])) by (rewrite <- Ha; apply in_app_iff; right; now left).
      assert (Px : prime x) by (apply Hb; assumption).
      assert (Wx : x < 2 ^ 63) by (apply Hw; assumption).
      destruct Hb as [Hss Hb'].
      assert (Sx : (forall y, In y acc -> y < x) /\ (forall y, In y rest -> x < y)).
      { rewrite <- Ha in Hss. clear - Hss. induction acc as [|z acc IH]; simpl in Hss.
        - inversion_clear Hss as [|? ? S F]. split; [intros y []|]. intros y Hy. rewrite Forall_forall in F. auto.
        - inversion_clear Hss as [|? ? S F]. destruct (IH S) as [A B]. split; [|assumption].
          intros y [<-|Hy]; [|auto]. rewrite Forall_forall in F. apply F. apply in_app_iff. right. now left. }
      assert (Lx : last < x).
      { destruct Hc as [(_ & -> & _)|(a & -> & _)].
        - apply prime_ge_2 in Px. lia.
        - apply Sx. apply in_app_iff. right. now left. }
      rewrite (u64_small (last + 1)) by lia.
      destruct (U (last + 1)) as ((N1 & N2 & N3) & N4).
      { lia. }
      { exists x. split; [assumption|lia]. }
      assert (Nx : unextprime (last + 1) = x).
      { destruct (Z.lt_trichotomy (unextprime (last + 1)) x) as [L|[L|L]]; [|assumption|].
        - exfalso.
          assert (I : In (unextprime (last + 1)) (l ++ [p])).
          { apply Hb'. split; [assumption|]. apply Hb' in Hx. apply prime_ge_2 in N1. lia. }
          rewrite <- Ha in I. apply in_app_iff in I. destruct I as [I|[I|I]].
          + destruct Hc as [(-> & _ & _)|(a & -> & _)]; [destruct I|].
            apply in_app_iff in I. destruct I as [I|[I|[]]]; [|lia].
            assert (Hl2 : StronglySorted Z.lt (a ++ last :: x :: rest)).
            { replace (a ++ last :: x :: rest) with (l ++ [p]); [assumption|]. rewrite <- Ha, <- app_assoc. reflexivity. }
            clear - Hl2 I N2. induction a as [|z a IH]; [destruct I|]. simpl in Hl2. inversion_clear Hl2 as [|? ? S F].
            destruct I as [Ez|I]; [|auto]. rewrite Forall_forall in F. specialize (F last). 
            assert (z < last); [|lia]. apply F. apply in_app_iff. right. now left.
          + lia.
          + assert (x < unextprime (last + 1)) by (apply Sx; assumption). lia.
        - exfalso. apply (N3 x); [lia|assumption]. }
      rewrite Nx. apply IH; try assumption.
      + split; assumption.
      + rewrite <- app_assoc. exact Ha.
      + simpl in Hf. lia.
      + rewrite app_length. cbn [length]. destruct (Nat.eqb_spec (length acc + 1) size); lia.
      + right. exists acc. split; [reflexivity|].
        destruct Hc as [(-> & -> & ->)|(a & -> & ->)].
        * reflexivity.
        * rewrite zprod_snoc. f_equal. unfold i64. rewrite Z.mod_small; lia.
  Qed.

  (** Without a range the primes are those of the specification and one more.
      Missing: without the one more it is false, see [C37_default_refuted]. *)
  Theorem C37_default_partial order l p :
    primes_between 2 p (l ++ [p]) -> (forall q, In q (l ++ [p]) -> q < 2 ^ 63) ->
    exceeding (order * order) l ->
    exists fuel, invalid_primes unextprime fuel order None = Ok (l ++ [p]).
  Proof.
    intros Hb Hw (_ & B1 & B2). exists (length (l ++ [p])). unfold invalid_primes, primes_range.
    apply (loop_default (order * order) l p (l ++ [p])); auto. simpl. lia.
  Qed.
End Proofs.

(** ** Where it is false *)
Theorem C37_default_refuted : exists order l,
  exceeding (order * order) l /\
  exists l', invalid_primes (np_small 100) 100 order None = Ok l' /\ l' <> l.
Proof.
  exists 10, [2; 3; 5; 7]. split.
  - split; [|split; vm_compute; [reflexivity|discriminate]].
    exists 7. split; [repeat constructor|]. intros q. rewrite <- (isprime_b_ok q). split.
    + intros [<-|[<-|[<-|[<-|[]]]]]; (split; [reflexivity|lia]).
    + intros [H R]. assert (D : q = 2 \/ q = 3 \/ q = 4 \/ q = 5 \/ q = 6 \/ q = 7) by lia.
      decompose [or] D; subst; try discriminate; simpl; tauto.
  - eexists. split; [vm_compute; reflexivity|discriminate].
Qed.

(** ranges starting at 0 and the single value 0 give no primes at all *)
Theorem C37_zero_refuted : forall unextprime order fuel, unextprime_ok unextprime ->
  invalid_primes unextprime fuel order (Some (lit "0-10")) = Ok [] /\
  invalid_primes unextprime fuel order (Some (lit "0")) = Ok [] /\
  ~ primes_between 0 10 [] /\ (exists p, smallest_prime 0 p).
Proof.
  intros u order fuel U.
  assert (P2 : prime 2) by (apply isprime_b_ok; reflexivity).
  assert (N : u 0 = 2).
  { destruct (U 0) as ((A & B & C) & D); [lia|exists 2; split; [assumption|lia]|].
    destruct (Z.lt_trichotomy (u 0) 2) as [L|[L|L]]; [|assumption|].
    - apply prime_ge_2 in A. lia.
    - exfalso. apply (C 2); [lia|assumption]. }
  split; [destruct fuel; reflexivity|]. split.
  { unfold invalid_primes. replace (primes_range u (Some (lit "0"))) with (2 ^ 64 - 1, u 0) by reflexivity.
    rewrite N. destruct fuel; reflexivity. }
  split.
  - intros [_ H]. apply (H 2). split; [assumption|lia].
  - exists 2. split; [assumption|]. split; [lia|]. intros q Hq H. apply prime_ge_2 in H. lia.
Qed.

(** a range without upper end, 1-, never stops *)
Lemma loop_zero u fuel : forall bound last size acc, 0 <= bound -> (length acc < size)%nat ->
  primes_loop u fuel bound 0 0 last size acc = Fuel.
Proof.
  induction fuel as [|fuel IH]; intros bound last size acc B S; cbn [primes_loop];
    replace ((0 =? 0) && (0 <=? bound) || (last <=? 0))%bool with true by lia; [reflexivity|].
  replace (negb (0 =? 0) && (0 <? u (u64 (last + 1))))%bool with false by reflexivity.
  replace (length acc <? size)%nat with true by lia.
  rewrite Z.mul_0_l. apply IH; [assumption|].
  rewrite app_length. cbn [length]. destruct (Nat.eqb_spec (length acc + 1) size); lia.
Qed.

Theorem C37_open_refuted : forall unextprime order fuel,
  invalid_primes unextprime fuel order (Some (lit "1-")) = Fuel.
Proof.
  intros u order fuel. unfold invalid_primes.
  replace (primes_range u (Some (lit "1-"))) with (0, 0) by reflexivity.
  destruct fuel as [|fuel]; cbn [primes_loop];
    replace ((0 =? 0) && (1 <=? order * order) || (0 <=? 0))%bool with true by (rewrite orb_true_r; reflexivity).
  { reflexivity. }
  replace (negb (0 =? 0) && (0 <? u (u64 (0 + 1))))%bool with false by reflexivity.
  apply loop_zero; [nia|simpl; lia].
Qed.

(** ** Examples *)
Example C37_range_example : invalid_primes (np_small 100) 100 1000 (Some (lit "10-30")) = Ok [11; 13; 17; 19; 23; 29].
Proof. vm_compute. reflexivity. Qed.
Example C37_single_example : invalid_primes (np_small 100) 100 1000 (Some (lit "90")) = Ok [97].
Proof. vm_compute. reflexivity. Qed.
Example C37_default_example : invalid_primes (np_small 100) 100 10 None = Ok [2; 3; 5; 7; 11].
Proof. vm_compute. reflexivity. Qed.
(** the hypotheses of the theorems for these arguments *)
Example C37_hypotheses :
  exists u, unextprime_ok u /\ digits (lit "10") /\ digits (lit "30") /\ dec (lit "10") = 10 /\ dec (lit "30") = 30 /\
    prime 31 /\ prime 97 /\ prime 101.
Proof.
  destruct unextprime_contract as [u H]. exists u. split; [exact H|].
  split; [split; [discriminate|repeat constructor; vm_compute; lia]|].
  split; [split; [discriminate|repeat constructor; vm_compute; lia]|].
  split; [reflexivity|]. split; [reflexivity|].
  split; [apply isprime_b_ok; vm_compute; reflexivity|]. split; apply isprime_b_ok; vm_compute; reflexivity.
Qed.

Print Assumptions C37_range_partial.
Print Assumptions C37_single_partial.
Print Assumptions C37_default_partial.
Print Assumptions C37_default_refuted.
Print Assumptions C37_zero_refuted.
Print Assumptions C37_open_refuted.
