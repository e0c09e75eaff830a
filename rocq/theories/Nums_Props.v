(** C19, C20, C64: NUMS curves. *)
From Coq Require Import Znumtheory Zpow_facts.
From Verif Require Import Base Nums_Model Nums_Proofs Primes.
Local Open Scope Z_scope.

(** ** C19 *)
Theorem C19_largest : forall isprime, (forall p, isprime p = true <-> prime p) ->
  forall s, 2 <= s -> exists p, (exists n0, forall fuel, (n0 <= fuel)%nat -> nums_gen_field isprime fuel s = Ok p) /\
    prime p /\ p mod 4 = 3 /\ p < 2 ^ s /\ forall q, prime q -> q mod 4 = 3 -> q < 2 ^ s -> q <= p.
Proof.
  intros ip H s Hs. destruct (nums_field_total ip H s Hs) as (p & E). exists p. split.
  - exists (Z.to_nat (2 ^ s)). intros fuel Hf. apply (field_loop_mono ip H _ _ _ _ _ E Hf).
  - apply (nums_field_ok ip H _ s p Hs E).
Qed.
Print Assumptions C19_largest.
Theorem C19_any_result : forall isprime, (forall p, isprime p = true <-> prime p) ->
  forall fuel s p, 2 <= s -> nums_gen_field isprime fuel s = Ok p ->
    prime p /\ p mod 4 = 3 /\ p < 2 ^ s /\ forall q, prime q -> q mod 4 = 3 -> q < 2 ^ s -> q <= p.
Proof. exact nums_field_ok. Qed.
Print Assumptions C19_any_result.
(** 2^10 - 5 = 1019 is the largest such prime below 1024 (2^10 - 1 = 3*11*31). *)
Example C19_ex : (forall p, isprime_b p = true <-> prime p) /\ nums_gen_field isprime_b 3 10 = Ok 1019.
Proof. split; [exact isprime_b_ok|vm_compute; reflexivity]. Qed.
(** The bound s >= 2 is needed: no prime = 3 mod 4 lies below 2. *)
Theorem C19_one_bit_diverges : forall isprime, (forall p, isprime p = true <-> prime p) ->
  forall fuel, nums_gen_field isprime fuel 1 = Fuel.
Proof.
  intros ip H fuel. unfold nums_gen_field. assert (G : forall n c, 1 <= c -> field_loop ip n 2 c = Fuel); [|apply G; lia].
  induction n as [|n IH]; intros c Hc; [reflexivity|]. cbn [field_loop].
  destruct (ip (2 - c)) eqn:E; cbn [negb]; [|apply IH; lia].
  apply H in E. apply prime_ge_2 in E. lia.
Qed.
Print Assumptions C19_one_bit_diverges.

(** ** C20 *)
(** Curves at addresses different from the one before: every curve gets
    1, 3, 4, 5, ... *)
Theorem C20_restart_partial : forall st curves, distinct_next (option_map snd st) curves ->
  b_run st (calls_of curves) =
  flat_map (fun x => map (fun ip => nums_value (fst ip) mod snd ip) (combine (seq 0 (length (snd x))) (snd x))) curves.
Proof. intros st curves. apply b_run_curves. Qed.
Print Assumptions C20_restart_partial.
Example C20_restart_ex : distinct_next None [(4096, [1019; 1019; 1019; 1019]); (8192, [1019; 1019]); (4096, [7; 7; 7])] /\
  b_run None (calls_of [(4096, [1019; 1019; 1019; 1019]); (8192, [1019; 1019]); (4096, [7; 7; 7])]) = [1; 3; 4; 5; 1; 3; 1; 3; 4].
Proof. split; [cbn; repeat split; discriminate|reflexivity]. Qed.
(** Missing: a curve stored at the address of the curve before it. There b goes on
    where that curve stopped: *)
Theorem C20_same_address_refuted : exists curves, b_run None (calls_of curves) = [1; 3; 4; 5] /\ length curves = 2%nat /\
  Forall (fun x => length (snd x) = 2%nat) curves.
Proof. exists [(4096, [1019; 1019]); (4096, [1019; 1019])]. repeat split; repeat constructor. Qed.
Print Assumptions C20_same_address_refuted.
Theorem C20_same_address : forall c p ps1 ps2 st, fresh st c ->
  b_run st (calls_of [(c, p :: ps1); (c, ps2)]) =
  map (fun ip => nums_value (fst ip) mod snd ip) (combine (seq 0 (length (p :: ps1 ++ ps2))) (p :: ps1 ++ ps2)).
Proof.
  intros c p ps1 ps2 st H. unfold calls_of. cbn [flat_map fst snd]. rewrite app_nil_r, <- map_app.
  change ((p :: ps1) ++ ps2) with (p :: ps1 ++ ps2). apply b_run_fresh. assumption.
Qed.
Print Assumptions C20_same_address.

(** The value 2 that is left out never gives a curve; the others are all tried. *)
Theorem C20_skipped_two : forall p, 0 < p -> (4 * nums_gen_a p ^ 3 + 27 * 2 ^ 2) mod p = 0.
Proof.
  intros p Hp. unfold nums_gen_a. rewrite Zplus_mod, Zmult_mod, <- (Zpower_mod (-3) 3 p Hp), <- Zmult_mod, <- Zplus_mod.
  change (4 * (-3) ^ 3 + 27 * 2 ^ 2) with 0. apply Zmod_0_l.
Qed.
Print Assumptions C20_skipped_two.
Theorem C20_all_values : forall v, 0 < v -> v <> 2 -> exists n, nums_value n = v.
Proof.
  intros v H N. destruct (Z.eq_dec v 1) as [->|]; [exists 0%nat; reflexivity|].
  exists (Z.to_nat (v - 2)). unfold nums_value. destruct (Z.to_nat (v - 2)) eqn:E; lia.
Qed.
Print Assumptions C20_all_values.
Theorem C20_increasing : forall n m, (n < m)%nat -> nums_value n < nums_value m.
Proof. intros [|n] [|m] H; unfold nums_value; lia. Qed.
Print Assumptions C20_increasing.

(** The acceptance test: order and twist order 2(p+1) - order are prime. *)
Theorem C20_order : forall isprime, (forall p, isprime p = true <-> prime p) -> forall p n,
  (nums_gen_order isprime p n = (1, Some n) <-> prime n /\ prime (2 * (p + 1) - n)) /\
  (nums_gen_order isprime p n = (1, Some n) \/ nums_gen_order isprime p n = (-2, None)).
Proof.
  intros ip H p n. unfold nums_gen_order. replace (n + (p + 1 - n) * 2) with (2 * (p + 1) - n) by ring.
  pose proof (H n) as A. pose proof (H (2 * (p + 1) - n)) as B.
  destruct (Z.eqb_spec n 0) as [->|N]; cbn [orb].
  - split; [|auto]. split; [discriminate|]. intros (P & _). apply prime_ge_2 in P. lia.
  - destruct (ip n); cbn [orb negb]; [|split; [|auto]; split; [discriminate|intros (P & _); apply A in P; discriminate]].
    destruct (ip (2 * (p + 1) - n)); cbn [negb]; split; auto; split; try discriminate; auto.
    + intros _. split; [apply A|apply B]; reflexivity.
    + intros (_ & P). apply B in P. discriminate.
Qed.
Print Assumptions C20_order.
(** over p = 19 the order 17 (twist 23) is accepted, 13 (twist 27) is not *)
Example C20_order_ex : nums_gen_order isprime_b 19 17 = (1, Some 17) /\ nums_gen_order isprime_b 19 13 = (-2, None) /\ 2 * (19 + 1) - 13 = 27.
Proof. vm_compute. repeat split. Qed.

(** ** C64 *)
Theorem C64_generator : forall ellordinate ellorder fuel p N P n h,
  (forall x, ellordinate x = [] \/ exists y1 y2, ellordinate x = [y1; y2] /\ y1 <> y2) ->
  nums_gen_gens ellordinate ellorder fuel p N = Ok (P, n, h) ->
  exists x y, P = (x mod p, y) /\ 1 <= x /\ In y (ellordinate x) /\ (forall z, 1 <= z < x -> ellordinate z = []) /\
    (forall y', In y' (ellordinate x) -> y <= y') /\ n = ellorder P /\ h = N / n.
Proof.
  intros eo er fuel p N P n h H2 H. unfold nums_gen_gens in H. apply bind_ok in H. destruct H as (x & EX & H).
  apply nums_find_x_ok in EX. destruct EX as (X1 & X2 & X3).
  destruct (H2 x) as [E|(y1 & y2 & E & NE)]; [contradiction|]. rewrite E in H. injection H as <- <- <-.
  exists x, (if y1 <? y2 then y1 else y2). rewrite E. split; [reflexivity|]. split; [assumption|].
  split; [destruct (y1 <? y2); [left|right; left]; reflexivity|]. split; [assumption|].
  split; [|split; reflexivity]. intros y' [<-|[<-|[]]]; destruct (Z.ltb_spec y1 y2); lia.
Qed.
Print Assumptions C64_generator.
(** y^2 = x^3 - 3x + 10 modulo 19 (21 points): the smallest x >= 1 with a point is
    3, with y = 3 and y = 16. *)
Definition ord19 (x : Z) : list Z := filter (fun y => (y * y) mod 19 =? (x ^ 3 - 3 * x + 10) mod 19) (map Z.of_nat (seq 0 19)).
Example C64_ex : nums_gen_gens ord19 (fun _ => 21) 19 19 21 = Ok ((3, 3), 21, 1) /\ ord19 3 = [3; 16] /\
  Forall (fun x => ord19 x = [] \/ exists y1 y2, ord19 x = [y1; y2] /\ y1 <> y2) (map Z.of_nat (seq 0 19)).
Proof.
  split; [vm_compute; reflexivity|]. split; [vm_compute; reflexivity|].
  repeat (apply Forall_cons; [first [left; reflexivity | right; eexists _, _; split; [vm_compute; reflexivity|discriminate]]|]). apply Forall_nil.
Qed.
(** A single root (a point of order 2) is read past the end. *)
Theorem C64_single_root_refuted : exists ellordinate, ellordinate 1 = [0] /\
  forall ellorder fuel p N, nums_gen_gens ellordinate ellorder (S fuel) p N = UB.
Proof. exists (fun x => if x =? 1 then [0] else []). split; [reflexivity|]. intros. reflexivity. Qed.
Print Assumptions C64_single_root_refuted.
