(** C29: twisted curves get the order of the twist. *)
From Verif Require Import Base Primes Gens_Props Twist_Model.
From Coq Require Import Znumtheory.
Local Open Scope Z_scope.

(** ** Specification *)
(** number of elements of the field *)
Definition field_size (f : field_t) : Z :=
  match f with FPrime p => p | FBinary m => 2 ^ m end.

(** the reported curve is the twist [e'] of [e] over [f], with the order of [e'] itself, which is
    2q + 2 minus the order of [e] *)
Definition reports {E} (elltwist : E -> E) (ellcard : E -> Z) (f : field_t) (e : E) (c : tcurve E) : Prop :=
  t_field c = f /\ t_curve c = Some (elltwist e) /\
  t_order c = Some (ellcard (elltwist e)) /\
  t_order c = Some (2 * field_size f + 2 - ellcard e).

Section Proofs.
  Context {E : Type} (elltwist : E -> E) (ellcard : E -> Z) (over : E -> field_t -> Prop).
  (** PARI: the curve elltwist gives is the quadratic twist *)
  Definition twist_ok : Prop := forall e f, over e f ->
    ellcard (elltwist e) = 2 * field_size f + 2 - ellcard e.

  Definition tests (g : order_gen) : Z -> bool := match g with GenCard a => a | GenSea a => a end.

  (** an attempt from a state without an order *)
  Lemma last_attempt_fresh g f e c :
    t_order c = None ->
    last_attempt elltwist ellcard g f e c
    = Ok (if tests g (ellcard (elltwist e))
          then Some (mkT f (Some (elltwist e)) (Some (ellcard (elltwist e))) (Some (ellcard (elltwist e))))
          else None).
  Proof.
    intros H. unfold last_attempt, curve_gen_any_twist, twist_rand, curve_gen_any. simpl. rewrite H. simpl.
    destruct g as [a|a]; reflexivity.
  Qed.

  Lemma failed_fresh g f e c :
    t_order c = None -> tests g (ellcard (elltwist e)) = false ->
    exists c', failed_attempt elltwist ellcard g f e c = Ok c' /\ t_order c' = None.
  Proof.
    intros H F. unfold failed_attempt, curve_gen_any_twist, twist_rand, curve_gen_any. simpl. rewrite H. simpl.
    destruct g as [a|a]; simpl in *; rewrite F; eexists; split; reflexivity.
  Qed.

  Lemma failed_all_fresh g l : forall c,
    t_order c = None ->
    (forall f e, In (f, e) l -> tests g (ellcard (elltwist e)) = false) ->
    exists c', failed_attempts elltwist ellcard g l c = Ok c' /\ t_order c' = None.
  Proof.
    induction l as [|[f e] l IH]; intros c H Hl; simpl.
    - eauto.
    - destruct (failed_fresh g f e c H (Hl f e (or_introl eq_refl))) as [c1 [E1 H1]].
      rewrite E1. simpl. apply IH; [assumption|]. intros f0 e0 Hin. apply (Hl f0 e0). now right.
  Qed.

  (** C29, full statement: whatever attempts [l] failed before,
      [twist_run g l f e = Ok (Some c) -> reports f e c].
      Proved: when the earlier attempts failed because their order was refused (so in particular
      on the first attempt), for every order generator.
      Missing: attempts that failed after their order was accepted, where it is false for the
      generators that use ellff_get_card, see [C29_refuted]. *)
  Theorem C29_refused_partial g l f e :
    twist_ok -> over e f ->
    (forall f0 e0, In (f0, e0) l -> tests g (ellcard (elltwist e0)) = false) ->
    exists o, twist_run elltwist ellcard g l f e = Ok o /\
      match o with
      | Some c => reports elltwist ellcard f e c /\ tests g (ellcard (elltwist e)) = true
      | None => tests g (ellcard (elltwist e)) = false
      end.
  Proof.
    intros T O Hl. unfold twist_run.
    destruct (failed_all_fresh g l (mkT (FPrime 0) None None None) eq_refl Hl) as [c' [E1 H1]].
    rewrite E1. cbn [bind]. rewrite (last_attempt_fresh g f e c' H1). eexists. split; [reflexivity|].
    destruct (tests g (ellcard (elltwist e))) eqn:Et; [|reflexivity].
    split; [|reflexivity]. unfold reports. simpl. rewrite (T e f O). auto.
  Qed.

  Lemma failed_total g l : forall c, exists c', failed_attempts elltwist ellcard g l c = Ok c'.
  Proof.
    induction l as [|[f e] l IH]; intros c; cbn [failed_attempts].
    - eauto.
    - unfold failed_attempt, curve_gen_any_twist, twist_rand, curve_gen_any. cbn.
      destruct (t_order c), g; cbn; apply IH.
  Qed.

  (** With order_gen_prime (ellsea) it holds for every history. *)
  Theorem C29_prime accept l f e :
    twist_ok -> over e f ->
    exists o, twist_run elltwist ellcard (GenSea accept) l f e = Ok o /\
      match o with
      | Some c => reports elltwist ellcard f e c /\ accept (ellcard (elltwist e)) = true
      | None => accept (ellcard (elltwist e)) = false
      end.
  Proof.
    intros T O. unfold twist_run.
    destruct (failed_total (GenSea accept) l (mkT (FPrime 0) None None None)) as [c' E1].
    rewrite E1. cbn [bind].
    unfold last_attempt, curve_gen_any_twist, twist_rand, curve_gen_any. cbn.
    destruct (t_order c'); cbn;
      (eexists; split; [reflexivity|]; destruct (accept (ellcard (elltwist e))) eqn:Et; [|reflexivity];
       split; [|reflexivity]; unfold reports; cbn; rewrite (T e f O); auto).
  Qed.

  (** What comes out otherwise: after an attempt whose order [n0] was accepted (by order_gen_any,
      which accepts everything), the next curve is given the order 2q + 2 - n0, whatever its own
      order is. *)
  Theorem C29_stale l f0 e0 f e c0 n0 :
    failed_attempts elltwist ellcard (GenCard (fun _ => true)) (l ++ [(f0, e0)]) (mkT (FPrime 0) None None None) = Ok c0 ->
    t_order c0 = Some n0 ->
    exists c, twist_run elltwist ellcard (GenCard (fun _ => true)) (l ++ [(f0, e0)]) f e = Ok (Some c) /\
      t_curve c = Some (elltwist e) /\ t_order c = Some (2 * field_size f + 2 - n0).
  Proof.
    intros H H0. unfold twist_run. rewrite H. cbn [bind].
    unfold last_attempt, curve_gen_any_twist, twist_rand, curve_gen_any. cbn -[Z.mul Z.pow Z.add Z.sub]. rewrite H0. cbn -[Z.mul Z.pow Z.add Z.sub].
    eexists. split; [reflexivity|]. split; [reflexivity|]. cbn -[Z.mul Z.pow Z.add Z.sub]. f_equal.
    destruct f; unfold field_size; ring.
  Qed.
End Proofs.

(** A curve y^2 = x^3 + ax + b over the field of p elements, with its quadratic twist by [d]. *)
Record wcurve := mkW { w_p : Z; w_a : Z; w_b : Z; w_d : Z }.
Definition wtwist (w : wcurve) : wcurve :=
  mkW (w_p w) (w_a w * w_d w ^ 2 mod w_p w) (w_b w * w_d w ^ 3 mod w_p w) (w_d w).
Definition wcard (w : wcurve) : Z := count_points (w_p w) (w_a w) (w_b w).

(** Over the field of 7 elements: the twist of y^2 = x^3 + x + 1 is found first and a later stage
    refuses it; then the twist of y^2 = x^3 + x + 3 is reported with a wrong order. 3 is not a
    square modulo 7, and for these two curves the twist formula holds. *)
Theorem C29_refuted :
  exists (e0 e : wcurve) c n,
    prime 7 /\ w_p e0 = 7 /\ w_p e = 7 /\
    (forall y, (y * y) mod 7 <> w_d e mod 7) /\
    wcard (wtwist e0) = 2 * 7 + 2 - wcard e0 /\ wcard (wtwist e) = 2 * 7 + 2 - wcard e /\
    twist_run wtwist wcard (GenCard (fun _ => true)) [(FPrime 7, e0)] (FPrime 7) e = Ok (Some c) /\
    t_curve c = Some (wtwist e) /\ t_order c = Some n /\ n <> wcard (wtwist e).
Proof.
  exists (mkW 7 1 1 3), (mkW 7 1 3 3).
  eexists. eexists.
  split; [apply isprime_b_ok; reflexivity|]. split; [reflexivity|]. split; [reflexivity|].
  split.
  { intros y. cbn [w_d]. rewrite Z.mul_mod by lia. assert (R := Z.mod_pos_bound y 7 ltac:(lia)).
    generalize dependent (y mod 7). intros r R.
    assert (r = 0 \/ r = 1 \/ r = 2 \/ r = 3 \/ r = 4 \/ r = 5 \/ r = 6) as D by lia.
    decompose [or] D; subst; discriminate. }
  split; [vm_compute; reflexivity|]. split; [vm_compute; reflexivity|].
  split; [vm_compute; reflexivity|]. split; [vm_compute; reflexivity|].
  split; [vm_compute; reflexivity|]. vm_compute. discriminate.
Qed.

Section Examples.
  (** curves as (number of field elements, trace): the number of points is q + 1 - t, and the
      quadratic twist has the opposite trace *)
  Local Definition ecard (e : Z * Z) : Z := fst e + 1 - snd e.
  Local Definition etwist (e : Z * Z) : Z * Z := (fst e, - snd e).
  Local Definition eover (e : Z * Z) (f : field_t) : Prop := fst e = field_size f.
  Lemma trace_twist_ok : twist_ok etwist ecard eover.
  Proof. intros [q t] f H. unfold eover, ecard, etwist in *. cbn [fst snd] in *. lia. Qed.

  Local Definition even_only (n : Z) : bool := n mod 2 =? 0.

  (** one refused attempt over the field of 101 elements, then a curve over the field of 32 *)
  Example C29_refused_example :
    exists c, twist_run etwist ecard (GenCard even_only) [(FPrime 101, (101, 5))] (FBinary 5) (32, 3) = Ok (Some c)
      /\ reports etwist ecard (FBinary 5) (32, 3) c /\ t_order c = Some 36.
  Proof.
    destruct (C29_refused_partial etwist ecard eover (GenCard even_only) [(FPrime 101, (101, 5))] (FBinary 5) (32, 3))
      as [o [H1 H2]].
    - apply trace_twist_ok.
    - reflexivity.
    - intros f0 e0 [[= <- <-]|[]]. reflexivity.
    - vm_compute in H1. injection H1 as <-. destruct H2 as [H2 _]. eexists. split; [reflexivity|]. split; [exact H2|reflexivity].
  Qed.

  (** an accepted attempt before it does not matter for order_gen_prime *)
  Example C29_prime_example :
    exists c, twist_run etwist ecard (GenSea isprime_b) [(FPrime 101, (101, 5)); (FPrime 101, (101, 1))] (FPrime 103) (103, 3) = Ok (Some c)
      /\ reports etwist ecard (FPrime 103) (103, 3) c /\ t_order c = Some 107.
  Proof.
    destruct (C29_prime etwist ecard eover isprime_b [(FPrime 101, (101, 5)); (FPrime 101, (101, 1))] (FPrime 103) (103, 3))
      as [o [H1 H2]].
    - apply trace_twist_ok.
    - reflexivity.
    - vm_compute in H1. injection H1 as <-. destruct H2 as [H2 _]. eexists. split; [reflexivity|]. split; [exact H2|reflexivity].
  Qed.

  Example C29_stale_example :
    exists c, twist_run etwist ecard (GenCard (fun _ => true)) ([] ++ [(FPrime 101, (101, 5))]) (FPrime 103) (103, 3) = Ok (Some c)
      /\ t_curve c = Some (103, -3) /\ t_order c = Some 101.
  Proof.
    apply (C29_stale etwist ecard [] (FPrime 101) (101, 5) (FPrime 103) (103, 3)
      (mkT (FPrime 101) None None (Some 107)) 107); reflexivity.
  Qed.
End Examples.

Print Assumptions C29_refused_partial.
Print Assumptions C29_prime.
Print Assumptions C29_stale.
Print Assumptions C29_refuted.
