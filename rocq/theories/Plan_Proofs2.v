From Coq Require Import Ascii String.
From Verif Require Import Base Str_Model Cli_Model Cli_Spec Cli_Proofs Plan_Model Plan_Spec Plan_Proofs.
Local Open Scope Z_scope.

(** ** The plan *)

Lemma if_put {T} (b : bool) i (x y : T) g : (if b then put i x g else put i y g) = put i (if b then x else y) g.
Proof. destruct b; reflexivity. Qed.
Lemma pair_put {T} (b : bool) i (x y : T) (u u' : list name) g :
  (if b then (u, put i x g) else (u', put i y g)) = (if b then u else u', put i (if b then x else y) g).
Proof. destruct b; reflexivity. Qed.
Lemma if_same {T} (b : bool) (x : T) : (if b then x else x) = x.
Proof. destruct b; reflexivity. Qed.

(** the method and the algorithm of an accepted command line *)
Inductive shape (c : config) : Prop :=
| sh_other m : c_method c = m -> c_seed_algo c = 0 ->
    In m [METHOD_DEFAULT; METHOD_CM; METHOD_ANOMALOUS; METHOD_INVALID; METHOD_TWIST; METHOD_SUPERSINGULAR; METHOD_FAMILY] -> shape c
| sh_seed a : c_method c = METHOD_SEED -> c_seed_algo c = a -> In a [SEED_ANSI; SEED_BRAINPOOL; SEED_BRAINPOOL_RFC; SEED_NUMS] -> shape c.

Lemma final_shape c set : final c set -> shape c.
Proof.
  intros [Hi _ Hm _]. pose proof (i_seedm _ Hi) as Hs. pose proof (i_algo _ Hi) as Ha. cbn [fst] in *. clear Hi.
  destruct (Z.eq_dec (c_method c) METHOD_SEED) as [E|E].
  - eapply sh_seed; [assumption|reflexivity|]. rewrite E in Hs. change (bit2 METHOD_SEED) with true in Hs.
    destruct Ha as [Ha|Ha]; [destruct Hs as [_ Hs]; exfalso; apply Hs; [reflexivity|congruence]|].
    change SEED_ANSI with 1. change SEED_BRAINPOOL with 2. change SEED_NUMS with 5. change SEED_BRAINPOOL_RFC with 3.
    simpl in *. intuition auto.
  - eapply sh_other; [reflexivity| |].
    + destruct (Z.eq_dec (c_seed_algo c) 0) as [E0|E0]; [assumption|]. apply Hs in E0.
      simpl in Hm. repeat (destruct Hm as [Hm|Hm]; [first [rewrite <- Hm in E0; discriminate | exfalso; apply E; symmetry; exact Hm]|]). contradiction.
    + repeat (destruct Hm as [Hm|Hm]; [try (exfalso; apply E; symmetry; exact Hm); rewrite <- Hm; simpl; tauto|]). contradiction.
Qed.


Lemma is_random_bit c : 0 <= c_random c <= 15 ->
  is_random c RANDOM_SEED = rnd c 0 /\ is_random c RANDOM_FIELD = rnd c 1 /\ is_random c RANDOM_A = rnd c 2 /\ is_random c RANDOM_B = rnd c 3.
Proof.
  unfold is_random, rnd. generalize (c_random c). intros r Hr.
  assert (H : In r [0;1;2;3;4;5;6;7;8;9;10;11;12;13;14;15]) by (simpl; lia).
  simpl in H. repeat (destruct H as [<-|H]; [repeat split; reflexivity|]). contradiction.
Qed.

Lemma points_init_eq c g : 0 <= c_points_type c <= 4 -> points_init c g = put POINTS (want_points PPlain false c) g.
Proof.
  intros H. unfold points_init, want_points, pick.
  repeat match goal with |- context [if negb ?b then _ else _] => destruct b; cbn [negb] end;
  repeat match goal with |- context [if ?b then _ else _] => destruct b eqn:?; try reflexivity end.
  all: exfalso; unfold POINTS_RANDOM, POINTS_PRIME, POINTS_ALL, POINTS_NONPRIME, POINTS_NONE in *; lia.
Qed.

Ltac push := repeat first [rewrite if_put | rewrite pair_put | rewrite if_same | progress cbv beta iota zeta delta [unique_init seed_init]].
Ltac consts := change (negb (0 =? 0)) with false; change (negb (SEED_ANSI =? 0)) with true.

Ltac decide_method E Ea :=
  rewrite ?E, ?Ea;
  repeat match goal with
  | |- context [?a =? ?b] =>
      let v := eval vm_compute in (a =? b) in
      match v with true => change (a =? b) with true | false => change (a =? b) with false end
  end; cbn [negb orb].

Lemma exhaustive_gens c u p : 
  shape c -> procedure_of c = Some p -> In p [PPlain; PTwist; PAnsi; PBrainpool; PBrainpoolRfc; PNums; PFamily] ->
  0 <= c_points_type c <= 4 -> 0 <= c_random c <= 15 -> (c_koblitz_value c = 0 \/ c_koblitz_value c = 1) ->
  snd (exhaustive_ginit c u) = want p false c.
Proof.
  intros Hs Hp Hin Hpt Hr Hk.
  destruct (is_random_bit c Hr) as (R0 & R1 & R2 & R3).
  destruct Hs as [m E Ea Hm | a E Ea Ha].
  - unfold procedure_of in Hp. rewrite E in Hp.
    simpl in Hm; repeat (destruct Hm as [<-|Hm]; [first [discriminate Hp | injection Hp as <-]|]); try contradiction;
    try (exfalso; clear - Hin; simpl in Hin; intuition discriminate);
    unfold exhaustive_ginit; rewrite ?points_init_eq by assumption.
    all: decide_method E Ea; try (destruct Hk as [K|K]); try rewrite K; destruct (c_koblitz c) eqn:Ek;
         push; rewrite ?points_init_eq by assumption; rewrite ?R1, ?R2, ?R3; cbn [snd];
         unfold want, want_seed, want_field, want_a, want_b, want_curve, want_order, want_gens, pick; rewrite ?Ek, ?K; reflexivity.
  - unfold procedure_of in Hp. rewrite E in Hp.
    simpl in Ha; repeat (destruct Ha as [<-|Ha]; [rewrite Ea in Hp; injection Hp as <-|]); try contradiction;
    unfold exhaustive_ginit;
    decide_method E Ea; push; rewrite ?points_init_eq by assumption; rewrite ?R0, ?R1; cbn [snd];
         unfold want, want_seed, want_field, want_a, want_b, want_curve, want_order, want_gens, pick; destruct (c_seed c); reflexivity.
Qed.

Lemma cm_gens c prime u p :
  shape c -> procedure_of c = Some p -> In p [PCm; PAnomalous; PSupersingular] ->
  0 <= c_points_type c <= 4 -> 0 <= c_random c <= 15 ->
  snd (cm_ginit c prime u) = want p prime c.
Proof.
  intros Hs Hp Hin Hpt Hr.
  destruct (is_random_bit c Hr) as (R0 & R1 & R2 & R3).
  destruct Hs as [m E Ea Hm | a E Ea Ha].
  - unfold procedure_of in Hp. rewrite E in Hp.
    simpl in Hm; repeat (destruct Hm as [<-|Hm]; [first [discriminate Hp | injection Hp as <-]|]); try contradiction;
    try (exfalso; clear - Hin; simpl in Hin; intuition discriminate);
    unfold cm_ginit; decide_method E Ea; push; rewrite ?points_init_eq by assumption; rewrite ?R1;
    unfold want, want_seed, want_field, want_a, want_b, want_curve, want_order, want_gens, pick.
    + destruct prime; reflexivity.
    + destruct prime; reflexivity.
    + destruct prime; reflexivity.
  - unfold procedure_of in Hp. rewrite E in Hp.
    simpl in Ha; repeat (destruct Ha as [<-|Ha]; [rewrite Ea in Hp; injection Hp as <-|]); try contradiction;
    exfalso; clear - Hin; simpl in Hin; intuition discriminate.
Qed.

Lemma exhaustive_checks c u p : shape c -> procedure_of c = Some p -> In p [PPlain; PTwist; PAnsi; PBrainpool; PBrainpoolRfc; PNums; PFamily] ->
  forall i, match nth i (snd (exhaustive_cinit c u)) None with Some l => l | None => [] end = want_checks p c i.
Proof.
  intros Hs Hp Hin i.
  destruct Hs as [m E Ea Hm | a E Ea Ha].
  - unfold procedure_of in Hp. rewrite E in Hp.
    simpl in Hm; repeat (destruct Hm as [<-|Hm]; [first [discriminate Hp | injection Hp as <-]|]); try contradiction;
    try (exfalso; clear - Hin; simpl in Hin; intuition discriminate);
    unfold exhaustive_cinit; decide_method E Ea; unfold want_checks; cbn [snd is_some]; destruct (c_hex_check c);
    do 9 (destruct i as [|i]; [reflexivity|]); destruct i; reflexivity.
  - unfold procedure_of in Hp. rewrite E in Hp.
    simpl in Ha; repeat (destruct Ha as [<-|Ha]; [rewrite Ea in Hp; injection Hp as <-|]); try contradiction;
    unfold exhaustive_cinit; decide_method E Ea; unfold want_checks; cbn [snd is_some]; destruct (c_hex_check c);
    do 9 (destruct i as [|i]; [reflexivity|]); destruct i; reflexivity.
Qed.
Lemma cm_checks c u p : In p [PCm; PAnomalous; PSupersingular] ->
  forall i, match nth i (snd (cm_cinit c u)) None with Some l => l | None => [] end = want_checks p c i.
Proof.
  intros Hin i. unfold cm_cinit, want_checks. cbn [snd is_some].
  simpl in Hin; repeat (destruct Hin as [<-|Hin]; [destruct (c_hex_check c); do 9 (destruct i as [|i]; [reflexivity|]); destruct i; reflexivity|]).
  contradiction.
Qed.

Lemma unrolls c i : (i < 8)%nat -> exists f, nth i (exhaustive_uinit c) None = Some f.
Proof.
  intros H. unfold exhaustive_uinit. rewrite if_put.
  do 8 (destruct i as [|i]; [eexists; reflexivity|]). lia.
Qed.

Lemma exhaustive_args c p : Z.b2z (c_prime c) + Z.b2z (c_smooth c) + Z.b2z (c_cofactor c) <= 1 ->
  In p [PPlain; PTwist; PAnsi; PBrainpool; PBrainpoolRfc; PNums; PFamily] ->
  forall i g P, nth i (want p false c) None = Some g -> reads g = Some P ->
  exists a, nth i (fst (exhaustive_ainit c)) None = Some a /\ P a.
Proof.
  intros Ho Hin i g P Hg HP. unfold exhaustive_ainit. cbn [fst].
  simpl in Hin.
  do 9 (destruct i as [|i];
    [ cbn [want map nth] in Hg; injection Hg as <-;
      unfold want_seed, want_field, want_a, want_b, want_curve, want_order, want_gens, want_points, pick in HP;
      repeat (destruct Hin as [<-|Hin];
       [ repeat match type of HP with context [if ?b then _ else _] => destruct b eqn:?; try discriminate HP end;
         try discriminate HP;
         injection HP as <-;
         repeat match goal with |- context [if ?b then _ else _] => destruct b eqn:? end;
         try discriminate; try (exfalso; cbn [Z.b2z] in Ho; lia);
         eexists; (split; [reflexivity|eexists; reflexivity]) |]); contradiction | ]).
  destruct i; discriminate Hg.
Qed.

Lemma cm_args c p prime : shape c -> procedure_of c = Some p -> In p [PCm; PAnomalous; PSupersingular] ->
  (bit0 (c_method c) = true -> exists t, c_cm_order c = Some t) ->
  forall i g P, nth i (want p prime c) None = Some g -> reads g = Some P ->
  exists a, nth i (fst (cm_ainit c)) None = Some a /\ P a.
Proof.
  intros Hs Hp Hin Hcm i g P Hg HP.
  destruct Hs as [m E Ea Hm | a E Ea Ha].
  - unfold procedure_of in Hp. rewrite E in Hp.
    simpl in Hm; repeat (destruct Hm as [<-|Hm]; [first [discriminate Hp | injection Hp as <-]|]); try contradiction;
    try (exfalso; clear - Hin; simpl in Hin; intuition discriminate); clear Hin;
    unfold cm_ainit; decide_method E Ea; cbn [fst]; rewrite E in Hcm; cbn in Hcm.
    1: destruct (Hcm eq_refl) as [t ->].
    all: do 9 (destruct i as [|i];
      [ cbn [want map nth] in Hg; injection Hg as <-;
        unfold want_seed, want_field, want_a, want_b, want_curve, want_order, want_gens, want_points, pick in HP;
        try discriminate HP;
        repeat match type of HP with context [if ?b then _ else _] => destruct b eqn:?; try discriminate HP end;
        try discriminate HP;
        injection HP as <-;
        eexists; (split; [first [reflexivity | match goal with |- context [if ?b then _ else _] => destruct b end; reflexivity]|eexists; reflexivity]) | ]);
    destruct i; discriminate Hg.
  - unfold procedure_of in Hp. rewrite E in Hp.
    simpl in Ha; repeat (destruct Ha as [<-|Ha]; [rewrite Ea in Hp; injection Hp as <-|]); try contradiction;
    exfalso; clear - Hin; simpl in Hin; intuition discriminate.
Qed.
