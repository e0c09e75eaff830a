(** Options and their effect: the two halves of C27. *)
From Coq Require Import Ascii String.
From Verif Require Import Base Str_Model Cli_Model Cli_Spec Cli_Proofs Plan_Model Plan_Spec Plan_Proofs Plan_Proofs2 Plan_Proofs3.
Local Open Scope Z_scope.

Ltac solve_shape := match goal with H : shape _ |- shape ?c' =>
  let m := fresh "m" in let e1 := fresh "x" in let e2 := fresh "y" in let e3 := fresh "z" in
  destruct H as [m e1 e2 e3|m e1 e2 e3]; [exact (sh_other c' m e1 e2 e3)|exact (sh_seed c' m e1 e2 e3)] end.
Ltac good_c := match goal with H : good ?c ?p |- good _ _ =>
  constructor; [generalize (g_shape c p H); let h := fresh in intros h; solve_shape|exact (g_proc c p H)|try exact (g_points c p H)
  |try exact (g_random c p H)|try exact (g_kval c p H)|try exact (g_order c p H)] end.

Ltac good_r := match goal with H : good ?c ?p |- good _ _ =>
  constructor; [generalize (g_shape c p H); let h := fresh in intros h; solve_shape|exact (g_proc c p H)|exact (g_points c p H)
  |idtac|exact (g_kval c p H)|exact (g_order c p H)] end.

(** a reported option has no effect *)
Theorem reported_no_effect c set prime n c' : final c set ->
  In n (config_report_unused set (fst (main_job c prime))) -> same_but n c c' -> effect c' prime = effect c prime.
Proof.
  intros Hf Hr Hsame. apply reported_iff in Hr. destruct Hr as (Hnf & Hset & Hu).
  destruct (Z.eq_dec (c_method c) METHOD_INVALID) as [Em|Em].
  - assert (Ea : c_seed_algo c = 0).
    { destruct (final_shape _ _ Hf) as [m E Ea _|a E _ _]; [assumption|rewrite E in Em; discriminate]. }
    rewrite (used_invalid c prime n Em) in Hu.
    assert (Hn : n <> N_seed_algo).
    { intros ->. destruct Hf as [[] _ _ _]. apply i_salgo in Hset. cbn [fst] in Hset. rewrite Ea in Hset. discriminate. }
    destruct n; try discriminate Hu; try congruence; cbn [same_but] in Hsame;
    repeat match type of Hsame with ex _ => let v := fresh "v" in destruct Hsame as [v Hsame] end;
    try (match type of Hsame with _ /\ _ => destruct Hsame as [_ Hsame] end); subst c';
    (rewrite !effect_invalid; [reflexivity | exact Em | exact Ea | exact Em | exact Ea]).
  - destruct (final_proc _ _ Hf Em) as [p Hp].
    pose proof (good_final _ _ _ Hf Hp) as Hg.
    rewrite (used_eq c p prime n Hg) in Hu.
    destruct Hf as [[] _ _ Ho]. cbn [fst snd] in *.
    destruct n; cbn [used_b] in Hu; try discriminate Hu; try congruence; cbn [same_but] in Hsame;
    repeat match type of Hsame with ex _ => let v := fresh "v" in destruct Hsame as [v Hsame] end;
    try (match type of Hsame with _ /\ _ => destruct Hsame as [Hv Hsame] end); subst c'.
    all: try (apply i_cofactor in Hset); try (apply i_smooth in Hset); try (apply i_salgo in Hset).
    all: try match goal with |- effect (set_seed_algo _ _) _ = _ =>
      exfalso; destruct (g_shape _ _ Hg) as [m E Ea _|a E Ea Ha];
      [rewrite Ea in Hset; discriminate Hset
      |unfold procedure_of in Hp; rewrite E in Hp; simpl in Ha;
       repeat (destruct Ha as [<-|Ha]; [rewrite Ea in Hp; injection Hp as <-; discriminate Hu|]); contradiction] end.
    all: rewrite (effect_eq c p prime Hg); rewrite (effect_eq _ p prime);
      [destruct p; try discriminate Hu; try reflexivity;
       try (apply i_kvset in Hset; rewrite Hset in Hu; discriminate Hu);
       try (unfold ex_effect, ex_setup, want, want_seed; cbn [c_seed set_random]; destruct (c_seed c); [reflexivity|discriminate Hu]);
       exfalso; destruct (c_prime c), (c_cofactor c), (c_smooth c), (c_unique c); try discriminate; cbn in Ho; lia
      |good_c; try exact Hv; intros Ht; destruct p; try discriminate Ht; try discriminate Hu;
       exfalso; destruct (c_prime c), (c_cofactor c), (c_smooth c), (c_unique c); try discriminate; cbn in Ho; lia].
Qed.

(** ** An option that is set and not reported has an effect, or is overridden *)

Definition job_kind (j : job) : nat := match j with JExhaustive _ _ => 0 | JCm _ _ => 1 | JInvalid _ _ _ _ => 2 end.
Lemma kind_eq c prime : job_kind (fst (fst (fst (effect c prime)))) =
  if (c_method c =? METHOD_CM) || (c_method c =? METHOD_ANOMALOUS) || (c_method c =? METHOD_SUPERSINGULAR) then 1%nat
  else if c_method c =? METHOD_INVALID then 2%nat else 0%nat.
Proof.
  unfold effect. cbn [fst]. unfold main_job.
  destruct ((c_method c =? METHOD_CM) || (c_method c =? METHOD_ANOMALOUS) || (c_method c =? METHOD_SUPERSINGULAR)).
  - destruct (cm_init c prime [N_method]). reflexivity.
  - destruct (c_method c =? METHOD_INVALID).
    + destruct (invalid_original_ginit c [N_method]) as [u g]. destruct (invalid_invalid_ginit c u). reflexivity.
    + destruct (exhaustive_init c [N_method]). reflexivity.
Qed.

Definition gens_of (e : job * Z * option str * option Z) : list (option gen_f) :=
  match fst (fst (fst e)) with JExhaustive su _ | JCm su _ => s_gens su | JInvalid su _ _ _ => s_gens su end.
Definition gens2_of (e : job * Z * option str * option Z) : list (option gen_f) :=
  match fst (fst (fst e)) with JInvalid _ su _ _ => s_gens su | _ => [] end.
Definition gargs_of (e : job * Z * option str * option Z) : list (option arg_t) :=
  match fst (fst (fst e)) with JExhaustive su _ | JCm su _ => s_gargs su | JInvalid su _ _ _ => s_gargs su end.
Definition cargs_of (e : job * Z * option str * option Z) : list (option arg_t) :=
  match fst (fst (fst e)) with JExhaustive su _ | JCm su _ => s_cargs su | JInvalid su _ _ _ => s_cargs su end.
Definition count_of (e : job * Z * option str * option Z) : Z :=
  match fst (fst (fst e)) with JExhaustive _ n | JCm _ n => n | JInvalid _ _ _ _ => 0 end.
Definition primes_of (e : job * Z * option str * option Z) : option str :=
  match fst (fst (fst e)) with JInvalid _ _ p _ => p | _ => None end.

Lemma field_matters c prime : matters N_field c prime.
Proof.
  destruct (Z.eq_dec (c_field c) FIELD_PRIME) as [E|E].
  - exists (set_field FIELD_BINARY c). split; [exists FIELD_BINARY; auto|].
    intros H. apply (f_equal (fun e => snd (fst (fst e)))) in H. unfold effect in H. cbn [fst snd] in H.
    change (c_field (set_field FIELD_BINARY c)) with FIELD_BINARY in H. rewrite E in H. discriminate.
  - exists (set_field FIELD_PRIME c). split; [exists FIELD_PRIME; auto|].
    intros H. apply (f_equal (fun e => snd (fst (fst e)))) in H. unfold effect in H. cbn [fst snd] in H.
    apply E. symmetry. exact H.
Qed.
Lemma method_matters c prime : matters N_method c prime.
Proof.
  destruct ((c_method c =? METHOD_CM) || (c_method c =? METHOD_ANOMALOUS) || (c_method c =? METHOD_SUPERSINGULAR)) eqn:E.
  - exists (set_method METHOD_DEFAULT c). split; [exists METHOD_DEFAULT; split; [simpl; tauto|reflexivity]|].
    intros H. apply (f_equal (fun e => job_kind (fst (fst (fst e))))) in H. rewrite !kind_eq, E in H. discriminate.
  - exists (set_method METHOD_CM c). split; [exists METHOD_CM; split; [simpl; tauto|reflexivity]|].
    intros H. apply (f_equal (fun e => job_kind (fst (fst (fst e))))) in H. rewrite !kind_eq, E in H.
    cbn in H. destruct (c_method c =? METHOD_INVALID); discriminate.
Qed.

Lemma rnd_0 c i : rnd (set_random 0 c) i = false.
Proof. unfold rnd. cbn [c_random set_random]. apply Z.testbit_0_l. Qed.

Ltac differ E i :=
  intros Hq; apply (f_equal (fun e => nth i (gens_of e) None)) in Hq;
  cbn [gens_of fst snd ex_effect ex_setup s_gens want map nth want_seed want_field want_a want_b want_curve want_order want_gens
       cmlike pick] in Hq; revert Hq; rewrite ?E.

Theorem unreported_matters c set prime n : final c set -> In n set ->
  ~ In n (config_report_unused set (fst (main_job c prime))) -> matters n c prime \/ overridden n c prime.
Proof.
  intros Hf Hset Hr. rewrite reported_iff in Hr.
  assert (Hnf : n <> N_family) by (intros ->; destruct Hf as [[] _ _ _]; cbn [snd] in *; contradiction).
  assert (Hu : has n (fst (main_job c prime)) = true).
  { destruct (has n (fst (main_job c prime))); [reflexivity|]. exfalso. tauto. }
  clear Hr.
  destruct (Z.eq_dec (c_method c) METHOD_INVALID) as [Em|Em].
  - assert (Ea : c_seed_algo c = 0).
    { destruct (final_shape _ _ Hf) as [m E Ea _|a E _ _]; [assumption|rewrite E in Em; discriminate]. }
    rewrite (used_invalid c prime n Em) in Hu. left.
    destruct Hf as [[] _ _ _]. cbn [fst snd] in *.
    destruct n; try discriminate Hu.
    + apply field_matters.
    + apply method_matters.
    + exists (set_random (if is_random c RANDOM_FIELD then 0 else 15) c). split.
      * eexists. split; [|reflexivity]. destruct (is_random c RANDOM_FIELD); (split; discriminate).
      * rewrite !effect_invalid by assumption. intros H.
        apply (f_equal (fun e => nth 1 (gens_of e) None)) in H. cbn in H.
        destruct (is_random c RANDOM_FIELD); discriminate.
    + apply i_primes in Hset. exists (set_invalid_primes None c). split; [eexists; reflexivity|].
      rewrite !effect_invalid by assumption. intros H.
      apply (f_equal primes_of) in H. cbn in H. rewrite <- H in Hset. discriminate.
    + apply i_unique in Hset. exists (set_unique false c). split; [eexists; reflexivity|].
      rewrite !effect_invalid by assumption. intros H.
      apply (f_equal (fun e => nth 6 (gens2_of e) None)) in H. cbn in H. rewrite Hset in H. discriminate.
  - destruct (final_proc _ _ Hf Em) as [p Hp].
    pose proof (good_final _ _ _ Hf Hp) as Hg.
    rewrite (used_eq c p prime n Hg) in Hu.
    assert (Hm : forall c' , same_but n c c' -> good c' p -> ex_effect p prime c' <> ex_effect p prime c -> matters n c prime).
    { intros c' H1 H2 H3. exists c'. split; [assumption|]. rewrite (effect_eq c p prime Hg), (effect_eq c' p prime H2). assumption. }
    pose proof Hf as [[] _ _ Ho]. cbn [fst snd] in *.
    destruct n; cbn [used_b] in Hu; try discriminate Hu; try congruence.
    + left. apply field_matters.
    + left. apply method_matters.
    + (* count *)
      left. apply (Hm (set_count (c_count c + 1) c)); [eexists; reflexivity|good_c|].
      intros H. apply (f_equal count_of) in H. unfold ex_effect in H. destruct (cmlike p); cbn in H; lia.
    + (* random *)
      destruct p; try discriminate Hu; try (left;
        apply (Hm (set_random (if rnd c 1 then 0 else 15) c));
        [eexists; split; [|reflexivity]; destruct (rnd c 1); (split; discriminate)
        |good_r; [destruct (rnd c 1); cbn [c_random set_random]; (split; discriminate)]
        |differ tt 1%nat; destruct (rnd c 1) eqn:E1; [change (rnd (set_random 0 c) 1) with false|change (rnd (set_random 15 c) 1) with true]; discriminate]; fail).
      * left. apply (Hm (set_random (if rnd c 0 then 0 else 15) c));
        [eexists; split; [|reflexivity]; destruct (rnd c 0); (split; discriminate)
        |good_r; [destruct (rnd c 0); cbn [c_random set_random]; (split; discriminate)]
        |differ tt 0%nat; cbn [c_seed set_random]; destruct (c_seed c); [discriminate Hu|]; destruct (rnd c 0) eqn:E1; [change (rnd (set_random 0 c) 0) with false|change (rnd (set_random 15 c) 0) with true]; discriminate].
      * left. apply (Hm (set_random (if rnd c 0 then 0 else 15) c));
        [eexists; split; [|reflexivity]; destruct (rnd c 0); (split; discriminate)
        |good_r; [destruct (rnd c 0); cbn [c_random set_random]; (split; discriminate)]
        |differ tt 0%nat; cbn [c_seed set_random]; destruct (c_seed c); [discriminate Hu|]; destruct (rnd c 0) eqn:E1; [change (rnd (set_random 0 c) 0) with false|change (rnd (set_random 15 c) 0) with true]; discriminate].
      * left. apply (Hm (set_random (if c_random c =? 0 then 15 else 0) c));
        [eexists; split; [|reflexivity]; destruct (c_random c =? 0); (split; discriminate)
        |good_r; [destruct (c_random c =? 0); cbn [c_random set_random]; (split; discriminate)]
        |differ tt 0%nat; destruct (c_random c =? 0) eqn:E1; discriminate].
      * right. cbn [overridden]. unfold procedure_of in Hp.
        repeat match type of Hp with context [if ?b then _ else _] => destruct b eqn:? end; try discriminate Hp. apply Z.eqb_eq. assumption.
    + (* prime *)
      apply i_prime in Hset.
      destruct (three p) eqn:E3.
      * left. apply (Hm (set_prime false c)); [eexists; reflexivity| |].
        -- good_c. intros _. revert Ho. rewrite Hset. cbn [c_prime c_smooth c_cofactor set_prime]. cbn [Z.b2z]. lia.
        -- destruct p; try discriminate E3; differ Hset 5%nat; cbn [c_prime c_cofactor c_smooth c_koblitz set_prime];
           destruct (c_cofactor c), (c_smooth c); try destruct (c_koblitz c); discriminate.
      * right. cbn [overridden]. unfold procedure_of in Hp.
        repeat match type of Hp with context [if ?b then _ else _] => destruct b eqn:? end; try discriminate Hp; injection Hp as <-;
        try discriminate Hu; try discriminate E3; rewrite <- !Z.eqb_eq; tauto.
    + (* cm_order *)
      apply i_order in Hset. destruct p; try discriminate Hu.
      left. apply (Hm (set_cm_order None c)); [eexists; reflexivity|good_c|].
      intros H. apply (f_equal (fun e => nth 4 (gargs_of e) None)) in H. cbn in H. injection H as H. rewrite <- H in Hset. discriminate.
    + (* koblitz *)
      apply i_koblitz in Hset.
      destruct p; try discriminate Hu; (left; apply (Hm (set_koblitz false c)); [eexists; reflexivity|good_c|];
        differ Hset 3%nat; cbn [c_koblitz set_koblitz]; destruct (rnd (set_koblitz false c) 3); discriminate).
    + (* koblitz value *)
      apply i_kvset in Hset.
      destruct p; try discriminate Hu; (left; apply (Hm (set_koblitz_value (if c_koblitz_value c =? 0 then 1 else 0) c));
        [eexists; split; [|reflexivity]; destruct (c_koblitz_value c =? 0); auto
        |good_c; [destruct (c_koblitz_value c =? 0); cbn; auto]
        |differ Hset 2%nat; cbn [c_koblitz c_koblitz_value set_koblitz_value]; rewrite Hset; destruct i_kval as [-> | ->]; discriminate]).
    + (* smooth *)
      apply i_smooth in Hset. rewrite Hset in Ho.
      assert (c_prime c = false /\ c_cofactor c = false) as [P1 P2] by (destruct (c_prime c), (c_cofactor c); cbn in Ho; auto; lia).
      destruct (three p) eqn:E3.
      * left. apply (Hm (set_smooth_value 0 (set_smooth false c))); [eexists _, _; reflexivity| |].
        -- good_c. intros _. cbn [c_prime c_smooth c_cofactor set_smooth set_smooth_value]. rewrite P1, P2. cbn. lia.
        -- destruct p; try discriminate E3; differ Hset 5%nat; cbn [c_prime c_cofactor c_smooth c_koblitz set_smooth_value set_smooth];
           rewrite P1, P2; try destruct (c_koblitz c); discriminate.
      * right. cbn [overridden]. unfold procedure_of in Hp.
        repeat match type of Hp with context [if ?b then _ else _] => destruct b eqn:? end; try discriminate Hp; injection Hp as <-;
        try discriminate Hu; try discriminate E3; rewrite <- !Z.eqb_eq; tauto.
    + (* cofactor *)
      apply i_cofactor in Hset. rewrite Hset in Ho.
      assert (c_prime c = false /\ c_smooth c = false) as [P1 P2] by (destruct (c_prime c), (c_smooth c); cbn in Ho; auto; lia).
      destruct (three p) eqn:E3.
      * left. apply (Hm (set_cofactor_value 0 (set_cofactor false c))); [eexists _, _; reflexivity| |].
        -- good_c. intros _. cbn [c_prime c_smooth c_cofactor set_cofactor set_cofactor_value]. rewrite P1, P2. cbn. lia.
        -- destruct p; try discriminate E3; differ Hset 5%nat; cbn [c_prime c_cofactor c_smooth c_koblitz set_cofactor_value set_cofactor];
           rewrite P1, P2; try destruct (c_koblitz c); discriminate.
      * right. cbn [overridden]. unfold procedure_of in Hp.
        repeat match type of Hp with context [if ?b then _ else _] => destruct b eqn:? end; try discriminate Hp; injection Hp as <-;
        try discriminate Hu; try discriminate E3; rewrite <- !Z.eqb_eq; tauto.
    + (* seed_algo *)
      apply i_salgo in Hset. left.
      destruct (g_shape _ _ Hg) as [m E Ea _|a E Ea Ha]; [rewrite Ea in Hset; discriminate|].
      exists (set_seed_algo (if c_seed_algo c =? SEED_ANSI then SEED_BRAINPOOL else SEED_ANSI) c).
      split; [eexists; split; [|reflexivity]; destruct (c_seed_algo c =? SEED_ANSI); simpl; tauto|].
      rewrite (effect_eq c p prime Hg).
      rewrite (effect_eq _ (if c_seed_algo c =? SEED_ANSI then PBrainpool else PAnsi) prime).
      * unfold procedure_of in Hp. rewrite E, Ea in Hp. rewrite Ea. simpl in Ha.
        repeat (destruct Ha as [<-|Ha]; [injection Hp as <-; intros H; apply (f_equal (fun e => nth 3 (gens_of e) None)) in H; cbn in H; discriminate|]).
        contradiction.
      * destruct Hg as [? ? ? ? ? ?]. constructor; try assumption.
        -- destruct (c_seed_algo c =? SEED_ANSI); (eapply sh_seed; [exact E|reflexivity|simpl; tauto]).
        -- unfold procedure_of. cbn [c_method c_seed_algo set_seed_algo]. rewrite E. destruct (c_seed_algo c =? SEED_ANSI); reflexivity.
        -- intros _. exact Ho.
    + (* seed *)
      apply i_seed in Hset.
      destruct p; try discriminate Hu; (left; apply (Hm (set_seed None c)); [eexists; reflexivity|good_c|];
       intros H; apply (f_equal (fun e => snd (fst e))) in H; cbn in H; rewrite <- H in Hset; discriminate).
    + (* unique *)
      apply i_unique in Hset.
      assert (Hd : (three p || cmlike p)%bool = true \/ overridden N_unique c prime).
      { destruct (three p || cmlike p)%bool eqn:E3; [auto|right]. cbn [overridden]. unfold procedure_of in Hp.
        repeat match type of Hp with context [if ?b then _ else _] => destruct b eqn:? end; try discriminate Hp; injection Hp as <-;
        try discriminate Hu; try discriminate E3; rewrite <- !Z.eqb_eq; tauto. }
      destruct Hd as [E3|E3]; [left|right; exact E3].
      apply (Hm (set_unique false c)); [eexists; reflexivity|good_c|].
      destruct p; try discriminate E3; differ Hset 6%nat; cbn [c_unique c_cofactor set_unique]; try destruct (c_cofactor c); discriminate.
    + (* hex check *)
      apply i_hex in Hset. left. apply (Hm (set_hex_check None c)); [eexists; reflexivity|good_c|].
      intros H. apply (f_equal (fun e => nth 7 (cargs_of e) None)) in H. unfold ex_effect in H.
      destruct (cmlike p); cbn in H; destruct (c_hex_check c); discriminate.
    + (* points *)
      assert (Hd : (p = PCm /\ prime = true) \/ want_points p prime = want_points PPlain false).
      { destruct p; auto; destruct prime; auto. }
      destruct Hd as [[-> ->]|Hd].
      * right. cbn [overridden]. split; [|reflexivity]. unfold procedure_of in Hp.
        repeat match type of Hp with context [if ?b then _ else _] => destruct b eqn:? end; try discriminate Hp. apply Z.eqb_eq. assumption.
      * left. apply (Hm (set_points_type (if c_points_type c =? POINTS_PRIME then POINTS_NONE else POINTS_PRIME) (set_points_amount 0 c))).
        -- eexists _, _. split; [|reflexivity]. destruct (c_points_type c =? POINTS_PRIME); split; discriminate.
        -- good_c. cbn. destruct (c_points_type c =? POINTS_PRIME); split; discriminate.
        -- intros H. apply (f_equal (fun e => nth 7 (gens_of e) None)) in H.
           assert (H' : want_points p prime (set_points_type (if c_points_type c =? POINTS_PRIME then POINTS_NONE else POINTS_PRIME) (set_points_amount 0 c)) = want_points p prime c).
           { unfold ex_effect in H. destruct (cmlike p); cbn in H; injection H as H; exact H. }
           rewrite Hd in H'. clear H. revert H'. unfold want_points, pick. cbn [c_points_type c_points_amount set_points_type set_points_amount].
           destruct (c_points_type c =? POINTS_PRIME) eqn:E1.
           ++ apply Z.eqb_eq in E1. rewrite E1. discriminate.
           ++ destruct (c_points_type c =? POINTS_RANDOM); [destruct (c_points_amount c =? 0); discriminate|].
              destruct (c_points_type c =? POINTS_NONPRIME); [discriminate|]. destruct (c_points_type c =? POINTS_ALL); discriminate.
    + (* metadata *)
      apply i_metadata in Hset. left. apply (Hm (set_metadata false c)); [eexists; reflexivity|good_c|].
      intros H. apply (f_equal (fun e => nth 8 (gens_of e) None)) in H. unfold ex_effect in H.
      destruct (cmlike p); cbn in H; rewrite Hset in H; discriminate.
Qed.
