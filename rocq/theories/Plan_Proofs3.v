(** The contribution of a configuration to a run, in closed form; which
    options are consulted. For C27. *)
From Coq Require Import Ascii String.
From Verif Require Import Base Str_Model Cli_Model Cli_Spec Cli_Proofs Plan_Model Plan_Spec Plan_Proofs Plan_Proofs2.
Local Open Scope Z_scope.

Definition three (p : procedure) : bool := match p with PPlain | PTwist | PAnsi => true | _ => false end.
Definition cmlike (p : procedure) : bool := match p with PCm | PAnomalous | PSupersingular => true | _ => false end.
Definition seeded (p : procedure) : bool := match p with PAnsi | PBrainpool | PBrainpoolRfc | PNums | PFamily => true | _ => false end.

Definition ex_points_arg (p : procedure) (prime : bool) (c : config) : option arg_t :=
  match p, prime with
  | PCm, true => None
  | _, _ => if c_points_type c =? POINTS_RANDOM then if c_points_amount c =? 0 then None else Some (Amount (c_points_amount c)) else None
  end.
Definition ex_gargs (p : procedure) (prime : bool) (c : config) : list (option arg_t) :=
  [None; match p with PAnomalous => Some (Discr 3) | _ => None end; None; match p with PAnomalous => Some (Discr 3) | _ => None end;
   match p with PCm => Some (Order (c_cm_order c)) | _ => None end;
   match p with
   | PPlain | PTwist | PAnsi => if c_prime c then None else if c_cofactor c then Some (Cofactor (c_cofactor_value c))
       else if c_smooth c then Some (Smooth (c_smooth_value c)) else None
   | PCm => Some (Order (c_cm_order c)) | _ => None end;
   match p with PPlain | PTwist | PAnsi => if c_unique c then None else if c_cofactor c then Some (Cofactor (c_cofactor_value c)) else None | _ => None end;
   ex_points_arg p prime c; None].
Definition ex_checks (p : procedure) (c : config) : list (option (list check_f)) :=
  [None; None; None; None; Some [curve_check_nonzero];
   match p with PBrainpool | PBrainpoolRfc => Some [brainpool_check_order] | _ => None end;
   match p with PBrainpool | PBrainpoolRfc | PNums => Some [gens_check_anomalous; brainpool_check_gens] | _ => None end;
   match c_hex_check c with Some _ => Some [hex_check_param] | None => None end; None].
Definition ex_cargs (c : config) : list (option arg_t) :=
  [None; None; None; None; None; None; None; match c_hex_check c with Some s => Some (Hex s) | None => None end; None].
Definition ex_unrolls (p : procedure) : list (option unroll_f) :=
  [Some (if seeded p then seed_unroll else unroll_skip); Some unroll_skip; Some unroll_skip; Some unroll_skip; Some curve_unroll;
   Some unroll_skip; Some gens_unroll; Some points_unroll; None].
Definition ex_setup p prime c : setup_t := mkSetup (want p prime c) (ex_gargs p prime c) (ex_checks p c) (ex_cargs c) (ex_unrolls p).
Definition ex_effect p prime c : job * Z * option str * option Z :=
  ((if cmlike p then JCm (ex_setup p prime c) (c_count c) else JExhaustive (ex_setup p prime c) (c_count c)),
   c_field c, match p with PAnsi | PBrainpool | PBrainpoolRfc => c_seed c | _ => None end,
   match p with PFamily => Some (c_family c) | _ => None end).

Record good (c : config) (p : procedure) : Prop := mkGood {
  g_shape : shape c; g_proc : procedure_of c = Some p;
  g_points : 0 <= c_points_type c <= 4; g_random : 0 <= c_random c <= 15; g_kval : c_koblitz_value c = 0 \/ c_koblitz_value c = 1;
  g_order : three p = true -> Z.b2z (c_prime c) + Z.b2z (c_smooth c) + Z.b2z (c_cofactor c) <= 1
}.

Lemma want_prime p prime c : p <> PCm -> want p prime c = want p false c.
Proof. destruct p; intros H; try reflexivity; congruence. Qed.

(** what the plan is before reading *)
Lemma job_exh c p prime : good c p -> cmlike p = false ->
  exists v ga, snd (main_job c prime) = JExhaustive (mkSetup (want p false c) ga v (hex_args c) (exhaustive_uinit c)) (c_count c) /\
  v = snd (exhaustive_cinit c (fst (exhaustive_ginit c [N_method]))) /\ ga = fst (exhaustive_ainit c).
Proof.
  intros [Hs Hp H1 H2 H3 H4] Hc.
  assert (Hin : In p [PPlain; PTwist; PAnsi; PBrainpool; PBrainpoolRfc; PNums; PFamily]) by (destruct p; try discriminate; simpl; tauto).
  pose proof (exhaustive_gens c [N_method] p Hs Hp Hin H1 H2 H3) as Hg.
  eexists _, _. split; [|split; reflexivity]. unfold main_job.
  assert (Em : (c_method c =? METHOD_CM) || (c_method c =? METHOD_ANOMALOUS) || (c_method c =? METHOD_SUPERSINGULAR) = false /\
               (c_method c =? METHOD_INVALID) = false).
  { unfold procedure_of in Hp. destruct Hs as [m E Ea Hm | a E Ea Ha]; [|rewrite E; split; reflexivity].
    rewrite E in *. simpl in Hm. repeat (destruct Hm as [<-|Hm]; [first [discriminate Hp | injection Hp as <-; first [discriminate Hc | split; reflexivity]]|]).
    contradiction. }
  destruct Em as [-> ->]. unfold exhaustive_init.
  destruct (exhaustive_ginit c [N_method]) as [u g]. cbn [fst snd] in *. subst g.
  destruct (exhaustive_cinit c u) as [u' v]. cbn [fst snd]. unfold exhaustive_ainit. reflexivity.
Qed.
Lemma job_cm c p prime : good c p -> cmlike p = true ->
  exists v ga, snd (main_job c prime) = JCm (mkSetup (want p prime c) ga v (hex_args c) (exhaustive_uinit c)) (c_count c) /\
  (exists u, v = snd (cm_cinit c u)) /\ ga = fst (cm_ainit c).
Proof.
  intros [Hs Hp H1 H2 H3 H4] Hc.
  assert (Hin : In p [PCm; PAnomalous; PSupersingular]) by (destruct p; try discriminate; simpl; tauto).
  set (u0 := if c_method c =? METHOD_CM then [N_cm_order; N_method] else [N_method]).
  pose proof (cm_gens c prime u0 p Hs Hp Hin H1 H2) as Hg.
  assert (Em : (c_method c =? METHOD_CM) || (c_method c =? METHOD_ANOMALOUS) || (c_method c =? METHOD_SUPERSINGULAR) = true).
  { unfold procedure_of in Hp. destruct Hs as [m E Ea Hm | a E Ea Ha].
    - rewrite E in *. simpl in Hm. repeat (destruct Hm as [<-|Hm]; [first [discriminate Hp | injection Hp as <-; first [discriminate Hc | reflexivity]]|]).
      contradiction.
    - rewrite E in *. simpl in Ha. repeat (destruct Ha as [<-|Ha]; [rewrite Ea in Hp; injection Hp as <-; discriminate Hc|]). contradiction. }
  unfold main_job. rewrite Em. unfold cm_init. fold u0.
  destruct (cm_ginit c prime u0) as [u g]. cbn [fst snd] in Hg. subst g.
  destruct (cm_cinit c u) as [u' v] eqn:Ec.
  eexists _, _. split; [unfold cm_ainit; reflexivity|]. split; [|reflexivity].
  exists u. rewrite Ec. reflexivity.
Qed.

Lemma nth_ext9 {T} (l m : list (option T)) : length l = 9%nat -> length m = 9%nat -> (forall i, (i < 9)%nat -> nth i l None = nth i m None) -> l = m.
Proof. intros H1 H2 H. apply (nth_ext l m None None); [congruence|]. intros i Hi. apply H. congruence. Qed.

Lemma checks_exh c p u : good c p -> cmlike p = false -> snd (exhaustive_cinit c u) = ex_checks p c.
Proof.
  intros [Hs Hp H1 H2 H3 H4] Hc.
  destruct Hs as [m E Ea Hm | a E Ea Ha].
  - unfold procedure_of in Hp. rewrite E in Hp.
    simpl in Hm; repeat (destruct Hm as [<-|Hm]; [first [discriminate Hp | injection Hp as <-]|]); try contradiction; try discriminate Hc;
    unfold exhaustive_cinit; decide_method E Ea; unfold ex_checks; cbn [snd is_some]; destruct (c_hex_check c); reflexivity.
  - unfold procedure_of in Hp. rewrite E in Hp.
    simpl in Ha; repeat (destruct Ha as [<-|Ha]; [rewrite Ea in Hp; injection Hp as <-|]); try contradiction;
    unfold exhaustive_cinit; decide_method E Ea; unfold ex_checks; cbn [snd is_some]; destruct (c_hex_check c); reflexivity.
Qed.
Lemma checks_cm c p u : cmlike p = true -> snd (cm_cinit c u) = ex_checks p c.
Proof. intros Hc. unfold cm_cinit, ex_checks. destruct p; try discriminate; destruct (c_hex_check c); reflexivity. Qed.
Lemma cargs_eq c : hex_args c = ex_cargs c.
Proof. unfold hex_args, ex_cargs. destruct (c_hex_check c); reflexivity. Qed.
Lemma unrolls_eq c p : good c p -> exhaustive_uinit c = ex_unrolls p.
Proof.
  intros [Hs Hp _ _ _ _]. unfold exhaustive_uinit.
  destruct Hs as [m E Ea Hm | a E Ea Ha].
  - unfold procedure_of in Hp. rewrite E in Hp.
    simpl in Hm; repeat (destruct Hm as [<-|Hm]; [first [discriminate Hp | injection Hp as <-]|]); try contradiction;
    decide_method E Ea; reflexivity.
  - unfold procedure_of in Hp. rewrite E in Hp.
    simpl in Ha; repeat (destruct Ha as [<-|Ha]; [rewrite Ea in Hp; injection Hp as <-|]); try contradiction;
    decide_method E Ea; reflexivity.
Qed.

Lemma read_cargs p c : zip_with read_carg (ex_checks p c) (ex_cargs c) = ex_cargs c.
Proof. unfold ex_checks, ex_cargs. destruct p; destruct (c_hex_check c); reflexivity. Qed.

Lemma read_none g : read_arg g None = None.
Proof. destruct g as [g|]; [destruct g|]; reflexivity. Qed.
Lemma read_exh p c : cmlike p = false -> (three p = true -> Z.b2z (c_prime c) + Z.b2z (c_smooth c) + Z.b2z (c_cofactor c) <= 1) ->
  zip_with read_arg (want p false c) (fst (exhaustive_ainit c)) = ex_gargs p false c.
Proof.
  intros Hc Ho. unfold exhaustive_ainit, ex_gargs, ex_points_arg, want, want_order, want_gens, want_points, pick. cbn [fst].
  destruct p; try discriminate Hc; cbn [three] in Ho; try (specialize (Ho eq_refl));
  unfold want_seed, want_field, want_a, want_b, want_curve, pick;
  destruct (c_prime c), (c_smooth c), (c_cofactor c); try (exfalso; cbn in Ho; lia);
  (destruct (c_points_type c =? POINTS_RANDOM); [destruct (c_points_amount c =? 0)|
     destruct (c_points_type c =? POINTS_PRIME); [|destruct (c_points_type c =? POINTS_NONPRIME); [|destruct (c_points_type c =? POINTS_ALL)]]]);
  destruct (c_unique c);
  cbv beta iota delta [zip_with put upd nine repeat map reads POINTS ORDER GENERATORS];
  rewrite ?read_none; reflexivity.
Qed.
Lemma read_cm p prime c : cmlike p = true -> procedure_of c = Some p ->
  zip_with read_arg (want p prime c) (fst (cm_ainit c)) = ex_gargs p prime c.
Proof.
  intros Hc Hp. unfold cm_ainit, ex_gargs, ex_points_arg, want, want_order, want_gens, want_points, pick. cbn [fst].
  assert (Hm : c_method c = match p with PCm => METHOD_CM | PAnomalous => METHOD_ANOMALOUS | _ => METHOD_SUPERSINGULAR end).
  { unfold procedure_of in Hp.
    repeat match type of Hp with context [if ?b then _ else _] => destruct b eqn:? end; try discriminate Hp; injection Hp as <-;
    try discriminate Hc; apply Z.eqb_eq; assumption. }
  destruct p; try discriminate Hc; decide_method Hm Hm;
  unfold want_seed, want_field, want_a, want_b, want_curve, pick; destruct prime;
  (destruct (c_points_type c =? POINTS_RANDOM); [destruct (c_points_amount c =? 0)|
     destruct (c_points_type c =? POINTS_PRIME); [|destruct (c_points_type c =? POINTS_NONPRIME); [|destruct (c_points_type c =? POINTS_ALL)]]]);
  destruct (c_unique c);
  cbv beta iota delta [zip_with put upd nine repeat map reads POINTS ORDER GENERATORS FIELD B CURVE];
  rewrite ?read_none; reflexivity.
Qed.

Theorem effect_eq c p prime : good c p -> effect c prime = ex_effect p prime c.
Proof.
  intros Hg. unfold effect. pose proof Hg as [Hs Hp H1 H2 H3 H4].
  destruct (cmlike p) eqn:Hc.
  - destruct (job_cm c p prime Hg Hc) as (v & ga & -> & [u Hv] & Hga).
    rewrite (checks_cm c p u Hc) in Hv. subst v ga.
    unfold ex_effect. rewrite Hc. cbn [effective reads_seed reads_family].
    unfold effective_setup, ex_setup. cbn [s_gens s_gargs s_checks s_cargs s_unrolls].
    rewrite read_cm, cargs_eq, read_cargs, (unrolls_eq c p Hg) by assumption.
    destruct p; try discriminate; reflexivity.
  - destruct (job_exh c p prime Hg Hc) as (v & ga & -> & Hv & Hga).
    rewrite (checks_exh c p _ Hg Hc) in Hv. subst v ga.
    unfold ex_effect. rewrite Hc. cbn [effective]. 
    assert (Hw : want p prime c = want p false c) by (apply want_prime; destruct p; discriminate).
    assert (Ha : ex_gargs p prime c = ex_gargs p false c) by (destruct p; try discriminate; reflexivity).
    unfold effective_setup, ex_setup. cbn [s_gens s_gargs s_checks s_cargs s_unrolls].
    rewrite Hw, Ha, read_exh, cargs_eq, read_cargs, (unrolls_eq c p Hg) by assumption.
    unfold reads_seed, reads_family, gen_at. cbn [s_gens].
    destruct p; try discriminate; cbn [want map nth SEED FIELD want_seed want_field];
    try reflexivity; unfold pick; try (destruct (rnd c 1); reflexivity);
    try (destruct (negb (c_random c =? 0)); reflexivity);
    destruct (c_seed c); try reflexivity; destruct (rnd c 0); try reflexivity; destruct (rnd c 1); reflexivity.
Qed.

Lemma good_final c set p : final c set -> procedure_of c = Some p -> good c p.
Proof.
  intros Hf Hp. pose proof (final_shape _ _ Hf) as Hs. destruct Hf as [[] _ _ Ho].
  constructor; auto.
Qed.
Lemma final_proc c set : final c set -> c_method c <> METHOD_INVALID -> exists p, procedure_of c = Some p.
Proof.
  intros Hf Hm. destruct (final_shape _ _ Hf) as [m E Ea H|a E Ea H].
  - unfold procedure_of. rewrite E in *. simpl in H.
    repeat (destruct H as [<-|H]; [first [eexists; reflexivity | exfalso; apply Hm; reflexivity]|]). contradiction.
  - unfold procedure_of. rewrite E, Ea. simpl in H.
    repeat (destruct H as [<-|H]; [eexists; reflexivity|]). contradiction.
Qed.

(** ** Which options are consulted *)

Definition used_b (p : procedure) (c : config) (n : name) : bool :=
  match n with
  | N_field | N_method | N_count | N_hex_check | N_points | N_metadata => true
  | N_seed_algo => negb (cmlike p)
  | N_random => match p with
                | PBrainpool | PBrainpoolRfc => negb (is_some (c_seed c))
                | PNums | PCm => false | _ => true end
  | N_prime => match p with PFamily | PCm | PAnomalous | PSupersingular => false | _ => true end
  | N_cofactor => match p with PFamily | PCm | PAnomalous | PSupersingular => false | _ => negb (c_prime c) || negb (c_unique c) end
  | N_smooth => match p with PFamily | PCm | PAnomalous | PSupersingular => false | _ => negb (c_prime c) && negb (c_cofactor c) end
  | N_koblitz => match p with PPlain | PTwist => true | _ => false end
  | N_koblitz_value => match p with PPlain | PTwist => c_koblitz c | _ => false end
  | N_seed => match p with PAnsi | PBrainpool | PBrainpoolRfc => true | _ => false end
  | N_unique => match p with PFamily => false | _ => true end
  | N_cm_order => match p with PCm => true | _ => false end
  | N_invalid_primes | N_family => false
  end.

Lemma used_eq c p prime n : good c p -> has n (fst (main_job c prime)) = used_b p c n.
Proof.
  intros [Hs Hp _ _ _ _]. unfold main_job, exhaustive_init, cm_init.
  destruct Hs as [m E Ea Hm | a E Ea Ha].
  - unfold procedure_of in Hp. rewrite E in Hp.
    simpl in Hm; repeat (destruct Hm as [<-|Hm]; [first [discriminate Hp | injection Hp as <-]|]); try contradiction;
    unfold exhaustive_ginit, exhaustive_cinit, cm_ginit, cm_cinit, unique_init, seed_init; decide_method E Ea;
    unfold used_b;
    try (destruct (c_koblitz c), (c_prime c), (c_cofactor c), (c_smooth c), (c_unique c); destruct n; reflexivity);
    destruct n; reflexivity.
  - unfold procedure_of in Hp. rewrite E in Hp.
    simpl in Ha; repeat (destruct Ha as [<-|Ha]; [rewrite Ea in Hp; injection Hp as <-|]); try contradiction;
    unfold exhaustive_ginit, exhaustive_cinit, cm_ginit, cm_cinit, unique_init, seed_init; decide_method E Ea;
    unfold used_b;
    destruct (c_prime c), (c_cofactor c), (c_smooth c), (c_unique c), (c_seed c); try destruct (is_random c RANDOM_SEED); destruct n; reflexivity.
Qed.

(** ** The invalid-curve method *)
Definition inv_effect (c : config) : job * Z * option str * option Z :=
  let un := [Some unroll_skip; Some unroll_skip; Some unroll_skip; Some unroll_skip; Some curve_unroll;
             Some unroll_skip; Some gens_unroll; Some points_unroll; None] in
  let ch := [None; None; None; None; Some [curve_check_nonzero]; None; None; None; None] in
  (JInvalid
     (mkSetup (map Some [gen_skip; if is_random c RANDOM_FIELD then field_gen_random else field_gen_input;
                         if is_random c RANDOM_A then a_gen_random else a_gen_input;
                         if is_random c RANDOM_B then b_gen_random else b_gen_input;
                         curve_gen_any; order_gen_any; gens_gen_any] ++ [None; Some gen_skip]) (repeat None 9) ch (repeat None 9) un)
     (mkSetup (map Some [gen_skip; gen_skip; gen_skip; b_gen_random; curve_gen_any; order_gen_any;
                         if c_unique c then gens_gen_one else gens_gen_any; points_gen_trial; gen_skip]) (repeat None 9) ch (repeat None 9) un)
     (c_invalid_primes c) (c_threads c), c_field c, None, None).

Lemma effect_invalid c prime : c_method c = METHOD_INVALID -> c_seed_algo c = 0 -> effect c prime = inv_effect c.
Proof.
  intros E Ea. unfold effect, main_job, invalid_original_ginit, invalid_invalid_ginit, exhaustive_uinit.
  decide_method E Ea. push.
  unfold inv_effect. cbn [effective reads_seed reads_family fst snd].
  unfold effective_setup. cbn [s_gens s_gargs s_checks s_cargs s_unrolls].
  cbv beta iota delta [zip_with put upd nine repeat map app POINTS ORDER GENERATORS FIELD A B CURVE SEED METADATA invalid_checks].
  rewrite ?read_none. destruct (c_unique c); reflexivity.
Qed.
Lemma used_invalid c prime n : c_method c = METHOD_INVALID ->
  has n (fst (main_job c prime)) = match n with N_method | N_field | N_random | N_unique | N_invalid_primes => true | _ => false end.
Proof.
  intros E. unfold main_job, invalid_original_ginit, invalid_invalid_ginit. decide_method E E. destruct n; reflexivity.
Qed.

Lemma has_In n l : has n l = true <-> In n l.
Proof.
  unfold has. destruct (in_dec name_eq_dec n l); split; intros H; try assumption; try reflexivity; try discriminate; contradiction.
Qed.

Lemma reported_iff set used n : In n (config_report_unused set used) <-> n <> N_family /\ In n set /\ has n used = false.
Proof.
  unfold config_report_unused. rewrite filter_In, andb_true_iff, negb_true_iff, has_In.
  split.
  - intros (H & ? & ?). split; [|tauto]. intros ->. simpl in H. intuition discriminate.
  - intros (H & ? & ?). split; [|tauto]. destruct n; simpl; tauto.
Qed.

