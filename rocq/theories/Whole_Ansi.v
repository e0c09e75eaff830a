(** C78: a whole run of the method of ANSI X9.62 over a prime field. *)
From Coq Require Import Ascii String Znumtheory.
From Verif Require Import Base Fp Ec Poly_Model Points_Model Random_Model Random_Props Cli_Model Json_Spec CurveText_Spec.
From Verif Require Import Whole_Model Whole_Spec Whole_Stages Whole_Proofs Whole_Front Whole_Run Whole_Default Whole_Made Shell_Fields.
From Verif Require Bits_Spec Str_Model Cli_Spec Cli_Proofs Ansi_Spec Ansi_Model Ansi_Proofs Ansi_Input Ansi_Bound Plan_Model Engine_Model Shell_Model Shell_Spec Hex_Props Input_Model Input_Props.
Local Open Scope Z_scope.
Local Open Scope list_scope.

(** ** The plan *)
Record in_ansi_any (cfg : config) : Prop := {
  ia_method : c_method cfg = METHOD_SEED;
  ia_algo : c_seed_algo cfg = SEED_ANSI;
  ia_seed : forall u, Cli_Model.c_seed cfg = Some u -> Ansi_Model.ansi_seed_valid u = true /\ Z.of_nat (length u) < 2 ^ 29;
  ia_rest : in_range cfg
}.
Definition in_ansi (cfg : config) : Prop := c_field cfg = FIELD_PRIME /\ in_ansi_any cfg.
Definition seed_f (cfg : config) : Plan_Model.gen_f :=
  match Cli_Model.c_seed cfg with
  | Some _ => Plan_Model.ansi_gen_seed_argument
  | None => if Plan_Model.is_random cfg RANDOM_SEED then Plan_Model.ansi_gen_seed_random else Plan_Model.ansi_gen_seed_input
  end.
Lemma ansi_plan cfg u : in_ansi_any cfg -> snd (Plan_Model.exhaustive_init cfg u) = Plan_Model.mkSetup
  [Some (seed_f cfg); Some (field_f cfg); Some Plan_Model.gen_skip; Some Plan_Model.ansi_gen_equation;
   Some Plan_Model.curve_gen_any; Some (order_f cfg); Some (gens_f cfg); Some (points_f cfg); Some (meta_f cfg)]
  [None; None; None; None; None; order_arg cfg; gens_arg cfg; points_arg cfg; None]
  [None; None; None; None; Some [Plan_Model.curve_check_nonzero]; None; None; hex_cell cfg; None]
  [None; None; None; None; None; None; None; hex_arg cfg; None]
  [Some Plan_Model.seed_unroll; Some Plan_Model.unroll_skip; Some Plan_Model.unroll_skip; Some Plan_Model.unroll_skip;
   Some Plan_Model.curve_unroll; Some Plan_Model.unroll_skip; Some Plan_Model.gens_unroll; Some Plan_Model.points_unroll; None].
Proof.
  intros [M A _ R]. pose proof (in_type _ R) as T.
  assert (HP : forall g, Plan_Model.points_init cfg g = Plan_Model.put Plan_Model.POINTS (points_f cfg) g).
  { intros g. unfold Plan_Model.points_init, points_f.
    assert (TT : c_points_type cfg = 0 \/ c_points_type cfg = 1 \/ c_points_type cfg = 2 \/ c_points_type cfg = 3 \/ c_points_type cfg = 4) by lia.
    destruct TT as [->|[->|[->|[->| ->]]]]; [reflexivity|reflexivity| |reflexivity|reflexivity].
    destruct (c_points_amount cfg =? 0); reflexivity. }
  assert (HU : forall u g, exists u', Plan_Model.unique_init cfg u g = (u', Plan_Model.put Plan_Model.GENERATORS (gens_f cfg) g)).
  { intros u' g. unfold Plan_Model.unique_init, gens_f. destruct (c_unique cfg); [eauto|]. destruct (c_cofactor cfg); eauto. }
  assert (HS : forall u g, exists u', Plan_Model.seed_init cfg Plan_Model.ansi_gen_seed_argument Plan_Model.ansi_gen_seed_random Plan_Model.ansi_gen_seed_input u g =
    (u', Plan_Model.put Plan_Model.SEED (seed_f cfg) g)).
  { intros u' g. unfold Plan_Model.seed_init, seed_f. destruct (Cli_Model.c_seed cfg); cbn [Plan_Model.is_some]; [eauto|]. destruct (Plan_Model.is_random cfg RANDOM_SEED); eauto. }
  assert (HM : forall g, (if c_metadata cfg then Plan_Model.put Plan_Model.METADATA Plan_Model.metadata_gen g else Plan_Model.put Plan_Model.METADATA Plan_Model.gen_skip g)
             = Plan_Model.put Plan_Model.METADATA (meta_f cfg) g).
  { intros g. unfold meta_f. destruct (c_metadata cfg); reflexivity. }
  assert (HG : exists u', Plan_Model.exhaustive_ginit cfg u = (u', [Some (seed_f cfg); Some (field_f cfg); Some Plan_Model.gen_skip; Some Plan_Model.ansi_gen_equation;
   Some Plan_Model.curve_gen_any; Some (order_f cfg); Some (gens_f cfg); Some (points_f cfg); Some (meta_f cfg)])).
  { unfold Plan_Model.exhaustive_ginit. rewrite A, M. cbv zeta. change (negb (SEED_ANSI =? 0)) with true. change (SEED_ANSI =? SEED_ANSI) with true.
    change (METHOD_SEED =? METHOD_TWIST) with false. cbn iota. unfold order_f.
    destruct (c_prime cfg); [|destruct (c_cofactor cfg) eqn:CF; [|destruct (c_smooth cfg)]].
    all: match goal with |- context [Plan_Model.unique_init _ ?v ?g] => destruct (HU v g) as (u1 & ->) end.
    all: match goal with |- context [Plan_Model.seed_init _ _ _ _ ?v ?g] => destruct (HS v g) as (u2 & ->) end.
    all: rewrite HM, HP; eexists; unfold field_f; destruct (Plan_Model.is_random cfg RANDOM_FIELD); reflexivity. }
  destruct HG as (u1 & HG). unfold Plan_Model.exhaustive_init. rewrite HG. clear HG HP HU HM HS.
  unfold Plan_Model.exhaustive_cinit, Plan_Model.exhaustive_ainit, Plan_Model.exhaustive_uinit, Plan_Model.hex_args, order_arg, gens_arg, points_arg, hex_cell, hex_arg.
  rewrite A, M. change (METHOD_SEED =? METHOD_SEED) with true. change (METHOD_SEED =? METHOD_FAMILY) with false. change (negb (SEED_ANSI =? 0)) with true.
  change (SEED_ANSI =? SEED_BRAINPOOL) with false. change (SEED_ANSI =? SEED_BRAINPOOL_RFC) with false. change (SEED_ANSI =? SEED_NUMS) with false.
  cbn [orb]. cbn iota. cbn [snd]. f_equal.
  - destruct (c_points_type cfg =? POINTS_RANDOM), (c_cofactor cfg), (c_smooth cfg); reflexivity.
  - destruct (c_hex_check cfg); reflexivity.
  - destruct (c_hex_check cfg); reflexivity.
Qed.

(** ** The stages *)
Lemma input_length d t : (length (fst (Input_Model.input_string d (field_stream t))) <= length t)%nat.
Proof.
  assert (C : forall s, (length (Input_Model.cstring s) <= length s)%nat).
  { induction s as [|c s IH]; cbn [Input_Model.cstring length]; [lia|]. destruct (Ascii.eqb c "000"); cbn [length]; lia. }
  assert (R : forall s : str, (length (removelast s) <= length s)%nat).
  { induction s as [|c s IH]; [cbn; lia|]. cbn [removelast]. destruct s; cbn [length] in *; lia. }
  assert (K : forall s l r, Input_Model.cut d s = Some (l, r) -> (length l <= length s)%nat).
  { induction s as [|c s IH]; intros l r E; cbn [Input_Model.cut] in E; [discriminate|]. destruct (Ascii.eqb c d); [injection E as <- <-; cbn [length]; lia|].
    destruct (Input_Model.cut d s) as [(l', r')|]; [|discriminate]. injection E as <- <-. specialize (IH l' r' eq_refl). cbn [length]. lia. }
  unfold Input_Model.input_string, Input_Model.getdelim, field_stream. cbn [Input_Model.rest Input_Model.eof]. destruct t as [|x t]; [cbn; lia|].
  assert (L : forall line (s' : Input_Model.stream), (length line <= length (x :: t))%nat ->
    (length (fst (if (length line =? 1)%nat then ([], s') else (Input_Model.cstring (removelast line), s'))) <= length (x :: t))%nat).
  { intros line s' H. destruct (length line =? 1)%nat; cbn [fst]; [apply Nat.le_0_l|]. pose proof (C (removelast line)). pose proof (R line). lia. }
  destruct (Input_Model.cut d (x :: t)) as [(l, r)|] eqn:E; [|apply L; lia]. apply L. exact (K _ _ _ E).
Qed.

Section Stages.
Variable P : pari.
Variable cfg : config.
Hypothesis IA : in_ansi_any cfg.
Variable tries : nat.
Variable delim : ascii.
Notation bits := (c_bits cfg).
Notation tbits := (Z.to_nat (c_bits cfg)).
Notation gen := (generator P cfg tries delim).

Lemma ansi_bits : 3 <= bits < 2 ^ 61. Proof. exact (in_bits _ (ia_rest _ IA)). Qed.
Lemma tbits_ok : Z.of_nat tbits = bits /\ (1 <= tbits)%nat /\ Z.of_nat tbits < 2 ^ 62.
Proof. pose proof ansi_bits as B. assert (2 ^ 61 < 2 ^ 62) by reflexivity. lia. Qed.

(** the seed, with the fields that were read for it *)
Definition ansi_seeded (l : list str) (s : option any_seed) : Prop :=
  exists sd, s = Some (AnsiSeed sd) /\
  ((reads (seed_f cfg) = true /\ Ansi_Bound.shaped sd tbits /\ exists t, l = [t] /\ 2 ^ 29 <= Z.of_nat (length t)) \/ (Ansi_Proofs.seeded sd tbits /\ seed_given cfg delim l (Bits_Spec.bits_of (Ansi_Model.seed sd)))).
Definition ansi_made (s : option any_seed) (p a b : Z) : Prop :=
  (has_bits a bits \/ a = 2 ^ bits) /\ 0 <= b < p /\
  forall sd, s = Some (AnsiSeed sd) -> Ansi_Proofs.seeded sd tbits ->
  (Ansi_Spec.ansi_r padded_sha1 (Bits_Spec.bits_of (Ansi_Model.seed sd)) tbits * b ^ 2) mod p = a ^ 3 mod p.
(** no seed of which r = 0 can come up *)
Definition ansi_safe : Prop :=
  Plan_Model.is_random cfg RANDOM_FIELD = true /\ reads (seed_f cfg) = false /\
  forall l bs, seed_given cfg delim l bs -> Ansi_Spec.ansi_r padded_sha1 bs tbits <> 0.

Lemma spelled u digits sd : Cli_Spec.hex_body u digits -> (40 <= length digits)%nat ->
  length (Bits_Spec.bits_of (Ansi_Model.seed sd)) = (4 * length digits)%nat ->
  Bits_Spec.hex_text (length digits) (bval (Bits_Spec.bits_of (Ansi_Model.seed sd))) = map Bits_Spec.lower digits ->
  seed_spelled u (Bits_Spec.bits_of (Ansi_Model.seed sd)).
Proof. intros A B C D. exists digits. split; [exact A|]. split; [exact B|]. split; assumption. Qed.
Lemma valid_input u : Ansi_Model.ansi_seed_valid u = true -> Z.of_nat (length u) < 2 ^ 29 ->
  exists sd, Ansi_Model.ansi_gen_seed_argument u bits = Ok sd /\ Ansi_Proofs.seeded sd tbits /\ seed_spelled u (Bits_Spec.bits_of (Ansi_Model.seed sd)).
Proof.
  intros V L. destruct tbits_ok as (TB & T1 & _). destruct (Ansi_Input.C12_seed_input u tbits T1 L) as (H & _). apply Cli_Proofs.ansi_valid_iff in V as VV. destruct VV as (digits & HB & HL).
  destruct (H digits HB HL) as (sd & E & S & A & B). rewrite TB in E. unfold Ansi_Model.ansi_gen_seed_input in E. rewrite V in E. cbn [negb] in E.
  destruct (Ansi_Model.ansi_gen_seed_argument u bits) as [sd'| | |]; cbn [bind] in E; try discriminate E. injection E as ->. exists sd. split; [reflexivity|]. split; [exact S|].
  exact (spelled u digits sd HB HL A B).
Qed.
Lemma seed_stage d t c : match gen (seed_f cfg) None d t c with
  | Ok (c', r) => (r = 1 /\ ansi_seeded (text_of (seed_f cfg) t) (k_seed c')) \/ r = Engine_Model.INT_MIN \/ (r = 0 /\ c' = c)
  | UB => reads (seed_f cfg) = true
  | _ => True
  end.
Proof.
  destruct tbits_ok as (TB & T1 & _). unfold ansi_seeded, seed_f, seed_given, text_of.
  destruct (Cli_Model.c_seed cfg) as [u|] eqn:CS; [|destruct (Plan_Model.is_random cfg RANDOM_SEED) eqn:RS].
  - cbn [generator reads]. rewrite CS. cbn [need bind]. destruct (ia_seed _ IA u CS) as (V & L). destruct (valid_input u V L) as (sd & -> & S & G). cbn [bind].
    left. split; [reflexivity|]. exists sd. split; [reflexivity|]. right. split; [exact S|]. split; [reflexivity|exact G].
  - cbn [generator reads]. destruct (C62_int_partial 160 (d_one d) ltac:(lia)) as (r & -> & R). cbn [bind].
    assert (RR : 2 ^ 159 <= r <= 2 ^ 160) by (destruct R as [R| ->]; [unfold has_bits in R; cbn in R; lia|lia]).
    destruct (Ansi_Proofs.seed_random_ok r tbits) as (sd & E & S & V & L); [lia| |exact T1|].
    { apply Z.le_lt_trans with (Z.log2 (2 ^ 160)); [apply Z.log2_le_mono; lia|reflexivity]. }
    rewrite TB in E. rewrite E. cbn [bind]. left. split; [reflexivity|]. exists sd. split; [reflexivity|]. right. split; [exact S|]. split; [reflexivity|].
    rewrite V. split; [exact RR|exact L].
  - cbn [generator reads]. pose proof (input_length delim t) as IL. set (v := fst (Input_Model.input_string delim (field_stream t))) in *.
    destruct (Z_lt_ge_dec (Z.of_nat (length t)) (2 ^ 29)) as [L|L].
    + destruct (Ansi_Input.C12_seed_input v tbits T1 ltac:(lia)) as (_ & N). rewrite TB in N. unfold Ansi_Model.ansi_gen_seed_input in *. destruct (Ansi_Model.ansi_seed_valid v) eqn:V; cbn [negb] in *.
      * destruct (valid_input v V ltac:(lia)) as (sd & -> & S & G). cbn [bind]. left. split; [reflexivity|]. exists sd. split; [reflexivity|]. right. split; [exact S|].
        exists t. split; [reflexivity|]. intros u r It NN. assert (E : v = u); [|rewrite <- E; exact G].
        unfold v. rewrite (Input_Props.C55_delimited_partial delim (field_stream t) u r It NN). reflexivity.
      * cbn [bind]. right. right. split; reflexivity.
    + destruct (Ansi_Model.ansi_gen_seed_input v bits) as [[sd|]| | |] eqn:E; cbn [bind]; try exact I.
      * left. split; [reflexivity|]. exists sd. split; [reflexivity|]. left. split; [reflexivity|]. split; [apply (Ansi_Bound.input_shaped v); [exact T1|rewrite TB; exact E]|]. exists t. split; [reflexivity|lia].
      * right. right. split; reflexivity.
      * reflexivity.
Qed.
Lemma random_ints_range d j : has_bits (random_ints cfg d j) bits \/ random_ints cfg d j = 2 ^ bits.
Proof.
  pose proof ansi_bits as B. unfold random_ints. assert (2 ^ 61 < 2 ^ 63) by reflexivity. destruct (C62_int_partial bits (d_seq d j) ltac:(lia)) as (r & -> & R). exact R.
Qed.
Lemma ansi_equation d t c p ls lp : ansi_ok P -> c_field cfg = FIELD_PRIME -> k_field c = Some (Prime p) -> field_over bits p -> ansi_seeded ls (k_seed c) -> field_chosen cfg delim lp p ->
  match gen Plan_Model.ansi_gen_equation None d t c with
  | Ok (c', r) => (r = 1 /\ exists x y, c' = set_b y (set_a x c) /\ ansi_made (k_seed c) p (elem_int x) (elem_int y)) \/ r = Engine_Model.INT_MIN \/ (-3 <= r <= -2 /\ c' = c)
  | UB => ~ ansi_safe
  | _ => True
  end.
Proof.
  intros AO FP K (Pp & Bp) (sd & S & SS) FC. destruct tbits_ok as (TB & T1 & T2). pose proof (prime_ge_2 p Pp) as P2. cbn [generator]. rewrite FP, S, K. change (FIELD_PRIME =? FIELD_PRIME) with true. cbv iota. cbn [need_ansi need_prime bind].
  destruct (Ansi_Model.ansi_gen_equation_fp (d_mem d) (Fp_invsafe P) (Fp_issquare P) (Fp_sqrt P) (random_ints cfg d) tries sd p) as [((r, a), b)| | |] eqn:E; cbn [bind]; try exact I.
  - left. split; [reflexivity|]. exists (Int a), (Int b). split; [reflexivity|]. cbn [elem_int].
    assert (Sh : exists j x, a = random_ints cfg d j /\ b = Fp_sqrt P x p /\ Fp_issquare P x p = true).
    { clear - E. unfold Ansi_Model.ansi_gen_equation_fp in E. destruct (Ansi_Model.ansi_number (d_mem d) sd) as [r0| | |]; cbn [bind] in E; try discriminate E.
      destruct (Fp_invsafe P r0 p) as [ri|]; [|discriminate E].
      destruct (Ansi_Model.a_loop (Fp_issquare P) (random_ints cfg d) tries 0 ri p) as [(a', b2)| | |] eqn:L; cbn [bind fst snd] in E; try discriminate E. injection E as _ <- <-.
      destruct (Ansi_Proofs.a_loop_ok (Fp_invsafe P) _ (Fp_sqrt P) _ _ _ _ _ _ _ L) as (j & _ & -> & _ & Q & _). exists j, b2. auto. }
    destruct Sh as (j & x & -> & -> & Q). destruct (pc_sqrt _ AO p x Pp Q) as (_ & R).
    split; [apply random_ints_range|]. split; [exact R|]. intros sd' Es Sd. injection Es as <-.
    destruct (Ansi_Proofs.equation_fp_ok _ _ _ _ _ _ _ _ _ _ _ _ (fun x y => pc_inv _ AO p x y Pp) (fun x Hx => proj1 (pc_sqrt _ AO p x Pp Hx)) Sd T1 T2 ltac:(lia) E) as (-> & X & _). exact X.
  - intros (RF & NR & NZ). destruct SS as [(RD & _)|(Sd & G)].
    + rewrite NR in RD. discriminate RD.
    + specialize (NZ ls _ G). unfold Ansi_Model.ansi_gen_equation_fp in E. rewrite (Ansi_Proofs.ansi_number_ok _ sd tbits Sd T1 T2) in E. cbn [bind] in E.
      change Ansi_Proofs.bhash with padded_sha1 in E. set (r := Ansi_Spec.ansi_r padded_sha1 (Bits_Spec.bits_of (Ansi_Model.seed sd)) tbits) in *.
      destruct (Fp_invsafe P r p) as [ri|] eqn:EI.
      * revert E. clear. generalize 0%nat. intros i. destruct (Ansi_Model.a_loop (Fp_issquare P) (random_ints cfg d) tries i ri p) as [(a', b2)| | |] eqn:L; cbn [bind]; try discriminate. intros _.
        revert i L. induction tries as [|n IH]; intros i L; cbn [Ansi_Model.a_loop] in L; [discriminate|]. destruct (Fp_issquare P _ p); cbn [negb] in L; [discriminate|]. exact (IH _ L).
      * apply (pc_null _ AO p r Pp) in EI. unfold field_chosen in FC. rewrite RF in FC. destruct FC as (_ & FC). unfold has_bits in FC.
        assert (RB : 0 <= r < 2 ^ (Z.of_nat tbits - 1)) by (apply Ansi_Proofs.ansi_r_bound; [intros; apply Ansi_Proofs.sha1_length|exact T1]).
        rewrite TB in RB. rewrite Z.mod_small in EI by lia. contradiction.
Qed.
End Stages.

(** ** The run *)
Section Run.
Variable P : pari.
Variable cfg : config.
Hypothesis PO : pari_ok P (c_bits cfg).
Hypothesis AO : ansi_ok P.
Hypothesis IA : in_ansi cfg.
Variable hexw hexp dec : Z -> list ascii.
Hypothesis OK : prints hexw hexp dec.
Hypothesis HX : Hex_Props.prints_hex hexw.
Variable junk : nat -> ascii.
Variable draws : Z -> nat -> draw.
Variable tries fuel : nat.
Variable avma : Z.
Notation setup := (snd (Plan_Model.exhaustive_init cfg [N_method])).
Definition ansi_front (d : ascii) (l : list str) : Z -> curve -> nat -> Prop :=
  made_front (seed_f cfg) (field_f cfg) Z Prime (field_over (c_bits cfg)) (ansi_seeded cfg d) (field_chosen cfg d) (ansi_made cfg) l.

Lemma ansi_result d l i fuel' av r w : Input_Props.delimiter d ->
  search P cfg hexw tries d l (draws i) setup fuel' av = (r, w) ->
  match r with Engine_Model.Returned r => (r = 1 /\ success P cfg (every (prime_over (c_bits cfg))) hexw (ansi_front d l 4) w) \/ (r = 0 /\ failed cfg (ansi_safe cfg d) w)
  | Engine_Model.NoFuel => True | _ => False end.
Proof.
  intros DL. destruct IA as (FP & IA'). rewrite (ansi_plan cfg [N_method] IA'). pose proof (in_bits _ (ia_rest _ IA')) as Hb.
  apply (made_result (fun _ => True) P cfg (every (prime_over (c_bits cfg))) (prime_fits _) PO (ia_rest _ IA')); [..|exact (fun _ => I)].
  - intros E. exfalso. revert E. unfold seed_f. destruct (Cli_Model.c_seed cfg); [|destruct (Plan_Model.is_random cfg RANDOM_SEED)]; discriminate.
  - split; [|reflexivity]. unfold field_f. destruct (Plan_Model.is_random cfg RANDOM_FIELD); reflexivity.
  - intros dr t c _. pose proof (seed_stage P cfg IA' tries d dr t c) as F. destruct (generator P cfg tries d (seed_f cfg) None dr t c) as [[c' r']| | |]; [exact F|intros (_ & X & _); congruence|exact I|exact I].
  - intros dr t c. pose proof (field_stage P cfg PO Hb FP tries d (fun _ => DL) dr t c) as F.
    destruct (generator P cfg tries d (field_f cfg) None dr t c) as [[c' r']| | |]; [exact F|destruct F|exact I|exact I].
  - reflexivity.
  - intros dr t c p ls lp _. apply (ansi_equation P cfg IA'); assumption.
  - intros l' p (RF & _) C. unfold field_chosen in C. rewrite RF in C. destruct C as (_ & C & _).
    assert (4 <= 2 ^ (c_bits cfg - 1)) by (change 4 with (2 ^ 2); apply Z.pow_le_mono_r; lia). change (3 < p). lia.
  - unfold order_f. destruct (c_prime cfg); [reflexivity|]. destruct (c_cofactor cfg); [reflexivity|]. destruct (c_smooth cfg); reflexivity.
  - intros l' s p a b FO _ _. split; [exact FO|]. split; exact I.
  - intros dr t c p a b _ (_ & CO & _) ns K.
    destruct (order_stage P cfg _ (prime_fits _) PO _ a b CO ns (ia_rest _ IA') tries d dr t c K) as (c' & r' & -> & X). exact X.
  - reflexivity.
Qed.
Lemma ansi_shows d l c : found cfg hexw (every (prime_over (c_bits cfg))) (fun l => ansi_front d l 4) l c -> huge l \/ wanted_ansi cfg hexw d l c.
Proof.
  intros F. destruct (made_shows _ _ _ _ _ _ _ _ _ _ _ _ _ F) as (p & s & Pf & (Pp & Bp) & SE & (A & B & N) & (l0 & ls & l1 & lp & E & _ & (sd & -> & SS) & C) & W).
  destruct SS as [(_ & _ & t & -> & T)|(Sd & G)].
  - left. exists t. split; [|exact T]. rewrite E. apply in_or_app. right. left. reflexivity.
  - right. exists p, (Bits_Spec.bits_of (Ansi_Model.seed sd)). split; [exact Pf|]. split; [exact Pp|]. split; [exact Bp|].
    split; [|split; [exists l0, ls, l1, lp; auto|]; split; [exact (N sd eq_refl Sd)|]; split; [exact A|]; split; [exact B|exact W]].
    rewrite SE. cbn [option_map seed_bits]. unfold seed_text. destruct Sd as ((_ & _ & -> & _) & _). unfold Bits_Spec.bits_of. rewrite map_length, seq_length. reflexivity.
Qed.

(** C78. Full statement: for every field. Binary fields are C84. Missing: seeds of 512 MB and more; texts that are no numbers (see
    C47 and C54); the sizes that are printed fit (fitsb). *)
Theorem C78_run_partial ino readable writable reason io seadata fs kbd d input outer i :
  Shell_Spec.separate ino writable io -> Shell_Spec.input_is ino readable io fs kbd d input ->
  Shell_Model.i_append io = false -> Shell_Spec.out_file ino writable io i -> 0 <= c_count cfg < 2 ^ 64 ->
  let '(w, status) := Shell_Model.main ino readable writable (fun _ => None) reason true io seadata
      (exhaustive_do P cfg hexw hexp dec junk draws tries fuel avma d setup outer) (Shell_Model.fresh fs kbd) in
  status = Some 0 ->
  exists text cs, Shell_Model.files w i = Some text /\ Z.of_nat (length cs) = c_count cfg /\
    each (fun l c => huge l \/ wanted_ansi cfg hexw d l c) d input cs /\
    (exists v, json text v) /\
    forall v, json text v -> exists ds, v = JArr ds /\ all read_curve ds = Some cs.
Proof.
  intros S I NA O B.
  assert (DL : Input_Props.delimiter d) by (unfold Shell_Spec.input_is in I; unfold Input_Props.delimiter; destruct (Shell_Model.i_input io); destruct I as (-> & _); auto).
  pose proof (run_file P cfg hexw hexp dec OK HX junk draws tries fuel avma d setup (every (prime_over (c_bits cfg))) (fun l => ansi_front d l 4) _
    (fun l i fuel av r w => ansi_result d l i fuel av r w DL) ino readable writable reason io seadata fs kbd d input outer i S I NA O B) as H.
  destruct (Shell_Model.main _ _ _ _ _ true io seadata _ (Shell_Model.fresh fs kbd)) as (w, status). intros E.
  destruct (H E) as (text & cs & F & N & EA & J). exists text, cs. split; [exact F|]. split; [exact N|]. split; [|exact J].
  apply (each_impl (found cfg hexw (every (prime_over (c_bits cfg))) (fun l => ansi_front d l 4))) with (2 := EA). intros l c. apply ansi_shows.
Qed.
(** A search leaves no undefined behaviour behind when the field is random, the seed is not typed and r is not zero. *)
Theorem C78_defined_partial d l i r w : Input_Props.delimiter d -> safe cfg -> Plan_Model.is_random cfg RANDOM_FIELD = true ->
  (Cli_Model.c_seed cfg <> None \/ Plan_Model.is_random cfg RANDOM_SEED = true) ->
  (forall bs, seed_given cfg d [] bs -> Ansi_Spec.ansi_r padded_sha1 bs (Z.to_nat (c_bits cfg)) <> 0) ->
  search P cfg hexw tries d l (draws i) setup fuel avma = (r, w) ->
  match r with
  | Engine_Model.Returned 1 => w_wrong w = None /\ exists c, to_output (w_curve w) = Ok c
  | Engine_Model.Returned 0 => w_wrong w <> Some Undefined
  | Engine_Model.NoFuel => True
  | _ => False
  end.
Proof.
  intros DL SA RF NT NZ S. apply (search_defined P cfg hexw draws tries fuel avma d setup (every (prime_over (c_bits cfg))) (fun l => ansi_front d l 4) _
    (fun l i fuel av r w => ansi_result d l i fuel av r w DL) l i r w SA); [|exact S].
  split; [exact RF|]. split.
  - unfold seed_f. destruct (Cli_Model.c_seed cfg); [reflexivity|]. destruct NT as [NT| ->]; [destruct NT; reflexivity|reflexivity].
  - intros l' bs G. apply NZ. revert G. unfold seed_given. destruct (Cli_Model.c_seed cfg); [intros (_ & G); split; [reflexivity|exact G]|].
    destruct NT as [NT| ->]; [destruct NT; reflexivity|]. intros (_ & G). split; [reflexivity|exact G].
Qed.
End Run.
