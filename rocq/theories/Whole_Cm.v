(** C77: a whole run of the supersingular method. *)
From Coq Require Import Ascii String Znumtheory.
From Verif Require Import Base Fp Ec Poly_Model Points_Model Cli_Model Json_Spec CurveText_Spec.
From Verif Require Import Whole_Model Whole_Spec Whole_Stages Whole_Proofs Whole_Front Whole_Run Whole_Default Whole_Made Shell_Fields.
From Verif Require Plan_Model Engine_Model Shell_Model Shell_Spec Hex_Props Input_Props Supersingular_Model Supersingular_Props.
Local Open Scope Z_scope.
Local Open Scope list_scope.

(** ** The plan *)
Record in_supersingular (cfg : config) : Prop := {
  is_field : c_field cfg = FIELD_PRIME;
  is_method : c_method cfg = METHOD_SUPERSINGULAR;
  is_algo : c_seed_algo cfg = 0;
  is_bits : 3 <= c_bits cfg < 2 ^ 61;
  is_type : 0 <= c_points_type cfg <= 4;
  is_amount : 0 <= c_points_amount cfg < 2 ^ 64;
  is_cofactor : - 2 ^ 63 <= c_cofactor_value cfg < 2 ^ 63;
  is_smooth : 0 <= c_smooth_value cfg < 2 ^ 63
}.
Lemma supersingular_range cfg : in_supersingular cfg -> in_range (unfiltered cfg).
Proof. intros [F M A B T N C S]. constructor; try assumption. split; [discriminate|discriminate]. Qed.

Lemma supersingular_plan cfg u : in_supersingular cfg -> snd (Plan_Model.cm_init cfg false u) = Plan_Model.mkSetup
  [Some Plan_Model.gen_skip; Some (field_f cfg); Some Plan_Model.gen_skip; Some Plan_Model.supersingular_gen_equation;
   Some Plan_Model.curve_gen_any; Some Plan_Model.supersingular_gen_order; Some (gens_f (unfiltered cfg)); Some (points_f (unfiltered cfg)); Some (meta_f (unfiltered cfg))]
  [None; None; None; None; None; None; None; points_arg (unfiltered cfg); None]
  [None; None; None; None; Some [Plan_Model.curve_check_nonzero]; None; None; hex_cell (unfiltered cfg); None]
  [None; None; None; None; None; None; None; hex_arg (unfiltered cfg); None]
  [Some Plan_Model.unroll_skip; Some Plan_Model.unroll_skip; Some Plan_Model.unroll_skip; Some Plan_Model.unroll_skip;
   Some Plan_Model.curve_unroll; Some Plan_Model.unroll_skip; Some Plan_Model.gens_unroll; Some Plan_Model.points_unroll; None].
Proof.
  intros [F M A B T _ _ _].
  change (gens_f (unfiltered cfg)) with (if c_unique cfg then Plan_Model.gens_gen_one else Plan_Model.gens_gen_any).
  change (points_f (unfiltered cfg)) with (points_f cfg). change (meta_f (unfiltered cfg)) with (meta_f cfg).
  change (points_arg (unfiltered cfg)) with (points_arg cfg). change (hex_cell (unfiltered cfg)) with (hex_cell cfg). change (hex_arg (unfiltered cfg)) with (hex_arg cfg).
  assert (HP : forall g, Plan_Model.points_init cfg g = Plan_Model.put Plan_Model.POINTS (points_f cfg) g).
  { intros g. unfold Plan_Model.points_init, points_f.
    assert (TT : c_points_type cfg = 0 \/ c_points_type cfg = 1 \/ c_points_type cfg = 2 \/ c_points_type cfg = 3 \/ c_points_type cfg = 4) by lia.
    destruct TT as [->|[->|[->|[->| ->]]]]; [reflexivity|reflexivity| |reflexivity|reflexivity].
    destruct (c_points_amount cfg =? 0); reflexivity. }
  unfold Plan_Model.cm_init, Plan_Model.cm_ginit, Plan_Model.cm_ainit, Plan_Model.cm_cinit, Plan_Model.exhaustive_uinit, Plan_Model.hex_args. rewrite HP, A, M. cbv zeta.
  change (METHOD_SUPERSINGULAR =? METHOD_CM) with false. change (METHOD_SUPERSINGULAR =? METHOD_ANOMALOUS) with false.
  change (METHOD_SUPERSINGULAR =? METHOD_SUPERSINGULAR) with true. change (METHOD_SUPERSINGULAR =? METHOD_FAMILY) with false. change (negb (0 =? 0)) with false.
  cbn [orb]. cbn iota. cbn [snd]. unfold meta_f, field_f, points_arg, hex_cell, hex_arg. f_equal.
  - destruct (c_unique cfg), (c_metadata cfg), (Plan_Model.is_random cfg RANDOM_FIELD); reflexivity.
  - destruct (c_points_type cfg =? POINTS_RANDOM); reflexivity.
  - destruct (c_hex_check cfg); reflexivity.
  - destruct (c_hex_check cfg); reflexivity.
Qed.

(** ** The run *)
Section Run.
Variable P : pari.
Variable cfg : config.
Hypothesis PO : pari_ok P (c_bits cfg).
Hypothesis SO : supersingular_ok P (c_bits cfg).
Hypothesis IS : in_supersingular cfg.
Variable hexw hexp dec : Z -> list ascii.
Hypothesis OK : prints hexw hexp dec.
Hypothesis HX : Hex_Props.prints_hex hexw.
Variable junk : nat -> ascii.
Variable draws : Z -> nat -> draw.
Variable tries fuel : nat.
Variable avma : Z.
Notation setup := (snd (Plan_Model.cm_init cfg false [N_method])).
Notation ucfg := (unfiltered cfg).
Definition no_seed_at_all (l : list str) (s : option any_seed) : Prop := l = [] /\ s = None.
Definition supersingular (s : option any_seed) (p a b : Z) : Prop := 0 <= a < p /\ 0 <= b < p /\ points (Prime p) a b = p + 1.
Definition super_front (d : ascii) (l : list str) : Z -> curve -> nat -> Prop :=
  made_front Plan_Model.gen_skip (field_f cfg) Z Prime (field_over (c_bits cfg)) no_seed_at_all (field_chosen cfg d) supersingular l.

Lemma super_equation d dr t c p : k_field c = Some (Prime p) -> field_over (c_bits cfg) p ->
  match generator P ucfg tries d Plan_Model.supersingular_gen_equation None dr t c with
  | Ok (c', r) => (r = 1 /\ exists x y, c' = set_b y (set_a x c) /\ supersingular (k_seed c) p (elem_int x) (elem_int y)) \/ r = Engine_Model.INT_MIN \/ (r = -2 /\ c' = c)
  | UB => False
  | _ => True
  end.
Proof.
  intros K (Pp & Bp). cbn [generator]. rewrite K. cbn [need_prime bind]. pose proof (prime_ge_2 p Pp) as P2. destruct (Z.eq_dec p 2) as [->|O].
  - change (Supersingular_Model.gen_equation (kronecker P) (nextprime P) (class_roots P) tries 2) with (Ok (@None (Z * Z))). cbn [bind]. auto.
  - destruct (Supersingular_Props.C49_order (kronecker P) (nextprime P) (class_roots P) tries p (pc_kronecker _ _ SO) (pc_nextprime _ _ SO)) as [-> |(a & b & -> & A & B & _ & N)];
      [|exact Pp|exact O|exact I|].
    + apply (pc_class _ _ SO). split; [exact Pp|]. lia.
    + cbn [bind]. left. split; [reflexivity|]. exists (Mod a p), (Mod b p). split; [reflexivity|]. split; [exact A|]. split; [exact B|exact N].
Qed.
Lemma super_result d l i fuel' av r w : Input_Props.delimiter d ->
  search P ucfg hexw tries d l (draws i) setup fuel' av = (r, w) ->
  match r with Engine_Model.Returned r => (r = 1 /\ success P ucfg (every (prime_over (c_bits cfg))) hexw (super_front d l 4) w) \/ (r = 0 /\ failed ucfg (Plan_Model.is_random cfg RANDOM_FIELD = true) w)
  | Engine_Model.NoFuel => True | _ => False end.
Proof.
  intros DL. rewrite (supersingular_plan cfg [N_method] IS). pose proof (is_bits _ IS) as Hb.
  apply (made_result (fun _ => True) P ucfg (every (prime_over (c_bits cfg))) (prime_fits ucfg) PO (supersingular_range cfg IS)); [..|exact (fun _ => I)].
  - intros _ l' s (_ & ->). reflexivity.
  - split; [|reflexivity]. unfold field_f. destruct (Plan_Model.is_random cfg RANDOM_FIELD); reflexivity.
  - intros dr t c S. cbn [generator]. left. split; [reflexivity|]. split; [reflexivity|]. exact (S eq_refl).
  - intros dr t c. pose proof (field_stage P cfg PO Hb (is_field _ IS) tries d (fun _ => DL) dr t c) as F.
    change (generator P ucfg tries d (field_f cfg) None dr t c) with (generator P cfg tries d (field_f cfg) None dr t c).
    destruct (generator P cfg tries d (field_f cfg) None dr t c) as [[c' r']| | |]; [exact F|destruct F|exact I|exact I].
  - reflexivity.
  - intros dr t c p ls lp _ K FO _ _. pose proof (super_equation d dr t c p K FO) as F.
    destruct (generator P ucfg tries d Plan_Model.supersingular_gen_equation None dr t c) as [[c' r']| | |]; [destruct F as [F|[F|(-> & F)]]; [left; exact F|right; left; exact F|right; right; split; [lia|exact F]]|destruct F|exact I|exact I].
  - intros l' p RF C. unfold field_chosen in C. rewrite RF in C. destruct C as (_ & C & _).
    assert (4 <= 2 ^ (c_bits cfg - 1)) by (change 4 with (2 ^ 2); apply Z.pow_le_mono_r; lia). change (3 < p). lia.
  - reflexivity.
  - intros l' s p a b FO _ _. split; [exact FO|]. split; exact I.
  - intros dr t c p a b (_ & _ & N) (Kf & _) ns K. cbn [generator]. rewrite Kf, K. cbn [need_prime need bind]. left. split; [reflexivity|].
    rewrite N. split; [reflexivity|]. split; [discriminate|split; discriminate].
  - discriminate.
Qed.
Lemma super_shows d l c : found ucfg hexw (every (prime_over (c_bits cfg))) (fun l => super_front d l 4) l c -> wanted_supersingular cfg hexw d l c.
Proof.
  intros F. destruct (made_shows _ _ _ _ _ _ _ _ _ _ _ _ _ F) as (p & s & Pf & (Pp & Bp) & SE & (A & B & N) & (l0 & ls & l1 & lp & E & _ & (-> & ->) & C) & W).
  exists p. split; [exact Pf|]. split; [exact SE|]. split; [exact Pp|]. split; [exact Bp|]. split; [exists (l0 ++ l1), lp; split; [rewrite E, <- app_assoc; reflexivity|exact C]|].
  split; [exact A|]. split; [exact B|]. split; [rewrite <- N; exact (proj1 (proj2 W))|exact W].
Qed.

(** C77. Full statement: for every field and method. Missing: texts that are no numbers (see C47 and C54); the sizes
    that are printed fit (fitsb). *)
Theorem C77_run_partial ino readable writable reason io seadata fs kbd d input outer i :
  Shell_Spec.separate ino writable io -> Shell_Spec.input_is ino readable io fs kbd d input ->
  Shell_Model.i_append io = false -> Shell_Spec.out_file ino writable io i -> 0 <= c_count cfg < 2 ^ 64 ->
  let '(w, status) := Shell_Model.main ino readable writable (fun _ => None) reason true io seadata
      (exhaustive_do P cfg hexw hexp dec junk draws tries fuel avma d setup outer) (Shell_Model.fresh fs kbd) in
  status = Some 0 ->
  exists text cs, Shell_Model.files w i = Some text /\ Z.of_nat (length cs) = c_count cfg /\ each (wanted_supersingular cfg hexw d) d input cs /\
    (exists v, json text v) /\
    forall v, json text v -> exists ds, v = JArr ds /\ all read_curve ds = Some cs.
Proof.
  intros S I NA O B.
  assert (DL : Input_Props.delimiter d) by (unfold Shell_Spec.input_is in I; unfold Input_Props.delimiter; destruct (Shell_Model.i_input io); destruct I as (-> & _); auto).
  pose proof (run_file P ucfg hexw hexp dec OK HX junk draws tries fuel avma d setup (every (prime_over (c_bits cfg))) (fun l => super_front d l 4) _
    (fun l i fuel av r w => super_result d l i fuel av r w DL) ino readable writable reason io seadata fs kbd d input outer i S I NA O B) as H.
  change (exhaustive_do P ucfg) with (exhaustive_do P cfg) in H.
  destruct (Shell_Model.main _ _ _ _ _ true io seadata _ (Shell_Model.fresh fs kbd)) as (w, status). intros E.
  destruct (H E) as (text & cs & F & N & EA & J). exists text, cs. split; [exact F|]. split; [exact N|]. split; [|exact J].
  apply (each_impl (found ucfg hexw (every (prime_over (c_bits cfg))) (fun l => super_front d l 4))) with (2 := EA). intros l c. apply super_shows.
Qed.
(** A search leaves no undefined behaviour behind when the field is random and nothing filters the digits. *)
Theorem C77_defined_partial d l i r w : Input_Props.delimiter d -> c_hex_check cfg = None -> Plan_Model.is_random cfg RANDOM_FIELD = true ->
  search P cfg hexw tries d l (draws i) setup fuel avma = (r, w) ->
  match r with
  | Engine_Model.Returned 1 => w_wrong w = None /\ exists c, to_output (w_curve w) = Ok c
  | Engine_Model.Returned 0 => w_wrong w <> Some Undefined
  | Engine_Model.NoFuel => True
  | _ => False
  end.
Proof.
  intros DL NH RF S. exact (search_defined P ucfg hexw draws tries fuel avma d setup (every (prime_over (c_bits cfg))) (fun l => super_front d l 4) _
    (fun l i fuel av r w => super_result d l i fuel av r w DL) l i r w (conj NH (or_intror eq_refl)) RF S).
Qed.
End Run.
Print Assumptions C77_run_partial.
Print Assumptions C77_defined_partial.
