(** C82: a whole run of the method for anomalous curves. *)
From Coq Require Import Ascii String Znumtheory.
From Verif Require Import Base Fp Ec Poly_Model Points_Model Random_Props Cli_Model Json_Spec CurveText_Spec.
From Verif Require Import Whole_Model Whole_Spec Whole_Stages Whole_Proofs Whole_Front Whole_Run Whole_Default Whole_Made Shell_Fields.
From Verif Require Plan_Model Engine_Model Shell_Model Shell_Spec Hex_Props Input_Props Anomalous_Model Anomalous_Props Supersingular_Props.
Local Open Scope Z_scope.
Local Open Scope list_scope.

(** ** The plan *)
Record in_anomalous (cfg : config) : Prop := {
  io_field : c_field cfg = FIELD_PRIME;
  io_method : c_method cfg = METHOD_ANOMALOUS;
  io_algo : c_seed_algo cfg = 0;
  io_bits : 6 <= c_bits cfg < 2 ^ 61;
  io_type : 0 <= c_points_type cfg <= 4;
  io_amount : 0 <= c_points_amount cfg < 2 ^ 64;
  io_cofactor : - 2 ^ 63 <= c_cofactor_value cfg < 2 ^ 63;
  io_smooth : 0 <= c_smooth_value cfg < 2 ^ 63
}.
Lemma anomalous_range cfg : in_anomalous cfg -> in_range (unfiltered cfg).
Proof. intros [F M A B T N C S]. constructor; try assumption; [change (3 <= c_bits cfg < 2 ^ 61); lia|split; [discriminate|discriminate]]. Qed.

Lemma anomalous_plan cfg u : in_anomalous cfg -> snd (Plan_Model.cm_init cfg false u) = Plan_Model.mkSetup
  [Some Plan_Model.gen_skip; Some Plan_Model.anomalous_gen_field; Some Plan_Model.gen_skip; Some Plan_Model.anomalous_gen_equation;
   Some Plan_Model.curve_gen_any; Some Plan_Model.anomalous_gen_order; Some (gens_f (unfiltered cfg)); Some (points_f (unfiltered cfg)); Some (meta_f (unfiltered cfg))]
  [None; Some (Plan_Model.Discr 3); None; Some (Plan_Model.Discr 3); None; None; None; points_arg (unfiltered cfg); None]
  [None; None; None; None; Some [Plan_Model.curve_check_nonzero]; None; None; hex_cell (unfiltered cfg); None]
  [None; None; None; None; None; None; None; hex_arg (unfiltered cfg); None]
  [Some Plan_Model.unroll_skip; Some Plan_Model.unroll_skip; Some Plan_Model.unroll_skip; Some Plan_Model.unroll_skip;
   Some Plan_Model.curve_unroll; Some Plan_Model.unroll_skip; Some Plan_Model.gens_unroll; Some Plan_Model.points_unroll; None].
Proof.
  intros [F M A B T _ _ _].
  change (gens_f (unfiltered cfg)) with (if c_unique cfg then Plan_Model.gens_gen_one else Plan_Model.gens_gen_any).
  change (points_f (unfiltered cfg)) with (points_f cfg). change (meta_f (unfiltered cfg)) with (meta_f cfg).
  change (points_arg (unfiltered cfg)) with (points_arg cfg). change (hex_cell (unfiltered cfg)) with (hex_cell cfg). change (hex_arg (unfiltered cfg)) with (hex_arg cfg).
  assert (HP : forall g, Plan_Model.points_init cfg g = Plan_Model.put Plan_Model.POINTS (points_f cfg) g).
  { intros g. unfold Plan_Model.points_init, points_f.
    assert (TT : c_points_type cfg = 0 \/ c_points_type cfg = 1 \/ c_points_type cfg = 2 \/ c_points_type cfg = 3 \/ c_points_type cfg = 4) by lia.
    destruct TT as [->|[->|[->|[->| ->]]]]; [reflexivity|reflexivity| |reflexivity|reflexivity].
    destruct (c_points_amount cfg =? 0); reflexivity. }
  unfold Plan_Model.cm_init, Plan_Model.cm_ginit, Plan_Model.cm_ainit, Plan_Model.cm_cinit, Plan_Model.exhaustive_uinit, Plan_Model.hex_args. rewrite HP, A, M. cbv zeta.
  change (METHOD_ANOMALOUS =? METHOD_CM) with false. change (METHOD_ANOMALOUS =? METHOD_ANOMALOUS) with true.
  change (METHOD_ANOMALOUS =? METHOD_FAMILY) with false. change (negb (0 =? 0)) with false.
  cbn [orb]. cbn iota. cbn [snd]. unfold meta_f, points_arg, hex_cell, hex_arg. f_equal.
  - destruct (c_unique cfg), (c_metadata cfg); reflexivity.
  - destruct (c_points_type cfg =? POINTS_RANDOM); reflexivity.
  - destruct (c_hex_check cfg); reflexivity.
  - destruct (c_hex_check cfg); reflexivity.
Qed.

(** the search for the prime has no error *)
Lemma gen_field_defined isprime kronecker fuel bits : 6 <= bits -> forall tape,
  Anomalous_Model.gen_field isprime kronecker fuel Anomalous_Model.used bits tape <> UB.
Proof.
  intros B. induction fuel as [|f IH]; intros tape; cbn [Anomalous_Model.gen_field]; [discriminate|].
  pose proof (Anomalous_Props.C48_choice isprime bits tape B) as (_ & N). destruct (Anomalous_Model.anomalous_prime isprime Anomalous_Model.used bits tape) as [[p r]| | |]; cbn [bind]; try discriminate; [|congruence].
  change (Anomalous_Model.entry 0) with (Ok (Anomalous_Model.Build_disc 11 ((-32) ^ 3) 21)). cbn [bind Anomalous_Model.disc_alpha]. destruct (kronecker 21 p =? 0); [apply IH|discriminate].
Qed.

(** ** The run *)
Section Run.
Variable P : pari.
Variable cfg : config.
Hypothesis AO : anomalous_ok P (c_bits cfg).
Hypothesis AT : anomalous_true (c_bits cfg).
Hypothesis IA : in_anomalous cfg.
Variable hexw hexp dec : Z -> list ascii.
Hypothesis OK : prints hexw hexp dec.
Hypothesis HX : Hex_Props.prints_hex hexw.
Variable junk : nat -> ascii.
Variable draws : Z -> nat -> draw.
Variable tries fuel : nat.
Variable avma : Z.
Notation setup := (snd (Plan_Model.cm_init cfg false [N_method])).
Notation ucfg := (unfiltered cfg).
Definition no_seed_here (l : list str) (s : option any_seed) : Prop := l = [] /\ s = None.
Definition anomalous_pick (l : list str) (p : Z) : Prop := anomalous_field p /\ (~ short_sizes (c_bits cfg) -> has_bits p (c_bits cfg)).
Definition anomalous_made (s : option any_seed) (p a b : Z) : Prop := 0 <= a < p /\ 0 <= b < p /\ cm_163 p a b.
Definition anomalous_front (l : list str) : Z -> curve -> nat -> Prop :=
  made_front Plan_Model.gen_skip Plan_Model.anomalous_gen_field Z Prime (field_over (c_bits cfg)) no_seed_here anomalous_pick anomalous_made l.

Lemma anomalous_fits f a b : anomalous_on (c_bits cfg) f a b -> field_fits ucfg f.
Proof. destruct f as [p|]; [|intros []]. intros ((Pp & _) & B & _). split; [discriminate|exact Pp]. Qed.
Lemma isprime_here : Anomalous_Props.isprime_ok (isprime P).
Proof. intros q. apply (pc_isprime _ _ (pc_anomalous _ _ AO)). Qed.
Lemma anomalous_field_stage d dr t c :
  match generator P ucfg tries d Plan_Model.anomalous_gen_field (Some (Plan_Model.Discr 3)) dr t c with
  | Ok (c', r) => r = 1 /\ exists p, c' = set_field (Prime p) c /\ field_over (c_bits cfg) p /\ anomalous_pick (text_of Plan_Model.anomalous_gen_field t) p
  | UB => False
  | _ => True
  end.
Proof.
  pose proof (io_bits _ IA) as B. cbn [generator index bind]. change (c_bits ucfg) with (c_bits cfg). change (Z.to_nat 3) with Anomalous_Model.used.
  pose proof (gen_field_defined (isprime P) (kronecker P) tries (c_bits cfg) ltac:(lia) (tape tries dr)) as N.
  destruct (Anomalous_Model.gen_field (isprime P) (kronecker P) tries Anomalous_Model.used (c_bits cfg) (tape tries dr)) as [[p r]| | |] eqn:G; cbn [bind fst]; try exact I; [|congruence].
  split; [reflexivity|]. exists p. split; [reflexivity|].
  assert (B6 : 6 <= c_bits cfg) by lia. pose proof (Anomalous_Props.field_near _ _ _ _ _ _ _ isprime_here B6 G) as (L & F). pose proof (proj1 (Anomalous_Props.C48_form _ _ _ _ _ _ _ isprime_here G)) as Pp.
  split; [split; [exact Pp|lia]|]. split; [split; [exact Pp|exact F]|]. intros NS. exact (Anomalous_Props.C48_size_partial _ _ _ _ _ _ _ isprime_here B6 NS G).
Qed.
Lemma anomalous_equation d dr t c p : k_field c = Some (Prime p) -> anomalous_field p ->
  match generator P ucfg tries d Plan_Model.anomalous_gen_equation (Some (Plan_Model.Discr 3)) dr t c with
  | Ok (c', r) => r = 1 /\ exists x y, c' = set_b y (set_a x c) /\ anomalous_made (k_seed c) p (elem_int x) (elem_int y)
  | UB => False
  | _ => True
  end.
Proof.
  intros K (Pp & m & M & E). cbn [generator index bind]. rewrite K. cbn [need_prime bind]. change (Z.to_nat 3) with Anomalous_Model.used.
  assert (F : Anomalous_Props.of_form p) by (unfold Anomalous_Props.of_form; rewrite E; now apply Anomalous_Props.form_large).
  destruct (Anomalous_Props.equation_facts (kronecker P) p (tape tries dr) (pc_symbol _ _ AO) Pp F) as [-> |(a & b & r & -> & A & B & N & J & R)]; cbn [bind]; [exact I|].
  split; [reflexivity|]. exists (Mod a p), (Mod b p). split; [reflexivity|]. split; [exact A|]. split; [exact B|]. split; [|split; [exact J|exact R]].
  cbn [elem_int]. change (Ec_Fp.nonsingular p a b). unfold Ec_Fp.nonsingular. intros D. apply N. apply Z.mod_divide; [pose proof (prime_ge_2 p Pp); lia|exact D].
Qed.
Lemma anomalous_result d l i fuel' av r w :
  search P ucfg hexw tries d l (draws i) setup fuel' av = (r, w) ->
  match r with Engine_Model.Returned r => (r = 1 /\ success P ucfg (anomalous_on (c_bits cfg)) hexw (anomalous_front l 4) w) \/ (r = 0 /\ failed ucfg True w)
  | Engine_Model.NoFuel => True | _ => False end.
Proof.
  rewrite (anomalous_plan cfg [N_method] IA).
  apply (made_result (fun _ => True) P ucfg (anomalous_on (c_bits cfg)) anomalous_fits (pc_anomalous _ _ AO) (anomalous_range cfg IA)); [..|exact (fun _ => I)].
  - intros _ l' s (_ & ->). reflexivity.
  - split; reflexivity.
  - intros dr t c S. cbn [generator]. left. split; [reflexivity|]. split; [reflexivity|]. exact (S eq_refl).
  - intros dr t c. pose proof (anomalous_field_stage d dr t c) as F.
    destruct (generator P ucfg tries d Plan_Model.anomalous_gen_field (Some (Plan_Model.Discr 3)) dr t c) as [[c' r']| | |]; [left; exact F|destruct F|exact I|exact I].
  - reflexivity.
  - intros dr t c p ls lp _ K _ _ (AF & _). pose proof (anomalous_equation d dr t c p K AF) as F.
    destruct (generator P ucfg tries d Plan_Model.anomalous_gen_equation (Some (Plan_Model.Discr 3)) dr t c) as [[c' r']| | |]; [left; exact F|destruct F|exact I|exact I].
  - intros l' p _ ((_ & m & M & ->) & _). match goal with |- large (Prime ?q) => change (3 < q) end. nia.
  - reflexivity.
  - intros l' s p a b (_ & B) (AF & _) (A' & B' & C). split; [|split; exact I]. split; [exact AF|]. split; [exact B|]. auto.
  - intros dr t c p a b _ (Kf & (AF & B & A' & B' & C) & _) ns K. pose proof (AT p a b AF B A' B' C) as N. cbn [generator]. rewrite Kf, K. cbn [need_prime need bind]. left. split; [reflexivity|].
    rewrite N. split; [reflexivity|]. split; [discriminate|split; discriminate].
  - discriminate.
Qed.
Lemma anomalous_shows l c : found ucfg hexw (anomalous_on (c_bits cfg)) (fun l => anomalous_front l 4) l c -> wanted_anomalous cfg hexw c.
Proof.
  intros F. destruct (made_shows _ _ _ _ _ _ _ _ _ _ _ _ _ F) as (p & s & Pf & (Pp & Bp) & SE & (A & B & N) & (l0 & ls & l1 & lp & E & _ & (-> & ->) & (AF & SZ)) & W).
  exists p. split; [exact Pf|]. split; [exact SE|]. split; [exact AF|]. split; [exact Bp|]. split; [exact SZ|]. split; [exact A|]. split; [exact B|]. split; [exact N|].
  split; [|exact W]. rewrite <- (AT p _ _ AF Bp A B N). exact (proj1 (proj2 W)).
Qed.

(** C82. Full statement: for every size. Missing: that the curves made have as many points as the field has elements
    (anomalous_true, Miyaji's theorem, is assumed); sizes below 6 bits, for which the field is larger than asked for (C48);
    the sizes that are printed fit (fitsb). *)
Theorem C82_run_partial ino readable writable reason io seadata fs kbd d input outer i :
  Shell_Spec.separate ino writable io -> Shell_Spec.input_is ino readable io fs kbd d input ->
  Shell_Model.i_append io = false -> Shell_Spec.out_file ino writable io i -> 0 <= c_count cfg < 2 ^ 64 ->
  let '(w, status) := Shell_Model.main ino readable writable (fun _ => None) reason true io seadata
      (exhaustive_do P cfg hexw hexp dec junk draws tries fuel avma d setup outer) (Shell_Model.fresh fs kbd) in
  status = Some 0 ->
  exists text cs, Shell_Model.files w i = Some text /\ Z.of_nat (length cs) = c_count cfg /\ Forall (wanted_anomalous cfg hexw) cs /\
    (exists v, json text v) /\
    forall v, json text v -> exists ds, v = JArr ds /\ all read_curve ds = Some cs.
Proof.
  intros S I NA O B.
  pose proof (run_file P ucfg hexw hexp dec OK HX junk draws tries fuel avma d setup (anomalous_on (c_bits cfg)) (fun l => anomalous_front l 4) _
    (fun l i fuel av r w => anomalous_result d l i fuel av r w) ino readable writable reason io seadata fs kbd d input outer i S I NA O B) as H.
  change (exhaustive_do P ucfg) with (exhaustive_do P cfg) in H.
  destruct (Shell_Model.main _ _ _ _ _ true io seadata _ (Shell_Model.fresh fs kbd)) as (w, status). intros E.
  destruct (H E) as (text & cs & F & N & EA & J). exists text, cs. split; [exact F|]. split; [exact N|]. split; [|exact J].
  apply (each_all (found ucfg hexw (anomalous_on (c_bits cfg)) (fun l => anomalous_front l 4))) with (2 := EA). exact anomalous_shows.
Qed.
(** A search leaves no undefined behaviour behind when nothing filters the digits. *)
Theorem C82_defined d l i r w : c_hex_check cfg = None ->
  search P cfg hexw tries d l (draws i) setup fuel avma = (r, w) ->
  match r with
  | Engine_Model.Returned 1 => w_wrong w = None /\ exists c, to_output (w_curve w) = Ok c
  | Engine_Model.Returned 0 => w_wrong w <> Some Undefined
  | Engine_Model.NoFuel => True
  | _ => False
  end.
Proof.
  intros NH S. exact (search_defined P ucfg hexw draws tries fuel avma d setup (anomalous_on (c_bits cfg)) (fun l => anomalous_front l 4) _
    (fun l i fuel av r w => anomalous_result d l i fuel av r w) l i r w (conj NH (or_intror eq_refl)) Logic.I S).
Qed.
End Run.
Print Assumptions C82_run_partial.
Print Assumptions C82_defined.
