(** C88: a whole run of the CM method with a prime order. *)
From Coq Require Import Ascii String Znumtheory.
From Verif Require Import Base Fp Ec Poly_Model Points_Model Cli_Model Json_Spec CurveText_Spec.
From Verif Require Import Whole_Model Whole_Spec Whole_OrderSpec Whole_Group Whole_Stages Whole_Proofs Whole_Front Whole_Run Whole_Default Shell_Fields.
From Verif Require Plan_Model Engine_Model Shell_Model Shell_Spec Hex_Props Input_Props CmPrime_Model CmPrime_Props CmAny_Model CmAny_Props CmGen_Model CmGen_Props Whole_Example.
Local Open Scope Z_scope.
Local Open Scope list_scope.

(** ** The plan *)
(** --order=s with one number N, which is prime (what C53 says of the text); --points is anything
    but random: the amount that random takes stays in the plan, though nothing looks at it *)
Record in_order (cfg : config) (s : str) (N : Z) : Prop := {
  io_method : c_method cfg = METHOD_CM;
  io_algo : c_seed_algo cfg = 0;
  io_order : c_cm_order cfg = Some s;
  io_number : Input_Props.magnitude s N;
  io_prime : prime N;
  io_large : 21 < N;
  io_three : N mod 3 = 2;
  io_type : c_points_type cfg = 0 \/ c_points_type cfg = 1 \/ c_points_type cfg = 3 \/ c_points_type cfg = 4;
  io_amount : 0 <= c_points_amount cfg < 2 ^ 64;
  io_smooth : 0 <= c_smooth_value cfg < 2 ^ 63
}.
Lemma order_tail cfg s N : in_order cfg s N -> in_tail (order_cfg cfg).
Proof.
  intros I. constructor; try discriminate; [split; discriminate|vm_compute; split; discriminate|exact (io_amount _ _ _ I)|exact (io_smooth _ _ _ I)].
Qed.

Lemma order_plan cfg s N u : in_order cfg s N -> snd (Plan_Model.cm_init cfg true u) = Plan_Model.mkSetup
  [Some Plan_Model.gen_skip; Some Plan_Model.gen_skip; Some Plan_Model.gen_skip; Some Plan_Model.gen_skip;
   Some Plan_Model.cm_gen_curve_prime; Some Plan_Model.cm_gen_order; Some (gens_f (order_cfg cfg)); Some (points_f (order_cfg cfg)); Some (meta_f (order_cfg cfg))]
  [None; None; None; None; Some (Plan_Model.Order (Some s)); Some (Plan_Model.Order (Some s)); None; points_arg (order_cfg cfg); None]
  [None; None; None; None; Some [Plan_Model.curve_check_nonzero]; None; None; hex_cell (order_cfg cfg); None]
  [None; None; None; None; None; None; None; hex_arg (order_cfg cfg); None]
  [Some Plan_Model.unroll_skip; Some Plan_Model.unroll_skip; Some Plan_Model.unroll_skip; Some Plan_Model.unroll_skip;
   Some Plan_Model.curve_unroll; Some Plan_Model.unroll_skip; Some Plan_Model.gens_unroll; Some Plan_Model.points_unroll; None].
Proof.
  intros [M A O _ _ _ _ T _ _].
  change (gens_f (order_cfg cfg)) with (if c_unique cfg then Plan_Model.gens_gen_one else Plan_Model.gens_gen_any).
  change (points_f (order_cfg cfg)) with Plan_Model.points_gen_prime. change (meta_f (order_cfg cfg)) with (meta_f cfg).
  change (points_arg (order_cfg cfg)) with (@None Plan_Model.arg_t). change (hex_cell (order_cfg cfg)) with (hex_cell cfg). change (hex_arg (order_cfg cfg)) with (hex_arg cfg).
  assert (HP : exists f, forall g, Plan_Model.points_init cfg g = Plan_Model.put Plan_Model.POINTS f g).
  { unfold Plan_Model.points_init. destruct T as [->|[->|[->| ->]]]; eexists; intros g; reflexivity. }
  destruct HP as (f & HP).
  assert (TR : (c_points_type cfg =? POINTS_RANDOM) = false) by (destruct T as [->|[->|[->| ->]]]; reflexivity).
  unfold Plan_Model.cm_init, Plan_Model.cm_ginit, Plan_Model.cm_ainit, Plan_Model.cm_cinit, Plan_Model.exhaustive_uinit, Plan_Model.hex_args. rewrite HP, A, M, O, TR. cbv zeta.
  change (METHOD_CM =? METHOD_CM) with true. change (METHOD_CM =? METHOD_ANOMALOUS) with false. change (METHOD_CM =? METHOD_FAMILY) with false. change (negb (0 =? 0)) with false.
  cbn [orb]. cbn iota. cbn [snd]. unfold meta_f, hex_cell, hex_arg. f_equal.
  - destruct (c_unique cfg), (c_metadata cfg); reflexivity.
  - destruct (c_hex_check cfg); reflexivity.
  - destruct (c_hex_check cfg); reflexivity.
Qed.

(** ** The curve *)
Section Run.
Variable P : pari.
Variable cfg : config.
Variable s : str.
Variable N : Z.
Hypothesis CO : cm_ok P N.
Hypothesis IO : in_order cfg s N.
Notation ucfg := (order_cfg cfg).
Notation curve_of := (cm_curve P).
Notation twist_of := (cm_twist P).
Notation roots := (fun D => class_roots P (- D)).
Definition card_of (e : Z * Z * Z) : Z := let '(p, a, b) := e in points (Prime p) a b.
Definition order_of (e : Z * Z * Z) (Q : pt) : Z := let '(p, a, b) := e in Whole_Example.x_order (Prime p) a b Q.

Lemma divides_points p a b Q n : curve_ok p a b -> ec_on p a b Q = true -> has_order p a Q n -> (n | points p a b).
Proof.
  intros ns H (_ & T). apply T. change Q with (xy p a b (exist _ Q H)). rewrite (ec_mul_xy p a b ns), (points_lagrange p a b ns). reflexivity.
Qed.
Lemma cm_holds : CmGen_Props.cm_true (Z * Z * Z) pt roots curve_of twist_of (cm_point P) (cm_inf P) card_of order_of N.
Proof.
  intros D p RD ND. split.
  - intros root e I E. unfold cm_curve in E. destruct (ellfromj P root p) as [(a & b)|] eqn:J; [|discriminate E].
    assert (e = (p, a, b)) by congruence. subst e. cbn [card_of cm_twist].
    destruct (pc_root _ _ CO D p root a b RD ND I J) as (_ & _ & _ & _ & C & _ & _ & T). destruct (elltwist P p a b) as (a' & b'). split; [exact C|apply T].
  - intros root e r I E. unfold cm_curve in E. destruct (ellfromj P root p) as [(a & b)|] eqn:J; [|discriminate E].
    assert (e = (p, a, b)) by congruence. subst e. cbn [card_of order_of cm_point cm_inf]. cbv zeta.
    destruct (pc_root _ _ CO D p root a b RD ND I J) as (ns & _ & _ & _ & _ & R & M & _). destruct (R r) as (On & Inf).
    set (Q := ellrandom P p a b r) in *. pose proof (Whole_Example.x_order_ok (Prime p) a b Q ns On) as O. split; [|split].
    + destruct O as (O1 & O2). assert (Whole_Example.x_order (Prime p) a b Q <> 1); [|lia]. intros E1. apply Inf.
      change Q with (ec_mul (Prime p) a Q 1) at 1. apply O2. rewrite E1. apply Z.divide_refl.
    + exact (divides_points _ _ _ _ _ ns On O).
    + intros k. rewrite M by exact On. destruct O as (_ & O2). rewrite <- O2. destruct (ec_mul (Prime p) a Q k); split; congruence.
Qed.

(** the curve that is made is that of a root or its twist *)
Lemma constructed fuel rnd p e : forall rs,
  CmAny_Model.try_roots (Z * Z * Z) pt curve_of twist_of (cm_point P) (cm_inf P) fuel rnd N p true rs = Ok (Some e) ->
  exists root a b, In root rs /\ ellfromj P root p = Some (a, b) /\ (e = (p, a, b) \/ e = twist_of (p, a, b)).
Proof.
  induction rs as [|root rs IH]; intros H; cbn [CmAny_Model.try_roots] in H; [discriminate|]. unfold cm_curve in H at 1.
  destruct (ellfromj P root p) as [(a & b)|] eqn:J.
  - exists root, a, b. split; [left; reflexivity|]. split; [exact J|]. destruct (cm_inf P _ _ N); [left|right]; congruence.
  - destruct (IH H) as (root' & a & b & I & X). exists root', a, b. split; [right; exact I|exact X].
Qed.
Lemma looped fuel rnd p e : forall rounds q, 0 <= CmPrime_Model.q_i q ->
  CmGen_Model.curve_loop (forprime P) (kronecker P) (cornacchia2 P) (isprime P) (glog P) (Z * Z * Z) pt roots curve_of twist_of (cm_point P) (cm_inf P) rounds fuel rnd N q = Ok (p, e) ->
  13 < p /\ exists a b, e = (p, a, b) /\ cm_on P N (Prime p) a b /\ ellinit P (Prime p) a b = true.
Proof.
  assert (HP : forall n, isprime P n = true -> prime n) by (intros n; apply (pc_isprime _ _ (pc_cm _ _ CO))).
  induction rounds as [|rounds IH]; intros q Hq H; cbn [CmGen_Model.curve_loop] in H; [discriminate|].
  destruct (CmPrime_Model.qdisc_next (forprime P) (kronecker P) (cornacchia2 P) (isprime P) (glog P N) N fuel q) as [(((D & p') & t) & q')| | |] eqn:Q; cbn [bind] in H; try discriminate H.
  destruct (CmPrime_Props.C50_sound _ _ _ _ _ _ (pc_cornacchia _ _ CO) HP _ _ _ _ _ _ Hq Q) as (RD & Hq' & _).
  destruct (CmAny_Model.cm_construct_curve _ _ _ _ _ _ _ fuel (rnd rounds) N D p' true) as [[e'|]| | |] eqn:C; cbn [bind] in H; try discriminate H.
  - assert (p' = p /\ e' = e) as (-> & ->) by (split; congruence). clear H.
    pose proof (CmGen_Props.not_three N D p RD (io_three _ _ _ IO)) as ND. destruct (cm_holds D p RD ND) as (RO & PO).
    pose proof RD as (Pp & Dn & _ & y & E).
    assert (T : (p + 1 - N) * (p + 1 - N) <= 4 * p) by (assert (0 <= y * y) by nia; nia).
    assert (L : 13 < p) by (apply (CmGen_Props.large_field N p (io_large _ _ _ IO)); [pose proof (prime_ge_2 p Pp); lia|exact T]).
    pose proof (CmAny_Props.prime_order_on _ _ _ _ _ _ _ card_of order_of fuel (rnd rounds) N D p e PO RO (io_prime _ _ _ IO) L T C) as K.
    split; [exact L|]. unfold CmAny_Model.cm_construct_curve in C. destruct (constructed fuel (rnd rounds) p e _ C) as (root & a & b & I & J & X).
    destruct (pc_root _ _ CO D p root a b RD ND I J) as (_ & A & B & EI & _ & _ & _ & TW). destruct X as [->|X].
    + exists a, b. split; [reflexivity|]. split; [|exact EI]. split; [exact K|]. exists D, root, a, b. repeat (split; [assumption|]). left. reflexivity.
    + cbn [cm_twist] in X. destruct (elltwist P p a b) as (a' & b') eqn:ET. subst e. destruct TW as (A' & B' & E' & _). exists a', b'.
      split; [reflexivity|]. split; [|exact E']. split; [exact K|]. exists D, root, a, b. rewrite ET. repeat (split; [assumption|]). right. reflexivity.
  - exact (IH q' Hq' H).
Qed.

(** no undefined behaviour *)
Lemma search_defined_q logN n : forall fuel rlog2 q, 0 <= CmPrime_Model.q_i q ->
  CmPrime_Model.search (forprime P) (kronecker P) (cornacchia2 P) (isprime P) logN n fuel rlog2 q <> UB.
Proof.
  induction fuel as [|fuel IH]; intros rlog2 q Hq; cbn [CmPrime_Model.search]; [discriminate|].
  destruct (Z.ltb_spec (CmPrime_Model.q_i q) (CmPrime_Model.imax (CmPrime_Model.q_Sp q))) as [L|L].
  - destruct (CmPrime_Props.pprod_ok _ _ (conj Hq L)) as (m & _ & _ & ->). cbn [bind].
    destruct (CmPrime_Model.candidate _ _ _ _ _); [discriminate|]. apply IH. cbn. lia.
  - rewrite CmPrime_Props.add_primes_ok. destruct (_ ++ _); cbn [bind]; [discriminate|]. apply IH. exact Hq.
Qed.
Lemma next_defined logN n fuel q : 0 <= CmPrime_Model.q_i q ->
  CmPrime_Model.qdisc_next (forprime P) (kronecker P) (cornacchia2 P) (isprime P) logN n fuel q <> UB.
Proof.
  intros Hq. unfold CmPrime_Model.qdisc_next. destruct (_ || _); [|apply search_defined_q; exact Hq].
  rewrite CmPrime_Props.add_primes_ok. destruct (_ ++ _); cbn [bind]; [discriminate|]. apply search_defined_q. exact Hq.
Qed.
Lemma roots_defined fuel rnd p : forall rs,
  CmAny_Model.try_roots (Z * Z * Z) pt curve_of twist_of (cm_point P) (cm_inf P) fuel rnd N p true rs <> UB.
Proof.
  induction rs as [|root rs IH]; cbn [CmAny_Model.try_roots]; [discriminate|]. destruct (curve_of root p); [|exact IH].
  destruct (cm_inf P _ _ N); discriminate.
Qed.
Lemma loop_defined fuel rnd : forall rounds q, 0 <= CmPrime_Model.q_i q ->
  CmGen_Model.curve_loop (forprime P) (kronecker P) (cornacchia2 P) (isprime P) (glog P) (Z * Z * Z) pt roots curve_of twist_of (cm_point P) (cm_inf P) rounds fuel rnd N q <> UB.
Proof.
  assert (HP : forall n, isprime P n = true -> prime n) by (intros n; apply (pc_isprime _ _ (pc_cm _ _ CO))).
  induction rounds as [|rounds IH]; intros q Hq; cbn [CmGen_Model.curve_loop]; [discriminate|].
  destruct (CmPrime_Model.qdisc_next (forprime P) (kronecker P) (cornacchia2 P) (isprime P) (glog P N) N fuel q) as [(((D & p') & t) & q')| | |] eqn:Q; cbn [bind]; try discriminate.
  - destruct (CmPrime_Props.C50_sound _ _ _ _ _ _ (pc_cornacchia _ _ CO) HP _ _ _ _ _ _ Hq Q) as (_ & Hq' & _).
    pose proof (roots_defined fuel (rnd rounds) p' (class_roots P (- D) p')) as RD. unfold CmAny_Model.cm_construct_curve.
    destruct (CmAny_Model.try_roots _ _ _ _ _ _ fuel (rnd rounds) N p' true _) as [[e'|]| | |]; cbn [bind]; try discriminate; [apply IH; exact Hq'|contradiction].
  - exact (False_ind _ (next_defined _ _ _ _ Hq Q)).
Qed.

(** ** The run *)
Variable hexw hexp dec : Z -> list ascii.
Hypothesis OK : prints hexw hexp dec.
Hypothesis HX : Hex_Props.prints_hex hexw.
Variable junk : nat -> ascii.
Variable draws : Z -> nat -> draw.
Variable tries fuel : nat.
Variable avma : Z.
Notation setup := (snd (Plan_Model.cm_init cfg true [N_method])).
(** there is no seed; nothing is read *)
Definition unseeded (c : curve) (pos : nat) : Prop := k_seed c = None.
Definition made (c : curve) (pos : nat) : Prop := k_seed c = None /\ forall f, k_field c = Some f -> large f.

Lemma order_fits f a b : cm_on P N f a b -> field_fits ucfg f.
Proof. destruct f as [p|]; [|intros []]. intros (_ & D & root & a0 & b0 & (Pp & _) & _). split; [discriminate|exact Pp]. Qed.
Lemma order_residues p a b : cm_on P N (Prime p) a b -> prime p /\ 0 <= a < p /\ 0 <= b < p.
Proof.
  intros (_ & D & root & a0 & b0 & RD & ND & I & J & E). split; [exact (proj1 RD)|].
  destruct (pc_root _ _ CO D p root a0 b0 RD ND I J) as (_ & A & B & _ & _ & _ & _ & T). destruct E as [E|E].
  - assert (a = a0 /\ b = b0) as (-> & ->) by (split; congruence). auto.
  - rewrite <- E in T. split; [apply T|apply T].
Qed.
Lemma curve_stage d dr t c pos : unseeded c pos ->
  match generator P ucfg tries d Plan_Model.cm_gen_curve_prime (Some (Plan_Model.Order (Some s))) dr t c with
  | Ok (c', r) => r = 1 /\ made c' pos /\ exists p a b, values (cm_on P N) c' p a b /\ k_curve c' = Some (p, a, b) /\ ellinit P p a b = true
  | UB => False
  | _ => True
  end.
Proof.
  intros U. cbn [generator order_text bind]. unfold CmGen_Model.cm_gen_curve_prime. rewrite (CmGen_Props.stored s N (io_number _ _ _ IO)).
  assert (Q0 : 0 <= CmPrime_Model.q_i CmPrime_Model.qdisc_init) by (cbn; lia).
  pose proof (loop_defined tries (d_grid dr) tries CmPrime_Model.qdisc_init Q0) as DF.
  destruct (CmGen_Model.curve_loop _ _ _ _ _ _ _ _ _ _ _ _ tries tries (d_grid dr) N CmPrime_Model.qdisc_init) as [(p & e)| | |] eqn:L; cbn [bind]; try exact Logic.I; [|exact (DF eq_refl)].
  destruct (looped tries (d_grid dr) p e tries CmPrime_Model.qdisc_init Q0 L) as (LP & a & b & -> & On & EI). cbn [put_cm].
  split; [reflexivity|]. split.
  { split; [exact U|]. intros f K. change (k_field _) with (Some (Prime p)) in K. assert (f = Prime p) by congruence. subst f. cbn [large]. lia. }
  exists (Prime p), a, b. split; [|split; [reflexivity|exact EI]].
  split; [reflexivity|]. split; [exact On|]. split; [split; exact Logic.I|]. exists (Mod a p), (Mod b p). auto.
Qed.
Lemma order_result d l i fuel' av r w :
  search P ucfg hexw tries d l (draws i) setup fuel' av = (r, w) ->
  match r with Engine_Model.Returned r => (r = 1 /\ success P ucfg (cm_on P N) hexw made w) \/ (r = 0 /\ failed ucfg True w)
  | Engine_Model.NoFuel => True | _ => False end.
Proof.
  rewrite (order_plan cfg s N [N_method] IO). pose proof (pc_cm _ _ CO) as PO.
  refine (search_by P ucfg (cm_on P N) order_fits PO (order_tail _ _ _ IO) hexw tries d l (draws i)
    Plan_Model.gen_skip Plan_Model.gen_skip Plan_Model.gen_skip Plan_Model.gen_skip Plan_Model.cm_gen_curve_prime Plan_Model.cm_gen_order (gens_f ucfg)
    None None None None (Some (Plan_Model.Order (Some s))) (Some (Plan_Model.Order (Some s))) None [] []
    Plan_Model.unroll_skip (fun _ => unseeded) made made made made made True
    _ _ _ _ _ _ _ _ _ _ _ _ _ _ _ _ _ _ _ _ _ _ _ _ fuel' av r w).
  - intros _. repeat split. unfold gens_f. destruct (c_unique ucfg), (c_cofactor ucfg); reflexivity.
  - intros k c pos _ U _. exact U.
  - reflexivity.
  - intros c pos _ U. exact (U eq_refl).
  - intros c pos p a b (U & _) _ _ _. exact U.
  - intros _ c c' pos (E & _) U. unfold unseeded in *. congruence.
  - intros k dr c pos _ K U _. assert (KK : k = 0 \/ k = 1 \/ k = 2 \/ k = 3) by lia.
    destruct KK as [->|[->|[->| ->]]]; left; (split; [reflexivity|exact U]).
  - reflexivity.
  - reflexivity.
  - intros dr t c pos U. pose proof (curve_stage d dr t c pos U) as C.
    destruct (generator P ucfg tries d Plan_Model.cm_gen_curve_prime _ dr t c) as [(c' & r')| | |]; [left; exact C|destruct C|exact Logic.I|exact Logic.I].
  - reflexivity.
  - intros dr t c p a b pos M (_ & On & _) _ _. cbn [generator order_text bind CmGen_Model.cm_gen_order]. rewrite (CmGen_Props.stored s N (io_number _ _ _ IO)).
    left. split; [reflexivity|]. destruct p as [p|]; [|destruct On]. destruct On as (E & _). split; [rewrite E; reflexivity|].
    split; [split; [discriminate|split; discriminate]|exact M].
  - intros f c p a b pos [].
  - intros c p a b pos M _ _. exact M.
  - unfold gens_f. destruct (c_unique ucfg), (c_cofactor ucfg); reflexivity.
  - intros dr t c p a b pos M (V & ns & Kc & Ko & O).
    destruct (gens_stage P ucfg _ order_fits PO p a b (proj1 (proj2 V)) ns tries d dr t c None ltac:(discriminate) Kc Ko O) as (c' & r' & G0 & [(-> & g & -> & G1 & G2 & G3 & G4)|R]).
    + rewrite G0. left. split; [reflexivity|]. exists (k_seed c), g. split; [reflexivity|]. split.
      * split; [intros _; exact G1|]. split; [exact G2|]. split; [intros ((_ & U) & _); exact (G3 U)|exact G4].
      * exact M.
    + subst r'. rewrite G0. right. right. split; [reflexivity|]. destruct M as (U & _).
      change (gens_f ucfg) with (if c_unique cfg then Plan_Model.gens_gen_one else Plan_Model.gens_gen_any) in G0.
      destruct (c_unique cfg); cbn [generator] in G0; rewrite Kc, Ko in G0; cbn [need bind] in G0; unfold put_gens in G0.
      * destruct (gens_gen_one _ _ _ _) as (gs & r1). injection G0 as <- _. destruct (_ =? 1); exact U.
      * destruct (gens_gen_any _ _ _) as (gs & r1). injection G0 as <- _. destruct (_ =? 1); exact U.
  - intros f c p a b pos g [].
  - intros c p a b pos g M _ _ _ _. exact M.
  - intros c pos M _. exact (proj1 M).
  - intros c pos M _. exact (proj1 M).
  - intros c pos M _. exact (proj1 M).
  - intros c pos p a b _ M _. exact (proj1 M).
  - intros c pos p _ M K. exact (proj2 M p K).
  - intros c c' pos (E1 & E2 & _) _ _ (U & L). split; [congruence|]. intros f K. apply L. congruence.
Qed.
Lemma order_shows l c : found ucfg hexw (cm_on P N) (fun _ => made) l c -> wanted_order cfg hexw N l c.
Proof.
  intros (k & f & ((U & _) & SH & (q & Kf & Pf) & _) & KF & On & W & _). assert (q = f) by congruence. subst q.
  destruct f as [p|]; [|destruct On]. destruct (order_residues _ _ _ On) as (Pp & A & B). destruct On as (E & _). exists p. split; [exact Pf|]. split; [rewrite SH, U; reflexivity|].
  split; [exact Pp|]. split; [exact A|]. split; [exact B|]. split; [rewrite (proj1 (proj2 W)); exact E|]. split; [exact E|exact W].
Qed.

(** C88. Full statement: for every order. Missing: prime orders that are 1 modulo 3 (see C87),
    those up to 21 and composite ones (see C52 and C87), --points=random; the sizes that are printed
    fit (fitsb). *)
Theorem C88_run_partial ino readable writable reason io seadata fs kbd d input outer i :
  Shell_Spec.separate ino writable io -> Shell_Spec.input_is ino readable io fs kbd d input ->
  Shell_Model.i_append io = false -> Shell_Spec.out_file ino writable io i -> 0 <= c_count cfg < 2 ^ 64 ->
  let '(w, status) := Shell_Model.main ino readable writable (fun _ => None) reason true io seadata
      (exhaustive_do P cfg hexw hexp dec junk draws tries fuel avma d setup outer) (Shell_Model.fresh fs kbd) in
  status = Some 0 ->
  exists text cs, Shell_Model.files w i = Some text /\ Z.of_nat (length cs) = c_count cfg /\ each (wanted_order cfg hexw N) d input cs /\
    (exists v, json text v) /\
    forall v, json text v -> exists ds, v = JArr ds /\ all read_curve ds = Some cs.
Proof.
  intros S I NA O B.
  pose proof (run_file P ucfg hexw hexp dec OK HX junk draws tries fuel avma d setup (cm_on P N) (fun _ => made) _
    (fun l i fuel av r w => order_result d l i fuel av r w) ino readable writable reason io seadata fs kbd d input outer i S I NA O B) as H.
  change (exhaustive_do P ucfg) with (exhaustive_do P cfg) in H.
  destruct (Shell_Model.main _ _ _ _ _ true io seadata _ (Shell_Model.fresh fs kbd)) as (w, status). intros E.
  destruct (H E) as (text & cs & F & L & EA & J). exists text, cs. split; [exact F|]. split; [exact L|]. split; [|exact J].
  apply (each_impl (found ucfg hexw (cm_on P N) (fun _ => made))) with (2 := EA). intros l c. apply order_shows.
Qed.
(** A search leaves no undefined behaviour behind when nothing filters the digits. *)
Theorem C88_defined d l i r w : c_hex_check cfg = None ->
  search P cfg hexw tries d l (draws i) setup fuel avma = (r, w) ->
  match r with
  | Engine_Model.Returned 1 => w_wrong w = None /\ exists c, to_output (w_curve w) = Ok c
  | Engine_Model.Returned 0 => w_wrong w <> Some Undefined
  | Engine_Model.NoFuel => True
  | _ => False
  end.
Proof.
  intros NH S. exact (search_defined P ucfg hexw draws tries fuel avma d setup (cm_on P N) (fun _ => made) _
    (fun l i fuel av r w => order_result d l i fuel av r w) l i r w (conj NH (or_intror eq_refl)) Logic.I S).
Qed.
End Run.
Print Assumptions C88_run_partial.
Print Assumptions C88_defined.
