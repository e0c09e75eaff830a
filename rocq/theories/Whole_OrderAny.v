(** C88 with --points=random, and so with every --points: the amount that random takes stays in the plan, but the function of
    that stage does not look at it. *)
From Coq Require Import Ascii String Znumtheory.
From Verif Require Import Base Fp Ec Poly_Model Points_Model Cli_Model Json_Spec CurveText_Spec.
From Verif Require Import Whole_Model Whole_Spec Whole_OrderSpec Whole_Group Whole_Stages Whole_Proofs Whole_Front Whole_Run Whole_Default Shell_Fields Whole_Order Whole_Line.
From Verif Require Plan_Model Engine_Model Shell_Model Shell_Spec Hex_Props Input_Props Whole_OrderEx.
Local Open Scope Z_scope.
Local Open Scope list_scope.

(** ** Two setups with the same functions *)
Section Same.
Context {W : Type}.
Variables (g g' : Z -> option (W -> Z -> W * Z * Engine_Model.gout)) (v : Z -> option (list (W -> W * Z))) (u : Z -> option (W -> W * Z)).
Hypothesis G : forall i, g i = g' i.
Notation su := (Engine_Model.mkSetup g v u).
Notation su' := (Engine_Model.mkSetup g' v u).
Lemma unroll_same n : forall i k w, Engine_Model.unroll_loop su n i k w = Engine_Model.unroll_loop su' n i k w.
Proof.
  induction n as [|n IH]; intros i k w; cbn [Engine_Model.unroll_loop]; [reflexivity|]. cbn [Engine_Model.unrolls]. destruct (_ >? _); [|reflexivity].
  destruct (u i) as [f|]; [|apply IH]. destruct (f w) as (w' & r). destruct (_ >=? _); [reflexivity|]. rewrite IH. reflexivity.
Qed.
Lemma run_same a b r fuel : forall l, Engine_Model.run su a b r fuel l = Engine_Model.run su' a b r fuel l.
Proof.
  induction fuel as [|n IH]; intros l; cbn [Engine_Model.run]; [reflexivity|]. destruct (_ <? _); [|reflexivity].
  assert (S : Engine_Model.step su a r l = Engine_Model.step su' a r l).
  { unfold Engine_Model.step. cbn [Engine_Model.generators Engine_Model.validators]. rewrite (G (Engine_Model.state l)).
    destruct (g' (Engine_Model.state l)) as [f|]; [|reflexivity]. destruct (f (Engine_Model.world l) (Engine_Model.avma l)) as ((w1, av1), o).
    destruct (match v (Engine_Model.state l) with Some cs => _ | None => _ end) as ((ev1, w2), diff). rewrite unroll_same. reflexivity. }
  rewrite S. unfold Engine_Model.stopped. cbn [Engine_Model.generators Engine_Model.validators]. rewrite (G (Engine_Model.state l)).
  destruct (Engine_Model.step su' a r l) as (ev, [l'|st]); [rewrite IH; reflexivity|reflexivity].
Qed.
End Same.

(** ** The plan with --points=random *)
(** as [in_order], for any --points *)
Record in_order_any (cfg : config) (s : str) (N : Z) : Prop := {
  ia_method : c_method cfg = METHOD_CM;
  ia_algo : c_seed_algo cfg = 0;
  ia_order : c_cm_order cfg = Some s;
  ia_number : Input_Props.magnitude s N;
  ia_prime : prime N;
  ia_large : 21 < N;
  ia_three : N mod 3 = 2;
  ia_type : 0 <= c_points_type cfg <= 4;
  ia_amount : 0 <= c_points_amount cfg < 2 ^ 64;
  ia_smooth : 0 <= c_smooth_value cfg < 2 ^ 63
}.
Notation default_points := (set_points_type POINTS_PRIME).
Lemma any_default cfg s N : in_order_any cfg s N -> in_order (default_points cfg) s N.
Proof. intros []. constructor; try assumption. vm_compute. auto. Qed.
Lemma same_search P cfg s N hexw tries d l draws u fuel av : in_order_any cfg s N ->
  search P cfg hexw tries d l draws (snd (Plan_Model.cm_init cfg true u)) fuel av =
  search P (default_points cfg) hexw tries d l draws (snd (Plan_Model.cm_init (default_points cfg) true u)) fuel av.
Proof.
  intros IA. pose proof (any_default _ _ _ IA) as ID. rewrite (order_plan _ s N u ID).
  assert (E : snd (Plan_Model.cm_init cfg true u) = let q := snd (Plan_Model.cm_init (default_points cfg) true u) in
    Plan_Model.mkSetup (Plan_Model.s_gens q) [None; None; None; None; Some (Plan_Model.Order (Some s)); Some (Plan_Model.Order (Some s)); None;
      (if c_points_type cfg =? POINTS_RANDOM then Some (Plan_Model.Amount (c_points_amount cfg)) else None); None]
      (Plan_Model.s_checks q) (Plan_Model.s_cargs q) (Plan_Model.s_unrolls q)).
  { clear ID. destruct IA as [M A O _ _ _ _ T _ _].
    assert (HP : exists f, forall g, Plan_Model.points_init cfg g = Plan_Model.put Plan_Model.POINTS f g).
    { unfold Plan_Model.points_init. assert (TT : c_points_type cfg = 0 \/ c_points_type cfg = 1 \/ c_points_type cfg = 2 \/ c_points_type cfg = 3 \/ c_points_type cfg = 4) by lia.
      destruct TT as [->|[->|[->|[->| ->]]]]; [..|destruct (negb _)|idtac|idtac]; eexists; intros g; reflexivity. }
    destruct HP as (f & HP).
    unfold Plan_Model.cm_init, Plan_Model.cm_ginit, Plan_Model.cm_ainit, Plan_Model.cm_cinit, Plan_Model.exhaustive_uinit, Plan_Model.hex_args. rewrite HP.
    change (c_method (default_points cfg)) with (c_method cfg). change (c_seed_algo (default_points cfg)) with (c_seed_algo cfg).
    change (c_cm_order (default_points cfg)) with (c_cm_order cfg). change (c_unique (default_points cfg)) with (c_unique cfg).
    change (c_metadata (default_points cfg)) with (c_metadata cfg). change (c_hex_check (default_points cfg)) with (c_hex_check cfg).
    rewrite A, M, O. cbv zeta.
    change (METHOD_CM =? METHOD_CM) with true. change (METHOD_CM =? METHOD_ANOMALOUS) with false. change (METHOD_CM =? METHOD_FAMILY) with false. change (negb (0 =? 0)) with false.
    cbn [orb]. cbn iota. cbn [snd Plan_Model.s_gens Plan_Model.s_checks Plan_Model.s_cargs Plan_Model.s_unrolls]. f_equal.
    - destruct (c_unique cfg), (c_metadata cfg); reflexivity.
    - destruct (_ =? _); reflexivity. }
  rewrite E, (order_plan _ s N u ID). cbv zeta. cbn [Plan_Model.s_gens Plan_Model.s_checks Plan_Model.s_cargs Plan_Model.s_unrolls].
  unfold search, Engine_Model.exhaustive_gen, Engine_Model.exhaustive_gen_retry. change (0 =? 9) with false. change (0 >? 9) with false. cbn iota.
  unfold engine_setup. cbn [Plan_Model.s_gens Plan_Model.s_gargs Plan_Model.s_checks Plan_Model.s_cargs Plan_Model.s_unrolls].
  erewrite run_same; [reflexivity|]. intros i. unfold cell. destruct (i <? 0); [reflexivity|].
  destruct (Z.to_nat i) as [|[|[|[|[|[|[|[|[|k]]]]]]]]]; reflexivity.
Qed.

(** ** The run *)
Section Run.
Variable P : pari.
Variable cfg : config.
Variable s : str.
Variable N : Z.
Hypothesis CO : cm_ok P N.
Hypothesis IA : in_order_any cfg s N.
Variables hexw hexp dec : Z -> str.
Hypothesis OK : prints hexw hexp dec.
Hypothesis HX : Hex_Props.prints_hex hexw.
Variable junk : nat -> ascii.
Variable draws : Z -> nat -> draw.
Variable tries fuel : nat.
Variable avma : Z.
Notation setup := (snd (Plan_Model.cm_init cfg true [N_method])).
Notation ucfg := (order_cfg cfg).

Lemma any_result d l i fuel' av r w :
  search P ucfg hexw tries d l (draws i) setup fuel' av = (r, w) ->
  match r with Engine_Model.Returned r => (r = 1 /\ success P ucfg (cm_on P N) hexw made w) \/ (r = 0 /\ failed ucfg True w)
  | Engine_Model.NoFuel => True | _ => False end.
Proof.
  change (search P ucfg) with (search P cfg). rewrite (same_search P cfg s N hexw tries d l (draws i) [N_method] fuel' av IA).
  exact (order_result P (default_points cfg) s N CO (any_default _ _ _ IA) hexw junk draws tries avma d l i fuel' av r w).
Qed.

(** C88 for every --points. Full statement: for every order. Missing: prime orders that are 1 modulo 3 (see C87), those up to
    21 and composite ones (see C52 and C87); the sizes that are printed fit (fitsb). *)
Theorem C88_points_partial ino readable writable reason io seadata fs kbd d input outer i :
  Shell_Spec.separate ino writable io -> Shell_Spec.input_is ino readable io fs kbd d input ->
  Shell_Model.i_append io = false -> Shell_Spec.out_file ino writable io i -> 0 <= c_count cfg < 2 ^ 64 ->
  let '(w, status) := Shell_Model.main ino readable writable (fun _ => None) reason true io seadata
      (exhaustive_do P cfg hexw hexp dec junk draws tries fuel avma d setup outer) (Shell_Model.fresh fs kbd) in
  status = Some 0 ->
  exists text cs, Shell_Model.files w i = Some text /\ Z.of_nat (length cs) = c_count cfg /\ each (wanted_order cfg hexw N) d input cs /\
    (exists v, json text v) /\
    forall v, json text v -> exists ds, v = JArr ds /\ all read_curve ds = Some cs.
Proof.
  intros S I NA O B.
  pose proof (run_file P ucfg hexw hexp dec OK HX junk draws tries fuel avma d setup (cm_on P N) (fun _ => made) _
    (fun l i fuel av r w => any_result d l i fuel av r w) ino readable writable reason io seadata fs kbd d input outer i S I NA O B) as H.
  change (exhaustive_do P ucfg) with (exhaustive_do P cfg) in H.
  destruct (Shell_Model.main _ _ _ _ _ true io seadata _ (Shell_Model.fresh fs kbd)) as (w, status). intros E.
  destruct (H E) as (text & cs & F & L & EA & J). exists text, cs. split; [exact F|]. split; [exact L|]. split; [|exact J].
  apply (each_impl (found ucfg hexw (cm_on P N) (fun _ => made))) with (2 := EA). intros l c.
  exact (order_shows P (default_points cfg) N CO hexw l c).
Qed.
(** A search leaves no undefined behaviour behind when nothing filters the digits. *)
Theorem C88_points_defined d l i r w : c_hex_check cfg = None ->
  search P cfg hexw tries d l (draws i) setup fuel avma = (r, w) ->
  match r with
  | Engine_Model.Returned 1 => w_wrong w = None /\ exists c, to_output (w_curve w) = Ok c
  | Engine_Model.Returned 0 => w_wrong w <> Some Undefined
  | Engine_Model.NoFuel => True
  | _ => False
  end.
Proof.
  intros NH S. exact (search_defined P ucfg hexw draws tries fuel avma d setup (cm_on P N) (fun _ => made) _
    (fun l i fuel av r w => any_result d l i fuel av r w) l i r w (conj NH (or_intror eq_refl)) Logic.I S).
Qed.
End Run.
Print Assumptions C88_points_partial.
Print Assumptions C88_points_defined.

(** ** The command line *)
Lemma line_order_any np os arg cfg set t N : cli np os [arg] = Some (cfg, set) -> Forall (order_or t) os -> In (OOrder t) os ->
  c_bits cfg < 2 ^ 61 -> 0 <= c_smooth_value cfg -> Input_Props.magnitude t N -> prime N -> 21 < N -> N mod 3 = 2 ->
  in_order_any cfg t N /\ c_count cfg < 2 ^ 63.
Proof.
  intros H Al F B S0 MN PN LN TN. assert (Kn : Forall known os) by (apply Forall_impl with (2 := Al); intros o [-> |]; [exact I|destruct o; cbn in *; auto]).
  destruct (line_any _ _ _ _ _ H Kn B S0) as (s & O & [L1 L2 L3 _ L4 (_ & T & A & SM) L6 L7 L8 L9]). split; [|exact L6].
  destruct (order_options np t os _ _ Al O (or_introl eq_refl)) as (AL & M). destruct (M (or_intror F)) as (M1 & M2).
  constructor; try assumption; [congruence|rewrite L3; exact AL|rewrite (line_text _ _ _ _ _ _ H O); exact M2|lia].
Qed.
(** C88 for a command line with any --points. Full statement and what is missing: see C88_points_partial. *)
Theorem C88_points_line_partial np os arg cfg set t N P hexw hexp dec junk draws tries fuel avma ino readable writable reason io seadata fs kbd d input outer i :
  cli np os [arg] = Some (cfg, set) -> Forall (order_or t) os -> In (OOrder t) os ->
  c_bits cfg < 2 ^ 61 -> 0 <= c_smooth_value cfg -> 0 <= c_count cfg ->
  Input_Props.magnitude t N -> prime N -> 21 < N -> N mod 3 = 2 -> cm_ok P N -> prints hexw hexp dec -> Hex_Props.prints_hex hexw ->
  Shell_Spec.separate ino writable io -> Shell_Spec.input_is ino readable io fs kbd d input ->
  Shell_Model.i_append io = false -> Shell_Spec.out_file ino writable io i ->
  let '(w, status) := Shell_Model.main ino readable writable (fun _ => None) reason true io seadata
      (exhaustive_do P cfg hexw hexp dec junk draws tries fuel avma d (snd (Plan_Model.cm_init cfg true [N_method])) outer) (Shell_Model.fresh fs kbd) in
  status = Some 0 ->
  exists text cs, Shell_Model.files w i = Some text /\ Z.of_nat (length cs) = c_count cfg /\ each (wanted_order cfg hexw N) d input cs /\
    (exists v, json text v) /\
    forall v, json text v -> exists ds, v = JArr ds /\ all read_curve ds = Some cs.
Proof.
  intros L Pl F B S0 C0 MN PN LN TN CO OK HX S I NA O. destruct (line_order_any _ _ _ _ _ _ _ L Pl F B S0 MN PN LN TN) as (IA & CU).
  apply (C88_points_partial P cfg t N CO IA hexw hexp dec OK HX junk draws tries fuel avma ino readable writable reason io seadata fs kbd d input outer i S I NA O). lia.
Qed.
Print Assumptions C88_points_line_partial.
Lemma in_any cfg s N : in_order cfg s N -> in_order_any cfg s N.
Proof. intros []. constructor; try assumption. lia. Qed.
Lemma other_points cfg cfg' s N P hexw tries d l draws u fuel av : in_order cfg s N -> default_points cfg' = default_points cfg -> c_points_type cfg' = 2 ->
  in_order_any cfg' s N /\ search P cfg' hexw tries d l draws (snd (Plan_Model.cm_init cfg' true u)) fuel av = search P cfg hexw tries d l draws (snd (Plan_Model.cm_init cfg true u)) fuel av.
Proof.
  intros IO E T. pose proof (in_any _ _ _ IO) as IA. pose proof (any_default _ _ _ IA) as ID. rewrite <- E in ID.
  assert (IA' : in_order_any cfg' s N) by (destruct ID; constructor; try assumption; rewrite T; lia).
  split; [exact IA'|]. rewrite (same_search P cfg' s N hexw tries d l draws u fuel av IA'), (same_search P cfg s N hexw tries d l draws u fuel av IA), E. reflexivity.
Qed.
(** --fp --order=71 --count=2 --points=random 6: the search is the one with --points=all *)
Definition random_line : list copt := [OFp; OOrder (lit "71"); OCount (lit "2"); OPoints (lit "random")].
Definition cfg71r : config := match cli 4 random_line [lit "6"] with Some (c, _) => c | None => cfg0 end.
Example C88_points_example : c_points_type cfg71r = POINTS_RANDOM /\ c_hex_check cfg71r = None /\ cm_ok Whole_OrderEx.pari71 71 /\ in_order_any cfg71r (lit "71") 71 /\
  (exists set, cli 4 random_line [lit "6"] = Some (cfg71r, set) /\ Forall (order_or (lit "71")) random_line /\ In (OOrder (lit "71")) random_line) /\
  exists w, search Whole_OrderEx.pari71 cfg71r CurveText_Props.hex_2 60 "010"%char [] (Whole_OrderEx.draws_71 0) (snd (Plan_Model.cm_init cfg71r true [N_method])) 200 0 = (Engine_Model.Returned 1, w) /\
    k_field (w_curve w) = Some (Prime 59) /\ k_order (w_curve w) = Some 71.
Proof.
  assert (E : default_points cfg71r = default_points Whole_OrderEx.cfg71) by (vm_compute; reflexivity).
  assert (T : c_points_type cfg71r = 2) by (vm_compute; reflexivity).
  pose proof (other_points Whole_OrderEx.cfg71 cfg71r (lit "71") 71 Whole_OrderEx.pari71 CurveText_Props.hex_2 60 "010"%char [] (Whole_OrderEx.draws_71 0) [N_method] 200 0 Whole_OrderEx.scope_71 E T) as (IA & S).
  pose proof (proj2 Whole_OrderEx.C88_defined_example) as (w & R & F).
  split; [exact T|]. split; [vm_compute; reflexivity|]. split; [exact Whole_OrderEx.pari71_ok|]. split; [exact IA|]. split.
  - eexists. split; [vm_compute; reflexivity|]. split; [repeat (apply Forall_cons; [(right; exact I) || (left; reflexivity)|]); apply Forall_nil|right; left; reflexivity].
  - exists w. split; [exact (eq_trans S R)|exact F].
Qed.
