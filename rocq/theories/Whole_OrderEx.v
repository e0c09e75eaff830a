(** C88: a run with the order 71. *)
From Coq Require Import Ascii String Znumtheory.
From Verif Require Import Base Fp Primes Ec Poly_Model Points_Model Points_Props Gens_Props Cli_Model CurveText_Spec Whole_Model Whole_Spec Whole_OrderSpec Whole_Group Whole_Stages Whole_Proofs Whole_Default Whole_Order Whole_Example Whole_AnomalousEx.
From Verif Require Ec_Fp Input_Props Supersingular_Props Factor CurveText_Model CurveText_Props Json_Spec Hex_Props Plan_Model Engine_Model Shell_Model Shell_Spec Shell_Props.
From Verif Require CmPrime_Model CmPrime_Props CmAny_Model CmAny_Props CmGen_Props Cli_Spec.
Local Open Scope Z_scope.
Local Open Scope list_scope.

(** ** PARI for the curves that are made *)
(** the curves from the roots 3 and 11 of the class polynomial of the discriminant -115 over 59 elements, see CmGen_Props *)
Definition fromj_71 (j p : Z) : option (Z * Z) := match CmAny_Props.ecurve_of j p with Some (_, a, b) => Some (a, b) | None => None end.
Definition twist_71 (p a b : Z) : Z * Z := let '(_, a, b) := CmAny_Props.etwist (p, a, b) in (a, b).
Definition pari_roots (class_roots : Z -> Z -> list Z) : pari :=
  mkPari (isprime pari3) (randomprime pari3) (ellinit pari3) (ell_get_disc pari3) (ell_get_j pari3) (ellff_get_card pari3) (ellsea pari3) (ellff_get_gens pari3)
    (ellmul pari3) (ellorder pari3) (Z_factor pari3) (znorder pari3) (coredisc2 pari3) CmPrime_Props.kronecker_b (nextprime pari3)
    class_roots (Fp_invsafe pari3) (Fp_issquare pari3) (Fp_sqrt pari3) (Fp_sqrtn pari3) (ellordinate pari3)
    CmPrime_Props.forprime_b CmPrime_Props.cornacchia_b CmGen_Props.log_b (fun _ => false) (fun _ => 0) (fun _ _ => [])
    fromj_71 twist_71 (fun p a b t => CmAny_Props.epick (p, a, b) t).
Definition pari71 : pari := pari_roots (fun d p => CmGen_Props.roots_71 (- d) p).
Lemma root_71 D p root a b : In root (class_roots pari71 (- D) p) -> ellfromj pari71 root p = Some (a, b) ->
  p = 59 /\ ((a, b) = (8, 4) \/ (a, b) = (21, 34)).
Proof.
  cbn [pari71 pari_roots class_roots ellfromj]. unfold CmGen_Props.roots_71. rewrite Z.opp_involutive. destruct (D =? -115); cbn [andb]; [|intros []].
  destruct (Z.eqb_spec p 59) as [->|]; [|intros []]. intros [<-|[<-|[]]] H; (split; [reflexivity|]); [left|right]; vm_compute in H; congruence.
Qed.
Lemma prime_59 : prime 59. Proof. apply isprime_b_ok. vm_compute. reflexivity. Qed.
Lemma curve_71 a b : (a, b) = (8, 4) \/ (a, b) = (21, 34) -> curve_ok (Prime 59) a b /\ points (Prime 59) a b = 71.
Proof.
  intros [E|E]; [assert (a = 8 /\ b = 4) as (-> & ->)|assert (a = 21 /\ b = 34) as (-> & ->)]; try (split; congruence).
  all: (split; [|vm_compute; reflexivity]); constructor; [split; [exact prime_59|lia]|exact I|exact I|vm_compute; discriminate].
Qed.
Lemma twists_71 a b : (a, b) = (8, 4) \/ (a, b) = (21, 34) -> let (a', b') := twist_71 59 a b in
  0 <= a' < 59 /\ 0 <= b' < 59 /\ ellinit pari3 (Prime 59) a' b' = true /\ points (Prime 59) a' b' = 49.
Proof.
  intros [E|E]; [assert (a = 8 /\ b = 4) as (-> & ->)|assert (a = 21 /\ b = 34) as (-> & ->)]; try (split; congruence).
  all: vm_compute; intuition congruence.
Qed.
Definition on_71 (a b : Z) (Q : pt) : bool := match Q with Some _ => ec_on (Prime 59) a b Q | None => false end.
Lemma random_71 a b t : (a, b) = (8, 4) \/ (a, b) = (21, 34) -> on_71 a b (CmAny_Props.epick (59, a, b) t) = true.
Proof.
  intros [E|E]; [assert (a = 8 /\ b = 4) as (-> & ->)|assert (a = 21 /\ b = 34) as (-> & ->)]; try (split; congruence).
  all: apply CmAny_Props.pick_all; vm_compute; [reflexivity|discriminate].
Qed.
(** the discriminants of these curves *)
Lemma checked_71 : curve_b 59 8 4 = true /\ curve_b 59 21 34 = true.
Proof. vm_compute. auto. Qed.
Lemma pari71_ok : cm_ok pari71 71.
Proof.
  destruct pari3_ok as [IP RP F _ _]. constructor.
  - constructor; [exact IP|exact RP|exact F|reflexivity|].
    intros [p|] a b O OK; [|destruct O]. destruct O as (E & D & root & a0 & b0 & _ & _ & RT & J & X).
    destruct (root_71 D p root a0 b0 RT J) as (-> & AB).
    assert (AB' : (a, b) = (8, 4) \/ (a, b) = (21, 34)).
    { destruct X as [X|X]; [rewrite X; exact AB|]. pose proof (twists_71 a0 b0 AB) as T. cbn [pari71 pari_roots elltwist] in X. rewrite <- X in T. destruct T as (_ & _ & _ & T). congruence. }
    assert (C : curve_b 59 a b = true) by (destruct checked_71 as (C1 & C2), AB' as [Y|Y]; injection Y as -> ->; assumption).
    assert (PC : pari_curve pari3 (Prime 59) a b).
    { apply curve_b_ok; [exact prime_59|lia|destruct AB' as [Y|Y]; clear - Y; injection Y as -> ->; lia|destruct AB' as [Y|Y]; clear - Y; injection Y as -> ->; lia|exact (co_ns _ _ _ OK)|exact C]. }
    destruct PC as [C1 C2 C3 C4 C5 C6 C7]. constructor; assumption.
  - exact CmPrime_Props.cornacchia_b_ok.
  - intros D p root a b _ _ RT J. destruct (root_71 D p root a b RT J) as (-> & AB). destruct (curve_71 a b AB) as (OK & N).
    pose proof (twists_71 a b AB) as T. split; [exact OK|].
    split; [destruct AB as [Y|Y]; clear - Y; injection Y as -> ->; lia|]. split; [destruct AB as [Y|Y]; clear - Y; injection Y as -> ->; lia|].
    split; [destruct AB as [Y|Y]; injection Y as -> ->; vm_compute; reflexivity|]. split; [left; exact N|].
    split; [|split; [reflexivity|]].
    + intros t. pose proof (random_71 a b t AB) as R. cbn [pari71 pari_roots ellrandom]. destruct (CmAny_Props.epick (59, a, b) t); [|discriminate R]. split; [exact R|discriminate].
    + cbn [pari71 pari_roots elltwist ellinit]. destruct (twist_71 59 a b) as (a' & b'). rewrite N. exact T.
Qed.

(** ** A run *)
(** --fp --order=71 --count=2 --points=all 6: --points has no effect *)
Definition order_line : list copt := [OFp; OOrder (lit "71"); OCount (lit "2"); OPoints (lit "all")].
Definition cfg71 : config := match cli 4 order_line [lit "6"] with Some (c, _) => c | None => cfg0 end.
Lemma scope_71 : in_order cfg71 (lit "71") 71.
Proof.
  constructor; [vm_compute; reflexivity|vm_compute; reflexivity|vm_compute; reflexivity| | |lia|reflexivity|vm_compute; auto|vm_compute; intuition congruence|vm_compute; intuition congruence].
  - change (Input_Props.magnitude (lit "71") (Cli_Spec.dec (lit "71"))). Input_Props.is_dec.
  - apply isprime_b_ok. vm_compute. reflexivity.
Qed.
Definition draws_71 (i : Z) (k : nat) : draw :=
  mkDraw (i + 3 * Z.of_nat k) 0 (fun n => i + 2 + Z.of_nat n) (fun n m => i + Z.of_nat n) (fun _ => 0%N) (k =? 1)%nat curve_new false 0 None.
Definition run_71 (io : Shell_Model.io_config) :=
  Shell_Model.main Shell_Props.by_length Shell_Props.all_files Shell_Props.all_files Shell_Props.no_limit [] true io true
    (exhaustive_do pari71 cfg71 CurveText_Props.hex_2 CurveText_Props.hex_2 CurveText_Props.dec_2 (fun _ => "?"%char) draws_71 60 200 0 "010"%char
      (snd (Plan_Model.cm_init cfg71 true [N_method])) 3)
    (Shell_Model.fresh (fun _ => None) []).
Example C88_run_example :
  let io := Shell_Model.mkIo (Some (list_ascii_of_string "o")) false None None in
  c_count cfg71 = 2 /\ cm_ok pari71 71 /\ in_order cfg71 (lit "71") 71 /\
  prints CurveText_Props.hex_2 CurveText_Props.hex_2 CurveText_Props.dec_2 /\ Hex_Props.prints_hex CurveText_Props.hex_2 /\
  Shell_Spec.separate Shell_Props.by_length Shell_Props.all_files io /\
  Shell_Spec.input_is Shell_Props.by_length Shell_Props.all_files io (fun _ => None) [] "010"%char [] /\
  Shell_Spec.out_file Shell_Props.by_length Shell_Props.all_files io 1 /\
  exists w t, run_71 io = (w, Some 0) /\ Shell_Model.files w 1 = Some t /\ 300 <= Z.of_nat (length t).
Proof.
  intros io. split; [vm_compute; reflexivity|]. split; [exact pari71_ok|]. split; [exact scope_71|].
  split; [exact CurveText_Props.printers|]. split; [exact hex_2_digits|].
  split; [|split; [vm_compute; auto|split; [exists (list_ascii_of_string "o"); auto|]]].
  - intros i. split; [|split]; intros (A & B); destruct B as (g & B & _); discriminate B.
  - eexists _, _. split; [vm_compute; reflexivity|]. split; [reflexivity|]. vm_compute. discriminate.
Qed.
Example C88_defined_example : c_hex_check cfg71 = None /\
  exists w, search pari71 cfg71 CurveText_Props.hex_2 60 "010"%char [] (draws_71 0) (snd (Plan_Model.cm_init cfg71 true [N_method])) 200 0 = (Engine_Model.Returned 1, w) /\
    k_field (w_curve w) = Some (Prime 59) /\ k_order (w_curve w) = Some 71.
Proof. split; [vm_compute; reflexivity|]. eexists. split; [vm_compute; reflexivity|]. split; reflexivity. Qed.

(** --fp --order=43 6: 43 is a prime above 21, and 1 modulo 3. The curve found has 28 points and is given the order 43. *)
Definition pari43 : pari := pari_roots (fun d p => CmAny_Props.eroots (- d) p).
Definition cfg43 : config := match cli 4 [OFp; OOrder (lit "43")] [lit "6"] with Some (c, _) => c | None => cfg0 end.
Theorem C88_order_refuted : exists P cfg w a b, Input_Props.magnitude (lit "43") 43 /\ prime 43 /\ 21 < 43 /\ c_cm_order cfg = Some (lit "43") /\ c_method cfg = METHOD_CM /\
  CmPrime_Props.cornacchia_ok (cornacchia2 P) /\ (forall n, isprime P n = true <-> prime n) /\
  search P cfg CurveText_Props.hex_2 10 "010"%char [] (draws_71 0) (snd (Plan_Model.cm_init cfg true [N_method])) 200 0 = (Engine_Model.Returned 1, w) /\ w_wrong w = None /\
  k_curve (w_curve w) = Some (Prime 31, a, b) /\ k_order (w_curve w) = Some 43 /\ points (Prime 31) a b = 28.
Proof.
  exists pari43, cfg43. eexists _, _, _. split; [change (Input_Props.magnitude (lit "43") (Cli_Spec.dec (lit "43"))); Input_Props.is_dec|].
  split; [apply isprime_b_ok; vm_compute; reflexivity|]. split; [lia|]. split; [vm_compute; reflexivity|]. split; [vm_compute; reflexivity|].
  split; [exact CmPrime_Props.cornacchia_b_ok|]. split; [exact isprime_b_ok|].
  split; [vm_compute; reflexivity|]. split; [reflexivity|]. split; [reflexivity|]. split; [reflexivity|]. vm_compute. reflexivity.
Qed.
Print Assumptions C88_order_refuted.
