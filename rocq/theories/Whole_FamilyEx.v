(** C83: runs of the method for pairing-friendly curves. *)
From Coq Require Import Ascii String Znumtheory.
From Verif Require Import Base Fp Primes Ec Poly_Model Points_Model Points_Props Gens_Props Cli_Model CurveText_Spec Whole_Model Whole_Spec Whole_Group Whole_Stages Whole_Proofs Whole_FamilySpec Whole_Family Whole_Example Whole_AnomalousEx.
From Verif Require Ec_Fp Factor CurveText_Model CurveText_Props Json_Spec Hex_Props Plan_Model Engine_Model Shell_Model Shell_Spec Shell_Props Input_Props.
Local Open Scope Z_scope.
Local Open Scope list_scope.

(** ** PARI for the smallest field of BLS12: z = -2, 37 elements, a subgroup of order 13 *)
(** --fp --family=bls12 --random --count=2 --points=all --metadata 1 *)
Definition family_line : list copt := [OFp; OFamily (lit "bls12"); ORandom None; OCount (lit "2"); OPoints (lit "all"); OMetadata].
Definition family_cfg1 : config := match cli 4 family_line [lit "1"] with Some (c, _) => c | None => cfg0 end.
Lemma family_scope : in_family family_cfg1.
Proof. constructor; vm_compute; intuition congruence. Qed.
Lemma only_37 z p r : family_prime FAMILY_BLS12 z p r -> Z.abs z <= 2 -> p = 37 /\ r = 13.
Proof.
  intros (Pp & Pr & N) L. assert (C : z = -2 \/ z = -1 \/ z = 0 \/ z = 1 \/ z = 2) by lia.
  change (3 * p = (z - 1) ^ 2 * (z ^ 4 - z ^ 2 + 1) + 3 * z /\ r = z ^ 4 - z ^ 2 + 1) in N.
  destruct Pp as [Pp _], Pr as [Pr _]. destruct C as [->|[->|[->|[->| ->]]]].
  - change (3 * p = 111 /\ r = 13) in N. lia.
  - change (3 * p = 1 /\ r = 1) in N. lia.
  - change (3 * p = 1 /\ r = 1) in N. lia.
  - change (3 * p = 3 /\ r = 1) in N. lia.
  - change (3 * p = 19 /\ r = 13) in N. lia.
Qed.
(** generators of the 36 curves, worked out beforehand *)
Definition gens_37 (b : Z) : list pt := nth (Z.to_nat (b - 1))
  [[Some (3, 18); Some (14, 9)]; [Some (1, 15)]; [Some (1, 2)]; [Some (2, 7)]; [Some (6, 6)]; [Some (1, 9); Some (6, 0)];
   [Some (3, 16)]; [Some (2, 4); Some (17, 0)]; [Some (3, 6); Some (1, 11)]; [Some (1, 14); Some (18, 12)]; [Some (1, 7); Some (7, 13)]; [Some (5, 10); Some (9, 1)];
   [Some (2, 13)]; [Some (3, 2); Some (18, 0)]; [Some (1, 4)]; [Some (5, 17); Some (7, 10)]; [Some (2, 5)]; [Some (2, 10)];
   [Some (2, 8)]; [Some (2, 18)]; [Some (9, 11); Some (3, 14)]; [Some (2, 17)]; [Some (7, 12); Some (5, 0)]; [Some (1, 5)];
   [Some (1, 10); Some (21, 6)]; [Some (1, 8); Some (4, 4)]; [Some (9, 4); Some (5, 2)]; [Some (2, 6); Some (11, 8)]; [Some (1, 17); Some (15, 0)]; [Some (2, 1)];
   [Some (6, 5); Some (14, 0)]; [Some (1, 12)]; [Some (1, 16)]; [Some (5, 14)]; [Some (1, 6)]; [Some (2, 9); Some (6, 17)]] [].
Definition pari37 : pari :=
  mkPari (isprime pari3) (randomprime pari3) (ellinit pari3) (ell_get_disc pari3) (ell_get_j pari3) (ellff_get_card pari3) (ellsea pari3)
    (fun f a b _ => gens_37 b) (ellmul pari3) (ellorder pari3) (Z_factor pari3) (znorder pari3) (coredisc2 pari3) (kronecker pari3) (nextprime pari3)
    (class_roots pari3) (Fp_invsafe pari3) (Fp_issquare pari3) (Fp_sqrt pari3) (Fp_sqrtn pari3) (ellordinate pari3)
    (forprime pari3) (cornacchia2 pari3) (glog pari3) (issquarefree pari3) (quaddisc pari3) (norm_traces pari3)
    (ellfromj pari3) (elltwist pari3) (ellrandom pari3).
Definition curve_37 (b : Z) : bool :=
  let n := points (Prime 37) 0 b in
  ((x_j 37 0 b * (4 * 0 ^ 3 + 27 * b ^ 2)) mod 37 =? (1728 * 4 * 0 ^ 3) mod 37) &&
  gens_b (Prime 37) 0 b n (gens_37 b) && (0 <? n) &&
  (negb (Z.gcd 37 n =? 1) || existsb (fun k => (37 ^ k - 1) mod n =? 0) (upto n)) &&
  let x := (37 + 1 - n) ^ 2 - 4 * 37 in let (d, f) := x_coredisc2 x in (x =? d * f ^ 2) && fundamental_b d && (0 <? f).
Lemma curve_37_ok b : prime 37 -> 0 <= b < 37 -> Ec_Fp.nonsingular 37 0 b -> curve_37 b = true -> pari_curve pari37 (Prime 37) 0 b.
Proof.
  intros PP B ns C. unfold curve_37 in C. cbv zeta in C. rewrite !andb_true_iff in C. destruct C as ((((J & G) & N) & K) & D).
  apply Z.eqb_eq in J. apply Z.ltb_lt in N.
  assert (OK : curve_ok (Prime 37) 0 b) by (constructor; [split; [exact PP|lia]|exact I|exact I|exact ns]).
  constructor; cbn [pari37 pari3 ell_get_j ellff_get_card ellsea ellff_get_gens ellmul ellorder znorder coredisc2 x_red]; rewrite ?(Z.mod_small b 37 B), ?(Z.mod_small 0 37 ltac:(lia)).
  - split; [apply Z.mod_pos_bound; lia|exact J].
  - reflexivity.
  - now left.
  - intros _. apply gens_b_ok; [exact OK|exact G].
  - reflexivity.
  - intros Q On. now apply x_order_ok.
  - split.
    { intros CP. rewrite CP in K. cbn [Z.eqb negb orb Pos.eqb] in K. apply existsb_exists in K. destruct K as (k & I & K). apply in_upto in I.
      destruct (first_ok (fun k => (37 ^ k - 1) mod points (Prime 37) 0 b =? 0) (points (Prime 37) 0 b) (ex_intro _ k (conj I K))) as (R & S & T).
      fold (x_znorder 37 (points (Prime 37) 0 b)) in *. split; [lia|]. split; [apply Z.mod_divide; [lia|now apply Z.eqb_eq]|].
      intros j L X. specialize (T j L). apply Z.eqb_neq in T. apply T. apply Z.mod_divide; [lia|exact X]. }
    cbv zeta. destruct (x_coredisc2 ((37 + 1 - points (Prime 37) 0 b) ^ 2 - 4 * 37)) as [d f]. rewrite !andb_true_iff in D. destruct D as ((D1 & D2) & D3).
    apply Z.eqb_eq in D1. apply Z.ltb_lt in D3. split; [exact D1|]. split; [now apply fundamental_b_ok|exact D3].
Qed.
Lemma all_37 : forallb curve_37 (upto 36) = true.
Proof. vm_compute. reflexivity. Qed.
Lemma pari_37 : family_ok pari37 family_cfg1.
Proof.
  destruct pari3_ok as [I R F D _]. constructor.
  - constructor; [exact I|exact R|exact F|reflexivity|].
    intros [p|] a b O [_ _ _ ns]; [|destruct O]. destruct O as (-> & B & z & r & FP & L). change (Z.abs z <= 2) in L.
    destruct (only_37 z p r FP L) as (-> & _). apply curve_37_ok; [exact (proj1 FP)|exact B|exact ns|].
    pose proof all_37 as H. rewrite forallb_forall in H. apply H. apply in_upto. destruct (Z.eq_dec b 0) as [->|]; [|lia]. contradiction ns. reflexivity.
  - intros [p|] a b O [_ _ _ ns]; [|destruct O]. cbn [pari37 pari3 ellinit]. apply negb_true_iff, Z.eqb_neq. exact ns.
Qed.

(** ** A run *)
(** the first parameter drawn is 2, which stands for no field; the second is -2 *)
Definition family_draws (i : Z) (k : nat) : draw :=
  mkDraw 1 (if (k =? 0)%nat then 0 else 1) (fun n => 2) (fun n m => i + Z.of_nat n) (fun _ => 0%N) false curve_new false 0 None.
Definition family_run (io : Shell_Model.io_config) :=
  Shell_Model.main Shell_Props.by_length Shell_Props.all_files Shell_Props.all_files Shell_Props.no_limit [] true io true
    (exhaustive_do pari37 family_cfg1 CurveText_Props.hex_2 CurveText_Props.hex_2 CurveText_Props.dec_2 (fun _ => "?"%char) family_draws 8 200 0 "010"%char
      (snd (Plan_Model.exhaustive_init family_cfg1 [N_method])) 3)
    (Shell_Model.fresh (fun _ => None) []).
Example C83_run_example :
  let io := Shell_Model.mkIo (Some (list_ascii_of_string "o")) false None None in
  c_count family_cfg1 = 2 /\ family_ok pari37 family_cfg1 /\ in_family family_cfg1 /\
  prints CurveText_Props.hex_2 CurveText_Props.hex_2 CurveText_Props.dec_2 /\ Hex_Props.prints_hex CurveText_Props.hex_2 /\
  Shell_Spec.separate Shell_Props.by_length Shell_Props.all_files io /\
  Shell_Spec.input_is Shell_Props.by_length Shell_Props.all_files io (fun _ => None) [] "010"%char [] /\
  Shell_Spec.out_file Shell_Props.by_length Shell_Props.all_files io 1 /\
  snd (family_run io) = Some 0 /\ exists t, Shell_Model.files (fst (family_run io)) 1 = Some t /\ 500 <= Z.of_nat (length t).
Proof.
  intros io. split; [vm_compute; reflexivity|]. split; [exact pari_37|]. split; [exact family_scope|].
  split; [exact CurveText_Props.printers|]. split; [exact hex_2_digits|].
  split; [|split; [vm_compute; auto|split; [exists (list_ascii_of_string "o"); auto|]]].
  - intros i. split; [|split]; intros (A & B); destruct B as (g & B & _); discriminate B.
  - split; [vm_compute; reflexivity|]. eexists. split; [vm_compute; reflexivity|]. vm_compute. discriminate.
Qed.
(** The curve has 39 points, a multiple of 13. *)
Example C83_defined_example : Input_Props.delimiter "010"%char /\ c_hex_check family_cfg1 = None /\
  exists w, search pari37 family_cfg1 CurveText_Props.hex_2 8 "010"%char [] (family_draws 0) (snd (Plan_Model.exhaustive_init family_cfg1 [N_method])) 200 0 = (Engine_Model.Returned 1, w) /\
    k_order (w_curve w) = Some 39.
Proof. split; [vm_compute; auto|]. split; [vm_compute; reflexivity|]. eexists. split; vm_compute; reflexivity. Qed.

(** ** What the input can do *)
(** --fp --family=bls12 1, the parameter typed *)
Definition typed_family : config := match cli 4 [OFp; OFamily (lit "bls12")] [lit "1"] with Some (c, _) => c | None => cfg0 end.
(** At the end of the input input_int gives -2, which is a parameter of BLS12: the curve over 37 elements comes out though
    nobody asked for it. *)
Example family_at_eof : exists w,
  search pari37 typed_family CurveText_Props.hex_2 8 "010"%char [[]] (family_draws 0) (snd (Plan_Model.exhaustive_init typed_family [N_method])) 200 0 = (Engine_Model.Returned 1, w) /\
  k_field (w_curve w) = Some (Prime 37) /\ k_order (w_curve w) = Some 39.
Proof. eexists. split; [vm_compute; reflexivity|]. split; vm_compute; reflexivity. Qed.
