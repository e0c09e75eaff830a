(** C82: runs of the method for anomalous curves. *)
From Coq Require Import Ascii String Znumtheory.
From Verif Require Import Base Fp Primes Ec Poly_Model Points_Model Points_Props Gens_Props Cli_Model CurveText_Spec Whole_Model Whole_Spec Whole_Group Whole_Stages Whole_Proofs Whole_Default Whole_Anomalous Whole_Example.
From Verif Require Ec_Fp Anomalous_Props Supersingular_Props Factor CurveText_Model CurveText_Props Json_Spec Hex_Props Plan_Model Engine_Model Shell_Model Shell_Spec Shell_Props.
Local Open Scope Z_scope.
Local Open Scope list_scope.

(** ** PARI for these curves over the smallest field: 41 elements *)
Lemma curve_b_ok p a b : prime p -> 2 < p -> 0 <= a < p -> 0 <= b < p -> Ec_Fp.nonsingular p a b -> curve_b p a b = true -> pari_curve pari3 (Prime p) a b.
Proof.
  intros PP big A B ns C. unfold curve_b in C. cbv zeta in C.
  destruct (Z.eqb_spec ((4 * a ^ 3 + 27 * b ^ 2) mod p) 0) as [E|_]; [contradiction|]. rewrite !andb_true_iff in C. destruct C as ((((J & G) & N) & K) & D).
  apply Z.eqb_eq in J. apply Z.ltb_lt in N.
  assert (OK : curve_ok (Prime p) a b) by (constructor; [split; assumption|exact I|exact I|exact ns]).
  constructor; cbn [pari3 ell_get_j ellff_get_card ellsea ellff_get_gens ellmul ellorder znorder coredisc2 x_red]; rewrite ?(Z.mod_small a p A), ?(Z.mod_small b p B).
  - split; [apply Z.mod_pos_bound; lia|exact J].
  - reflexivity.
  - now left.
  - intros _. apply x_gens_ok; auto. destruct (x_gens (Prime p) a b) as [|[|] [|]]; [exact I..|discriminate G|exact I].
  - reflexivity.
  - intros Q On. now apply x_order_ok.
  - split.
    { intros CP. rewrite CP in K. cbn [Z.eqb negb orb Pos.eqb] in K. apply existsb_exists in K. destruct K as (k & I & K). apply in_upto in I.
      destruct (first_ok (fun k => (p ^ k - 1) mod points (Prime p) a b =? 0) (points (Prime p) a b) (ex_intro _ k (conj I K))) as (R & S & T).
      fold (x_znorder p (points (Prime p) a b)) in *. split; [lia|]. split; [apply Z.mod_divide; [lia|now apply Z.eqb_eq]|].
      intros j L X. specialize (T j L). apply Z.eqb_neq in T. apply T. apply Z.mod_divide; [lia|exact X]. }
    cbv zeta. destruct (x_coredisc2 ((p + 1 - points (Prime p) a b) ^ 2 - 4 * p)) as [d f]. rewrite !andb_true_iff in D. destruct D as ((D1 & D2) & D3).
    apply Z.eqb_eq in D1. apply Z.ltb_lt in D3. split; [exact D1|]. split; [now apply fundamental_b_ok|exact D3].
Qed.
Lemma pow_41 : 2 ^ 6 = 64. Proof. reflexivity. Qed.
Lemma only_41 p : anomalous_field p -> p < 2 ^ 6 -> p = 41.
Proof. rewrite pow_41. intros (_ & m & M & ->) L. assert (m = 0 \/ 1 <= m) as [->|N] by lia; [reflexivity|nia]. Qed.
(** the invariant modulo 41 *)
Definition j_41 : Z := (- 640320 ^ 3) mod 41.
Definition cm_41 (a b : Z) : bool :=
  if (1728 * (4 * a ^ 3) - j_41 * (4 * a ^ 3 + 27 * b ^ 2)) mod 41 =? 0 then if (4 * a ^ 3 + 27 * b ^ 2) mod 41 =? 0 then false else roots 41 (6 * (a * b)) + roots 41 (2 * 3 * 5 * 7 * 11 * 19 * 23 * 29 * 127) =? 2 else false.
Lemma cm_41_ok a b : cm_163 41 a b -> cm_41 a b = true.
Proof.
  intros (N & J & R). unfold cm_41. replace ((1728 * (4 * a ^ 3) - j_41 * (4 * a ^ 3 + 27 * b ^ 2)) mod 41 =? 0) with true.
  - cbn [nonsingular] in N. destruct (Z.eqb_spec ((4 * a ^ 3 + 27 * b ^ 2) mod 41) 0) as [E|_]; [contradiction|]. apply Z.eqb_eq. exact R.
  - symmetry. apply Z.eqb_eq. apply Z.mod_divide; [lia|]. unfold Supersingular_Props.has_invariant in J.
    replace (1728 * (4 * a ^ 3) - j_41 * (4 * a ^ 3 + 27 * b ^ 2)) with ((1728 * (4 * a ^ 3) - - 640320 ^ 3 * (4 * a ^ 3 + 27 * b ^ 2)) + (- 640320 ^ 3 - j_41) * (4 * a ^ 3 + 27 * b ^ 2)) by ring.
    apply Z.divide_add_r; [exact J|]. apply Z.divide_mul_l. unfold j_41. exists (- 640320 ^ 3 / 41). rewrite Z.mod_eq by lia. ring.
Qed.
Lemma all_41 : forallb (fun a => forallb (fun b => if cm_41 (a - 1) (b - 1) then if points (Prime 41) (a - 1) (b - 1) =? 41 then curve_b 41 (a - 1) (b - 1) else false else true) (upto 41)) (upto 41) = true.
Proof. vm_compute. reflexivity. Qed.
Lemma each_41 a b : 0 <= a < 41 -> 0 <= b < 41 -> cm_163 41 a b -> points (Prime 41) a b = 41 /\ curve_b 41 a b = true.
Proof.
  intros A B C. pose proof all_41 as H. rewrite forallb_forall in H. specialize (H (a + 1) ltac:(apply in_upto; lia)). rewrite forallb_forall in H. specialize (H (b + 1) ltac:(apply in_upto; lia)).
  replace (a + 1 - 1) with a in H by lia. replace (b + 1 - 1) with b in H by lia. rewrite (cm_41_ok a b C) in H.
  destruct (Z.eqb_spec (points (Prime 41) a b) 41) as [E|]; [|discriminate H]. auto.
Qed.
Lemma true_41 : anomalous_true 6.
Proof. intros p a b F L A B C. pose proof (only_41 p F L). subst p. exact (proj1 (each_41 a b A B C)). Qed.
Lemma pari_41 : anomalous_ok pari3 6.
Proof.
  destruct pari3_ok as [I R F D _]. constructor; [|exact Supersingular_Props.kron_ok]. constructor; [exact I|exact R|exact F|reflexivity|].
  intros [p|] a b O [_ _ _ ns]; [|destruct O]. destruct O as (AF & L & A & B & C). pose proof (only_41 p AF L). subst p.
  apply curve_b_ok; [exact (proj1 AF)|lia|exact A|exact B|exact ns|]. exact (proj2 (each_41 a b A B C)).
Qed.

(** ** A run *)
(** --fp --random --anomalous --count=2 --points=all --metadata 6 *)
Definition anomalous_line : list copt := [OFp; ORandom None; OAnomalous; OCount (lit "2"); OPoints (lit "all"); OMetadata].
Definition anomalous_cfg : config := match cli 4 anomalous_line [lit "6"] with Some (c, _) => c | None => cfg0 end.
Lemma anomalous_scope : in_anomalous anomalous_cfg.
Proof. constructor; vm_compute; intuition congruence. Qed.
Definition anomalous_draws (i : Z) (k : nat) : draw :=
  mkDraw (i + 3 * Z.of_nat k) 0 (fun n => i + 2 + Z.of_nat n) (fun n m => i + Z.of_nat n) (fun _ => 0%N) (k =? 1)%nat curve_new false 0 None.
Definition anomalous_run (io : Shell_Model.io_config) :=
  Shell_Model.main Shell_Props.by_length Shell_Props.all_files Shell_Props.all_files Shell_Props.no_limit [] true io true
    (exhaustive_do pari3 anomalous_cfg CurveText_Props.hex_2 CurveText_Props.hex_2 CurveText_Props.dec_2 (fun _ => "?"%char) anomalous_draws 8 200 0 "010"%char
      (snd (Plan_Model.cm_init anomalous_cfg false [N_method])) 3)
    (Shell_Model.fresh (fun _ => None) []).
Example C82_run_example :
  let io := Shell_Model.mkIo (Some (list_ascii_of_string "o")) false None None in
  c_count anomalous_cfg = 2 /\ anomalous_ok pari3 (c_bits anomalous_cfg) /\ anomalous_true (c_bits anomalous_cfg) /\ in_anomalous anomalous_cfg /\
  prints CurveText_Props.hex_2 CurveText_Props.hex_2 CurveText_Props.dec_2 /\ Hex_Props.prints_hex CurveText_Props.hex_2 /\
  Shell_Spec.separate Shell_Props.by_length Shell_Props.all_files io /\
  Shell_Spec.input_is Shell_Props.by_length Shell_Props.all_files io (fun _ => None) [] "010"%char [] /\
  Shell_Spec.out_file Shell_Props.by_length Shell_Props.all_files io 1 /\
  snd (anomalous_run io) = Some 0 /\ exists t, Shell_Model.files (fst (anomalous_run io)) 1 = Some t /\ 500 <= Z.of_nat (length t).
Proof.
  intros io. split; [vm_compute; reflexivity|]. split; [exact pari_41|]. split; [exact true_41|]. split; [exact anomalous_scope|].
  split; [exact CurveText_Props.printers|]. split; [exact hex_2_digits|].
  split; [|split; [vm_compute; auto|split; [exists (list_ascii_of_string "o"); auto|]]].
  - intros i. split; [|split]; intros (A & B); destruct B as (g & B & _); discriminate B.
  - split; [vm_compute; reflexivity|]. eexists. split; [vm_compute; reflexivity|]. vm_compute. discriminate.
Qed.
Example C82_defined_example : c_hex_check anomalous_cfg = None /\
  exists w, search pari3 anomalous_cfg CurveText_Props.hex_2 8 "010"%char [] (anomalous_draws 0) (snd (Plan_Model.cm_init anomalous_cfg false [N_method])) 200 0 = (Engine_Model.Returned 1, w) /\
    k_order (w_curve w) = Some 41.
Proof. split; [vm_compute; reflexivity|]. eexists. split; vm_compute; reflexivity. Qed.
