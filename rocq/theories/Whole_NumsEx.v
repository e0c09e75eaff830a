(** C81: runs of the NUMS method, and what is not true of them. *)
From Coq Require Import Ascii String Znumtheory.
From Verif Require Import Base Fp Primes Ec Poly_Model Points_Model Cli_Model CurveText_Spec Whole_Model Whole_Spec Whole_Proofs Whole_Default Whole_Nums Whole_Example Whole_BrainpoolEx.
From Verif Require CurveText_Model CurveText_Props Json_Spec Hex_Props Plan_Model Engine_Model Shell_Model Shell_Spec Shell_Props.
Local Open Scope Z_scope.
Local Open Scope list_scope.

Lemma pari7_nums : nums_ok pari7 3.
Proof.
  destruct pari7_brainpool as [_ A _ _ _ _ B]. constructor; [exact A|exact B|]. intros p a b x _ _. cbn [pari7 ellordinate]. apply NoDup_filter. apply Fp.elements_nodup.
Qed.
Definition nums_line : list copt := [OFp; ONums; OCount (lit "2"); OPoints (lit "all")].
Definition nums_cfg : config := match cli 4 nums_line [lit "3"] with Some (c, _) => c | None => cfg0 end.
Lemma nums_scope : in_nums nums_cfg.
Proof. constructor; vm_compute; intuition congruence. Qed.
Definition calm (i : Z) (k : nat) : draw := mkDraw (i + 3 * Z.of_nat k) 0 (fun n => i + Z.of_nat n) (fun n m => i + Z.of_nat n) (fun _ => 0%N) false curve_new false 0 None.
(** the second curve is stored where the first one was *)
Definition again (i : Z) (k : nat) : draw :=
  mkDraw (i + 3 * Z.of_nat k) 0 (fun n => i + Z.of_nat n) (fun n m => i + Z.of_nat n) (fun _ => 0%N) false curve_new false 0 (if i =? 0 then None else Some 1).
Lemma calm_alone : undisturbed nums_cfg calm.
Proof. split; [reflexivity|]. split; [reflexivity|]. vm_compute. reflexivity. Qed.
Definition nums_run (draws : Z -> nat -> draw) (io : Shell_Model.io_config) :=
  Shell_Model.main Shell_Props.by_length Shell_Props.all_files Shell_Props.all_files Shell_Props.no_limit [] true io true
    (exhaustive_do pari7 nums_cfg CurveText_Props.hex_2 CurveText_Props.hex_2 CurveText_Props.dec_2 (fun _ => "?"%char) draws 60 200 0 "010"%char
      (snd (Plan_Model.exhaustive_init nums_cfg [N_method])) 3)
    (Shell_Model.fresh (fun _ => None) []).
Example C81_run_example :
  let io := Shell_Model.mkIo (Some (list_ascii_of_string "o")) false None None in
  c_count nums_cfg = 2 /\ pari_ok pari7 (c_bits nums_cfg) /\ nums_ok pari7 (c_bits nums_cfg) /\ in_nums nums_cfg /\ undisturbed nums_cfg calm /\
  prints CurveText_Props.hex_2 CurveText_Props.hex_2 CurveText_Props.dec_2 /\ Hex_Props.prints_hex CurveText_Props.hex_2 /\
  Shell_Spec.separate Shell_Props.by_length Shell_Props.all_files io /\
  Shell_Spec.input_is Shell_Props.by_length Shell_Props.all_files io (fun _ => None) [] "010"%char [] /\
  Shell_Spec.out_file Shell_Props.by_length Shell_Props.all_files io 1 /\
  snd (nums_run calm io) = Some 0 /\ exists t, Shell_Model.files (fst (nums_run calm io)) 1 = Some t /\ 500 <= Z.of_nat (length t).
Proof.
  intros io. split; [vm_compute; reflexivity|]. split; [exact pari7_ok|]. split; [exact pari7_nums|]. split; [exact nums_scope|]. split; [exact calm_alone|].
  split; [exact CurveText_Props.printers|]. split; [exact hex_2_digits|].
  split; [|split; [vm_compute; auto|split; [exists (list_ascii_of_string "o"); auto|]]].
  - intros i. split; [|split]; intros (A & B); destruct B as (g & B & _); discriminate B.
  - split; [vm_compute; reflexivity|]. eexists. split; [vm_compute; reflexivity|]. vm_compute. discriminate.
Qed.
Definition one_nums (draws : Z -> nat -> draw) (i : Z) := search pari7 nums_cfg CurveText_Props.hex_2 60 "010"%char [] (draws i) (snd (Plan_Model.exhaustive_init nums_cfg [N_method])) 200 0.
Definition curve_of (w : world) : option (Z * Z * list (option (Z * Z))) :=
  match k_a (w_curve w), k_b (w_curve w), k_gens (w_curve w) with
  | Some a, Some b, Some g => Some (elem_int a, elem_int b, map (fun s => p_point (s_gen s)) g)
  | _, _, _ => None
  end.
(** p = 7: y^2 = x^3 + 4 x + 1 has 5 points, its twist has 11 *)
Example C81_defined_example : c_hex_check nums_cfg = None /\ exists w, one_nums calm 0 = (Engine_Model.Returned 1, w) /\ curve_of w = Some (4, 1, [Some (4, 2)]).
Proof. split; [vm_compute; reflexivity|]. eexists. split; vm_compute; reflexivity. Qed.
(** The least b is given up when the curve is stored at the address of the one before (see C20): b = 1 will do, b = 6 is
    printed. *)
Theorem C81_least_refuted : exists draws w, pari_ok pari7 3 /\ nums_ok pari7 3 /\ in_nums nums_cfg /\ (forall i n, d_timeout (draws i n) = false) /\ c_hex_check nums_cfg = None /\
  (exists w0, one_nums draws 0 = (Engine_Model.Returned 1, w0) /\ k_static (w_curve w0) = d_static (draws 1 0%nat) /\ exists g, curve_of w0 = Some (4, 1, g)) /\
  one_nums draws 1 = (Engine_Model.Returned 1, w) /\ exists g, curve_of w = Some (4, 6, g).
Proof.
  exists again. eexists. split; [exact pari7_ok|]. split; [exact pari7_nums|]. split; [exact nums_scope|]. split; [reflexivity|]. split; [vm_compute; reflexivity|].
  split; [eexists; split; [vm_compute; reflexivity|]; split; [vm_compute; reflexivity|]; eexists; vm_compute; reflexivity|].
  split; [vm_compute; reflexivity|]. eexists. vm_compute. reflexivity.
Qed.
Print Assumptions C81_least_refuted.
