(** Examples for C79: runs over the binary fields of degree 3. *)
From Coq Require Import Ascii String.
From Verif Require Import Base GF2 Ec Irr_Spec Poly_Model Points_Model Random_Model Cli_Model Json_Spec CurveText_Spec.
From Verif Require Import Whole_Model Whole_Spec Whole_Stages Whole_Proofs Whole_Default Whole_Binary Whole_Example.
From Verif Require Ec_F2m Irr_Props CurveText_Model CurveText_Props Plan_Model Engine_Model Shell_Model Shell_Spec Shell_Props Hex_Props Koblitz_Model Factor.
Import ListNotations.
Local Open Scope Z_scope.
Local Open Scope list_scope.

(** ** The contract *)
Lemma cubic c : binary_over 3 (Binary c) -> c = [1; 1; 0; 1] \/ c = [1; 0; 1; 1].
Proof.
  intros (Ir & L & N & F). destruct c as [|x [|y [|z [|t [|]]]]]; try discriminate L. change (t = 1) in N. subst t.
  inversion F as [|? ? X F1]; subst. inversion F1 as [|? ? Y F2]; subst. inversion F2 as [|? ? Z F3]; subst. clear F F1 F2 F3 L.
  apply Irr_Props.irreducible_to_N in Ir. destruct Ir as (_ & Ir).
  destruct X as [-> | ->], Y as [-> | ->], Z as [-> | ->]; auto; exfalso.
  - specialize (Ir 2 4)%N. vm_compute in Ir. intuition congruence.
  - specialize (Ir 2 6)%N. vm_compute in Ir. intuition congruence.
  - specialize (Ir 2 5)%N. vm_compute in Ir. intuition congruence.
  - specialize (Ir 2 7)%N. vm_compute in Ir. intuition congruence.
  - specialize (Ir 3 7)%N. vm_compute in Ir. intuition congruence.
  - specialize (Ir 3 5)%N. vm_compute in Ir. intuition congruence.
Qed.
Definition curve2_b (c : list Z) (a b : Z) : bool :=
  if b =? 0 then true else
  let j := Ec_F2m.binv (to_N c) b in
  (0 <=? j) && (j <? 8) && (Ec_F2m.bmul (to_N c) j b =? 1) && match x_gens (Binary c) a b with [None] => false | _ => true end.
Lemma all_cubic : forallb (fun c => forallb (fun a => forallb (fun b => curve2_b c (a - 1) (b - 1)) (upto 8)) (upto 8)) [[1; 1; 0; 1]; [1; 0; 1; 1]] = true.
Proof. vm_compute. reflexivity. Qed.
Lemma cubic_curve c a b : binary_over 3 (Binary c) -> 0 <= a < 8 -> 0 <= b < 8 -> curve2_b c a b = true.
Proof.
  intros C A B. pose proof all_cubic as H. rewrite forallb_forall in H. specialize (H c ltac:(destruct (cubic c C) as [-> | ->]; cbn; auto)). rewrite forallb_forall in H.
  specialize (H (a + 1) ltac:(apply in_upto; lia)). rewrite forallb_forall in H. specialize (H (b + 1) ltac:(apply in_upto; lia)).
  replace (a + 1 - 1) with a in H by lia. replace (b + 1 - 1) with b in H by lia. exact H.
Qed.
Lemma pari3_binary : pari_over pari3 (binary_over 3).
Proof.
  destruct pari3_ok as [I1 I2 I3 _ _]. constructor; [exact I1|exact I2|exact I3|reflexivity|].
  intros [p|c] a b CO OK; [destruct CO|]. destruct (degree_bits 3 c ltac:(lia) CO) as (_ & SZ). change (2 ^ 3) with 8 in SZ.
  pose proof (proj1 (inside_bits 3 c a ltac:(lia) CO) (co_a _ _ _ OK)) as A. pose proof (proj1 (inside_bits 3 c b ltac:(lia) CO) (co_b _ _ _ OK)) as B.
  pose proof (cubic_curve c a b CO A B) as C. unfold curve2_b in C. cbv zeta in C. destruct (Z.eqb_spec b 0) as [->|Nb]; [exfalso; exact (co_ns _ _ _ OK eq_refl)|].
  rewrite !andb_true_iff, Z.leb_le, Z.ltb_lt, Z.eqb_eq in C. destruct C as (((J0 & J1) & J) & G).
  constructor; cbn [pari3 ell_get_j ellff_get_card ellsea ellff_get_gens ellmul ellorder x_red].
  - split; [rewrite SZ; lia|exact J].
  - reflexivity.
  - now left.
  - intros _. apply x_gens_ok; auto. destruct (x_gens (Binary c) a b) as [|[|] [|]]; [exact I..|discriminate G|exact I].
  - reflexivity.
  - intros Q On. now apply x_order_ok.
  - exact I.
Qed.

(** ** A run: --f2m --random --count=2 --points=all --metadata --hex-check=4 3 *)
Definition line2 : list copt := [OF2m; ORandom None; OCount (lit "2"); OPoints (lit "all"); OMetadata; OHexcheck (lit "4")].
Definition binary_cfg : config := match cli 4 line2 [lit "3"] with Some (c, _) => c | None => cfg0 end.
Lemma poly_3 : field_binaryr 3 = Ok [1; 1; 0; 1]. Proof. vm_compute. reflexivity. Qed.
Lemma irreducible_3 c : field_binaryr 3 = Ok c -> irreducible_poly c.
Proof. destruct (Irr_Props.C42_irreducible_partial 3 ltac:(lia)) as (c' & E & Ir & _). intros H. rewrite H in E. injection E as <-. exact Ir. Qed.
Lemma binary_scope : in_binary binary_cfg.
Proof. constructor; [..|exact irreducible_3|constructor]; vm_compute; intuition congruence. Qed.
Example C79_run_example :
  let io := Shell_Model.mkIo (Some (list_ascii_of_string "o")) false None None in
  cli 4 line2 [lit "3"] <> None /\ c_count binary_cfg = 2 /\ c_metadata binary_cfg = true /\ c_points_type binary_cfg = POINTS_ALL /\
  pari_over pari3 (binary_over (c_bits binary_cfg)) /\ in_binary binary_cfg /\ prints CurveText_Props.hex_2 CurveText_Props.hex_2 CurveText_Props.dec_2 /\
  Hex_Props.prints_hex CurveText_Props.hex_2 /\
  Shell_Spec.separate Shell_Props.by_length Shell_Props.all_files io /\
  Shell_Spec.input_is Shell_Props.by_length Shell_Props.all_files io (fun _ => None) [] "010"%char [] /\
  Shell_Spec.out_file Shell_Props.by_length Shell_Props.all_files io 1 /\
  let '(w, status) := Shell_Model.main Shell_Props.by_length Shell_Props.all_files Shell_Props.all_files Shell_Props.no_limit [] true io true
    (exhaustive_do pari3 binary_cfg CurveText_Props.hex_2 CurveText_Props.hex_2 CurveText_Props.dec_2 (fun _ => "?"%char) ex_draws 8 200 0 "010"%char
      (snd (Plan_Model.exhaustive_init binary_cfg [N_method])) 3)
    (Shell_Model.fresh (fun _ => None) []) in
  status = Some 0 /\ exists t, Shell_Model.files w 1 = Some t /\ 1000 <= Z.of_nat (length t).
Proof.
  intros io. split; [vm_compute; discriminate|]. do 3 (split; [reflexivity|]).
  split; [exact pari3_binary|]. split; [exact binary_scope|]. split; [exact CurveText_Props.printers|]. split; [exact hex_2_digits|].
  split; [|split; [vm_compute; auto|split; [exists (list_ascii_of_string "o"); auto|]]].
  - intros i. split; [|split]; intros (A & B); destruct B as (g & B & _); discriminate B.
  - vm_compute. split; [reflexivity|]. eexists. split; [reflexivity|]. vm_compute. discriminate.
Qed.
(** a Koblitz curve: --f2m --random --koblitz=1 --points=random 3 *)
Definition koblitz2_cfg : config :=
  match cli 4 [OF2m; ORandom None; OKoblitz (Some (lit "1")); OPoints (lit "random")] [lit "3"] with Some (c, _) => c | None => cfg0 end.
Example C79_defined_example : pari_over pari3 (binary_over (c_bits koblitz2_cfg)) /\ in_binary koblitz2_cfg /\ safe koblitz2_cfg /\ c_koblitz koblitz2_cfg = true /\
  c_bits koblitz2_cfg <> 1060 /\
  exists w, search pari3 koblitz2_cfg CurveText_Props.hex_2 8 "010"%char [] (ex_draws 1) (snd (Plan_Model.exhaustive_init koblitz2_cfg [N_method])) 200 0 =
    (Engine_Model.Returned 1, w) /\ w_wrong w = None.
Proof.
  split; [exact pari3_binary|]. split.
  { constructor; [..|exact irreducible_3|constructor]; try (vm_compute; intuition congruence). }
  split; [|split; [reflexivity|split; [discriminate|]]].
  - split; [reflexivity|right; reflexivity].
  - eexists. split; [vm_compute; reflexivity|reflexivity].
Qed.
