(** Examples for C85: runs over the binary fields of degree 3 with typed coefficients. *)
From Coq Require Import Ascii String.
From Verif Require Import Base GF2 Ec Irr_Spec Poly_Model Points_Model Random_Model Cli_Model Json_Spec CurveText_Spec.
From Verif Require Import Whole_Model Whole_Spec Whole_Stages Whole_Proofs Whole_Default Whole_Binary Whole_BinaryTyped Whole_Example Whole_BinaryEx.
From Verif Require CurveText_Props Plan_Model Engine_Model Shell_Model Shell_Spec Shell_Props Shell_Fields Hex_Props Input_Props Cli_Spec.
Import ListNotations.
Local Open Scope Z_scope.
Local Open Scope list_scope.

(** --f2m --random=field --count=2 --points=all 3; the coefficients are 77 (refused), -3 and 2, then 1 and 0x5 *)
Definition typed2_line : list copt := [OF2m; ORandom (Some (lit "field")); OCount (lit "2"); OPoints (lit "all")].
Definition typed2_cfg : config := match cli 4 typed2_line [lit "3"] with Some (c, _) => c | None => cfg0 end.
Definition typed2_input : str := lit "77,-3,2,1,0x5,".
Lemma typed2_scope : in_binary_typed typed2_cfg.
Proof. constructor; [..|exact irreducible_3|constructor]; vm_compute; intuition congruence. Qed.
Lemma usable_number u v : ~ In ","%char u -> Input_Props.number u v -> -8 < v -> v <> 8 -> usable ","%char 3 (u ++ [","%char]).
Proof. intros N V A B. right. exists u, [], true. split; [now constructor|]. right. exists v. auto. Qed.
Lemma typed2_usable : Forall (usable ","%char 3) (Shell_Fields.taken ","%char 5 typed2_input).
Proof.
  change (Forall (usable ","%char 3) [lit "77" ++ [","%char]; lit "-3" ++ [","%char]; lit "2" ++ [","%char]; lit "1" ++ [","%char]; lit "0x5" ++ [","%char]]).
  constructor; [|constructor; [|constructor; [|constructor; [|constructor; [|constructor]]]]].
  - apply usable_number with 77; [vm_compute; intuition discriminate| |lia|lia]. apply Input_Props.num_pos. change 77 with (Cli_Spec.dec (lit "77")). Input_Props.is_dec.
  - apply usable_number with (-3); [vm_compute; intuition discriminate| |lia|lia]. apply (Input_Props.num_neg (lit "3") 3). change 3 with (Cli_Spec.dec (lit "3")). Input_Props.is_dec.
  - apply usable_number with 2; [vm_compute; intuition discriminate| |lia|lia]. apply Input_Props.num_pos. change 2 with (Cli_Spec.dec (lit "2")). Input_Props.is_dec.
  - apply usable_number with 1; [vm_compute; intuition discriminate| |lia|lia]. apply Input_Props.num_pos. change 1 with (Cli_Spec.dec (lit "1")). Input_Props.is_dec.
  - apply usable_number with 5; [vm_compute; intuition discriminate| |lia|lia]. apply Input_Props.num_pos. apply (Input_Props.mag_hex "x"%char (lit "5") 5); [auto|discriminate|].
    apply (Input_Props.hexnum_snoc [] 0 "5"%char 5); [constructor|vm_compute; auto 25].
Qed.
Example C85_run_example :
  let io := Shell_Model.mkIo (Some (list_ascii_of_string "o")) false (Some (lit "in")) None in
  let fs := fun i => if (i =? 2)%nat then Some typed2_input else None in
  cli 4 typed2_line [lit "3"] <> None /\ c_count typed2_cfg = 2 /\ Plan_Model.is_random typed2_cfg RANDOM_A = false /\ Plan_Model.is_random typed2_cfg RANDOM_B = false /\
  pari_over pari3 (binary_over (c_bits typed2_cfg)) /\ in_binary_typed typed2_cfg /\
  Forall (usable ","%char (c_bits typed2_cfg)) (Shell_Fields.taken ","%char 5 typed2_input) /\
  Shell_Spec.separate Shell_Props.by_length Shell_Props.all_files io /\
  Shell_Spec.input_is Shell_Props.by_length Shell_Props.all_files io fs [] ","%char typed2_input /\
  Shell_Spec.out_file Shell_Props.by_length Shell_Props.all_files io 1 /\
  let '(w, status) := Shell_Model.main Shell_Props.by_length Shell_Props.all_files Shell_Props.all_files Shell_Props.no_limit [] true io true
    (exhaustive_do pari3 typed2_cfg CurveText_Props.hex_2 CurveText_Props.hex_2 CurveText_Props.dec_2 (fun _ => "?"%char) ex_draws 8 200 0 ","%char
      (snd (Plan_Model.exhaustive_init typed2_cfg [N_method])) 3)
    (Shell_Model.fresh fs []) in
  status = Some 0 /\ exists t, Shell_Model.files w 1 = Some t /\ 300 <= Z.of_nat (length t).
Proof.
  intros io fs. split; [vm_compute; discriminate|]. do 3 (split; [reflexivity|]).
  split; [exact pari3_binary|]. split; [exact typed2_scope|]. split; [exact typed2_usable|].
  split; [|split; [vm_compute; auto|split; [exists (list_ascii_of_string "o"); auto|]]].
  - intros i. split; [|split]; intros (A & B); destruct B as (g & B & C); try discriminate B.
    all: destruct A as (h & A & D); try discriminate A; try (injection A as <-; injection B as <-; vm_compute in *; intuition congruence).
  - vm_compute. split; [reflexivity|]. eexists. split; [reflexivity|]. vm_compute. discriminate.
Qed.
(** the coefficients that are published: 3 = |-3| and 2 *)
Definition typed2_one : config :=
  match cli 4 [OF2m; ORandom (Some (lit "field")); OPoints (lit "random")] [lit "3"] with Some (c, _) => c | None => cfg0 end.
Definition typed2_fields : list str := [lit "77,"; lit "-3,"; lit "2,"].
Example C85_defined_example : pari_over pari3 (binary_over (c_bits typed2_one)) /\ in_binary_typed typed2_one /\ safe typed2_one /\ c_bits typed2_one <> 1060 /\
  Forall (usable ","%char (c_bits typed2_one)) typed2_fields /\
  exists w, search pari3 typed2_one CurveText_Props.hex_2 8 ","%char typed2_fields (ex_draws 1) (snd (Plan_Model.exhaustive_init typed2_one [N_method])) 200 0 =
    (Engine_Model.Returned 1, w) /\ w_wrong w = None /\ option_map elem_int (k_a (w_curve w)) = Some 3 /\ option_map elem_int (k_b (w_curve w)) = Some 2.
Proof.
  split; [exact pari3_binary|]. split.
  { constructor; [..|exact irreducible_3|constructor]; try (vm_compute; intuition congruence). }
  split; [split; [reflexivity|right; reflexivity]|]. split; [discriminate|]. split.
  - change typed2_fields with (firstn 3 (Shell_Fields.taken ","%char 5 typed2_input)). pose proof typed2_usable as F. rewrite <- (firstn_skipn 3) in F. apply Forall_app in F. exact (proj1 F).
  - eexists. split; [vm_compute; reflexivity|]. split; [reflexivity|]. split; reflexivity.
Qed.
