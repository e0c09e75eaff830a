(** C12: the ANSI seed that is typed in. *)
From Coq Require Import Ascii String.
From Verif Require Import Base Bits_Model Bits_Spec Bits_Round Bits_Props Str_Model Str_Proofs Ansi_Spec Ansi_Model Ansi_Proofs Cli_Model Cli_Spec Cli_Proofs.
Local Open Scope nat_scope.
Local Open Scope list_scope.

(** At least 40 hexadecimal digits, with or without 0x, are taken and become the seed, digit for digit; everything else
    is refused and asked for again. *)
Theorem C12_seed_input : forall text t, 1 <= t -> (Z.of_nat (List.length text) < 2 ^ 29)%Z ->
  (forall digits, hex_body text digits -> 40 <= List.length digits ->
     exists sd, ansi_gen_seed_input text (Z.of_nat t) = Ok (Some sd) /\ seeded sd t /\
       List.length (bits_of (Ansi_Model.seed sd)) = 4 * List.length digits /\
       hex_text (List.length digits) (bval (bits_of (Ansi_Model.seed sd))) = map lower digits) /\
  ((~ exists digits, hex_body text digits /\ 40 <= List.length digits) -> ansi_gen_seed_input text (Z.of_nat t) = Ok None).
Proof.
  intros text t T L. split.
  - intros digits B N. assert (V : ansi_seed_valid text = true) by (apply ansi_valid_iff; exists digits; split; assumption).
    assert (H : str_is_hex text = Some digits) by (apply is_hex_body; exact B).
    assert (LL : List.length digits <= List.length text) by (destruct B as (_ & [(-> & _)|(x & _ & _ & ->)]); cbn [List.length]; lia).
    assert (X : Forall Bits_Spec.is_hex digits) by (destruct B as (B & _); apply Forall_impl with (2 := B); intros c C; apply isxdigit_in in C; revert C; clear; cbn; intuition).
    destruct (seed_argument_ok text digits t H X ltac:(lia) T) as (sd & E & S). exists sd. unfold ansi_gen_seed_input. rewrite V, E. split; [reflexivity|exact S].
  - intros N. unfold ansi_gen_seed_input. destruct (ansi_seed_valid text) eqn:V; [|reflexivity].
    exfalso. apply N. apply ansi_valid_iff in V. destruct V as (b & B & K). exists b. split; assumption.
Qed.
Example C12_seed_input_example : let text := lit "0xC49D360886E704936A6678E1139D26B7819F7E90" in
  hex_body text (lit "C49D360886E704936A6678E1139D26B7819F7E90") /\
  (exists sd, ansi_gen_seed_input text 256 = Ok (Some sd) /\ bval (bits_of (Ansi_Model.seed sd)) = 0xC49D360886E704936A6678E1139D26B7819F7E90%Z) /\
  ansi_gen_seed_input (lit "C49D360886E704936A6678E1139D26B7819F7E9") 256 = Ok None /\ ansi_gen_seed_input (lit "C49D360886E704936A6678E1139D26B7819F7E9g") 256 = Ok None.
Proof.
  split; [|split; [eexists; split; [vm_compute; reflexivity|vm_compute; reflexivity]|split; vm_compute; reflexivity]].
  split; [repeat constructor|]. right. exists "x"%char. split; [now left|]. split; [discriminate|reflexivity].
Qed.
Print Assumptions C12_seed_input.
