(** C78: runs of the method of ANSI X9.62, and what is not true of them. *)
From Coq Require Import Ascii String Znumtheory.
From Verif Require Import Base Fp Poly_Model Cli_Model CurveText_Spec Whole_Model Whole_Spec Whole_Proofs Whole_Default Whole_Ansi Whole_Example.
From Verif Require Bits_Ops Ansi_Spec Ansi_Model Ansi_Proofs Ansi_Props Bits_Spec Cli_Spec Cli_Proofs Hash_Proofs Input_Model Input_Props CurveText_Model CurveText_Props Hex_Props Plan_Model Engine_Model Shell_Model Shell_Spec Shell_Props.
Local Open Scope Z_scope.
Local Open Scope list_scope.

Print Assumptions C78_run_partial.
Print Assumptions C78_defined_partial.

(** ** PARI, by trying *)
Lemma in_residues p y : In y (map Z.of_nat (seq 0 (Z.to_nat p))) <-> 0 <= y < p.
Proof.
  rewrite in_map_iff. split.
  - intros (n & <- & H). apply in_seq in H. lia.
  - intros H. exists (Z.to_nat y). split; [lia|]. apply in_seq. lia.
Qed.
Lemma pari3_ansi : ansi_ok pari3.
Proof.
  constructor; cbn [pari3 Fp_invsafe Fp_issquare Fp_sqrt].
  - intros p x y _. apply Ansi_Props.inv_small_ok.
  - intros p x Pp H. destruct (Z.eq_dec (x mod p) 0) as [E|E]; [exact E|]. exfalso. pose proof (prime_ge_2 p Pp) as P2.
    assert (RP : rel_prime x p).
    { apply rel_prime_sym, prime_rel_prime; [exact Pp|]. intros D. apply E. apply Z.mod_divide; [lia|exact D]. }
    destruct (rel_prime_bezout _ _ RP) as [u v B]. unfold Ansi_Props.inv_small, Ansi_Props.find_z in H.
    pose proof (find_none _ _ H (u mod p)) as N. cbv beta in N. rewrite in_residues in N. specialize (N ltac:(apply Z.mod_pos_bound; lia)).
    apply Z.eqb_neq in N. apply N. rewrite Zmult_mod_idemp_r. replace (x * u) with (1 + - v * p) by lia. now rewrite Z_mod_plus_full.
  - intros p x Pp H. split; [now apply Ansi_Props.issq_small_ok|]. pose proof (prime_ge_2 p Pp) as P2. unfold Ansi_Props.sqrt_small, Ansi_Props.find_z.
    destruct (find _ _) as [y|] eqn:E; [|lia]. apply find_some in E. apply in_residues. apply E.
Qed.

(** ** A run whose seeds and fields are typed *)
Definition seed1 : str := lit "0x0000000000000000000000000000000000000005".
Definition seed2 : str := lit "10000000000000000000000000000000000000000".
(** --fp --ansi --count=2 --points=all --metadata 3: c0ffee is too short, 9 is no prime, and seed2 is
    read twice because of a timeout *)
Definition ansi_line : list copt := [OFp; OAnsi None; OCount (lit "2"); OPoints (lit "all"); OMetadata].
Definition ansi_cfg : config := match cli 4 ansi_line [lit "3"] with Some (c, _) => c | None => cfg0 end.
Definition ansi_input : str := lit "c0ffee," ++ seed1 ++ lit ",9,7," ++ seed2 ++ lit "," ++ seed2 ++ lit ",7,".
Lemma ansi_scope : in_ansi ansi_cfg.
Proof.
  split; [reflexivity|]. constructor; [reflexivity..|intros u H; vm_compute in H; discriminate H|constructor; vm_compute; intuition congruence].
Qed.
Example C78_run_example :
  let io := Shell_Model.mkIo (Some (list_ascii_of_string "o")) false (Some (lit "in")) None in
  let fs := fun i => if (i =? 2)%nat then Some ansi_input else None in
  cli 4 ansi_line [lit "3"] <> None /\ c_count ansi_cfg = 2 /\
  pari_ok pari3 (c_bits ansi_cfg) /\ ansi_ok pari3 /\ in_ansi ansi_cfg /\
  Shell_Spec.separate Shell_Props.by_length Shell_Props.all_files io /\
  Shell_Spec.input_is Shell_Props.by_length Shell_Props.all_files io fs [] ","%char ansi_input /\
  Shell_Spec.out_file Shell_Props.by_length Shell_Props.all_files io 1 /\
  let '(w, status) := Shell_Model.main Shell_Props.by_length Shell_Props.all_files Shell_Props.all_files Shell_Props.no_limit [] true io true
    (exhaustive_do pari3 ansi_cfg CurveText_Props.hex_2 CurveText_Props.hex_2 CurveText_Props.dec_2 (fun _ => "?"%char) ex_draws 8 200 0 ","%char
      (snd (Plan_Model.exhaustive_init ansi_cfg [N_method])) 3)
    (Shell_Model.fresh fs []) in
  status = Some 0 /\ exists t, Shell_Model.files w 1 = Some t /\ 1000 <= Z.of_nat (length t).
Proof.
  intros io fs. split; [vm_compute; discriminate|]. split; [reflexivity|].
  split; [exact pari3_ok|]. split; [exact pari3_ansi|]. split; [exact ansi_scope|].
  split; [|split; [vm_compute; auto|split; [exists (list_ascii_of_string "o"); auto|]]].
  - intros i. split; [|split]; intros (A & B); destruct B as (g & B & C); try discriminate B.
    all: destruct A as (h & A & D); try discriminate A; try (injection A as <-; injection B as <-; vm_compute in *; intuition congruence).
  - vm_compute. split; [reflexivity|]. eexists. split; [reflexivity|]. vm_compute. discriminate.
Qed.

(** ** A seed from the command line *)
Lemma spells_one digits bs bs' : spells digits bs -> spells digits bs' -> bs = bs'.
Proof.
  intros (L & H) (L' & H'). assert (B : forall l, length l = (4 * length digits)%nat -> 0 <= bval l < 16 ^ Z.of_nat (length digits)).
  { intros l E. pose proof (Bits_Ops.bval_bound l) as X. rewrite E in X. change 16 with (2 ^ 4). rewrite <- Z.pow_mul_r by lia. rewrite Nat2Z.inj_mul in X. exact X. }
  pose proof (CurveText_Props.hex_text_reads _ _ (B bs L)) as R. rewrite H in R. rewrite <- H', (CurveText_Props.hex_text_reads _ _ (B bs' L')) in R. injection R as R.
  rewrite <- (Hash_Proofs.be_bval _ bs L), <- (Hash_Proofs.be_bval _ bs' L'), R. reflexivity.
Qed.
Lemma body_one u b b' : Cli_Spec.hex_body u b -> Cli_Spec.hex_body u b' -> b = b'.
Proof.
  intros (X & H) (X' & H'). destruct H as [(-> & N)|(x & Hx & NE & ->)], H' as [(E & N')|(x' & Hx' & NE' & E)].
  - exact E.
  - exfalso. apply N. exists x', b'. auto.
  - exfalso. apply N'. exists x, b. auto.
  - injection E as _ E. exact E.
Qed.
(** --fp --random=field --ansi=... --points=random --unique 3 *)
Definition ansi_cfg2 : config :=
  match cli 4 [OFp; ORandom (Some (lit "field")); OAnsi (Some seed1); OPoints (lit "random"); OUnique] [lit "3"] with Some (c, _) => c | None => cfg0 end.
Lemma ansi_scope2 : in_ansi ansi_cfg2.
Proof.
  split; [reflexivity|]. constructor; [reflexivity..| |constructor; vm_compute; intuition congruence].
  intros u H. assert (E : Cli_Model.c_seed ansi_cfg2 = Some seed1) by reflexivity. rewrite E in H. injection H as <-. split; vm_compute; reflexivity.
Qed.
Definition seed1_bits : list bool := repeat false 157 ++ [true; false; true].
Lemma seed1_spelled bs : seed_spelled seed1 bs -> bs = seed1_bits.
Proof.
  intros (digits & B & _ & Sp). assert (D : Cli_Spec.hex_body seed1 (skipn 2 seed1)).
  { split; [apply Forall_forall, forallb_forall; vm_compute; reflexivity|]. right. exists "x"%char. split; [left; reflexivity|]. split; [discriminate|reflexivity]. }
  rewrite (body_one _ _ _ B D) in Sp. apply (spells_one _ _ _ Sp). split; vm_compute; reflexivity.
Qed.
Example C78_defined_example : pari_ok pari3 (c_bits ansi_cfg2) /\ ansi_ok pari3 /\ in_ansi ansi_cfg2 /\ safe ansi_cfg2 /\
  Plan_Model.is_random ansi_cfg2 RANDOM_FIELD = true /\ Cli_Model.c_seed ansi_cfg2 <> None /\
  (forall bs, seed_given ansi_cfg2 "010"%char [] bs -> Ansi_Spec.ansi_r padded_sha1 bs (Z.to_nat (c_bits ansi_cfg2)) <> 0) /\
  exists w, search pari3 ansi_cfg2 CurveText_Props.hex_2 8 "010"%char [] (ex_draws 2) (snd (Plan_Model.exhaustive_init ansi_cfg2 [N_method])) 200 0 =
    (Engine_Model.Returned 1, w) /\ w_wrong w = None /\ k_field (w_curve w) = Some (Prime 5) /\ k_a (w_curve w) = Some (Int 7) /\ k_b (w_curve w) = Some (Int 1).
Proof.
  split; [exact pari3_ok|]. split; [exact pari3_ansi|]. split; [exact ansi_scope2|]. split; [split; [reflexivity|right; reflexivity]|].
  split; [reflexivity|]. split; [discriminate|]. split.
  - intros bs. change (seed_given ansi_cfg2 "010"%char [] bs) with (@nil str = [] /\ seed_spelled seed1 bs). intros (_ & H). rewrite (seed1_spelled bs H).
    vm_compute. discriminate.
  - eexists. split; [vm_compute; reflexivity|]. repeat split.
Qed.

(** ** What is not true of such runs *)
(** The seed that is printed is not always the one the curve was made from: a seed with an odd number of digits is printed
    with one more, and what X9.62 makes of those digits does not fit the curve. --fp --ansi=10...0 3 *)
Definition ansi_cfg3 : config := match cli 4 [OFp; OAnsi (Some seed2)] [lit "3"] with Some (c, _) => c | None => cfg0 end.
Lemma ansi_scope3 : in_ansi ansi_cfg3.
Proof.
  split; [reflexivity|]. constructor; [reflexivity..| |constructor; vm_compute; intuition congruence].
  intros u H. assert (E : Cli_Model.c_seed ansi_cfg3 = Some seed2) by reflexivity. rewrite E in H. injection H as <-. split; vm_compute; reflexivity.
Qed.
Theorem C78_printed_refuted : exists P cfg l w c text bs, pari_ok P (c_bits cfg) /\ ansi_ok P /\ in_ansi cfg /\
  search P cfg CurveText_Props.hex_2 8 ","%char l (ex_draws 0) (snd (Plan_Model.exhaustive_init cfg [N_method])) 200 0 = (Engine_Model.Returned 1, w) /\
  w_wrong w = None /\ to_output (w_curve w) = Ok c /\ CurveText_Model.c_field c = Prime 7 /\
  option_map seed_text (CurveText_Model.c_seed c) = Some text /\ seed_spelled text bs /\
  (Ansi_Spec.ansi_r padded_sha1 bs (Z.to_nat (c_bits cfg)) * elem_int (CurveText_Model.c_b c) ^ 2) mod 7 <> elem_int (CurveText_Model.c_a c) ^ 3 mod 7.
Proof.
  exists pari3, ansi_cfg3, [lit "7,"]. eexists _, _, _. exists (repeat false 7 ++ true :: repeat false 160).
  split; [exact pari3_ok|]. split; [exact pari3_ansi|]. split; [exact ansi_scope3|]. split; [vm_compute; reflexivity|]. split; [reflexivity|].
  split; [vm_compute; reflexivity|]. split; [reflexivity|]. split; [vm_compute; reflexivity|]. split.
  - exists ("0"%char :: seed2). split; [|split; [vm_compute; lia|split; vm_compute; reflexivity]].
    split; [apply Forall_forall, forallb_forall; vm_compute; reflexivity|]. right. exists "x"%char. split; [left; reflexivity|]. split; [discriminate|reflexivity].
  - vm_compute. discriminate.
Qed.
Print Assumptions C78_printed_refuted.
(** The seed of P-256 has r = 0 for three bits, and the run is undefined (see C13_zero_r_refuted). *)
Theorem C78_defined_refuted : exists P cfg l w, pari_ok P (c_bits cfg) /\ ansi_ok P /\ in_ansi cfg /\ safe cfg /\
  search P cfg CurveText_Props.hex_2 8 ","%char l (ex_draws 0) (snd (Plan_Model.exhaustive_init cfg [N_method])) 200 0 = (Engine_Model.Returned 0, w) /\
  w_wrong w = Some Undefined.
Proof.
  exists pari3, ansi_cfg, [lit "C49D360886E704936A6678E1139D26B7819F7E90,"; lit "C49D360886E704936A6678E1139D26B7819F7E90,"; lit "7,"]. eexists. split; [exact pari3_ok|]. split; [exact pari3_ansi|]. split; [exact ansi_scope|].
  split; [split; [reflexivity|right; reflexivity]|]. split; [vm_compute; reflexivity|]. reflexivity.
Qed.
Print Assumptions C78_defined_refuted.
(** When the input ends where a seed is expected, the run does not: the empty string is no seed, and is read again and
    again. However many steps are waited for, the search is not over. *)
Theorem C78_end_never : forall P cfg hexw tries d draws fuel av u, in_ansi_any cfg -> Cli_Model.c_seed cfg = None -> Plan_Model.is_random cfg RANDOM_SEED = false ->
  (forall n, d_timeout (draws n) = false) ->
  fst (search P cfg hexw tries d (repeat [] fuel) draws (snd (Plan_Model.exhaustive_init cfg u)) fuel av) = Engine_Model.NoFuel.
Proof.
  intros P cfg hexw tries d draws fuel av u IA NS NR NT. rewrite (ansi_plan cfg u IA). unfold search, Engine_Model.exhaustive_gen, Engine_Model.exhaustive_gen_retry.
  assert (SF : seed_f cfg = Plan_Model.ansi_gen_seed_input) by (unfold seed_f; rewrite NS, NR; reflexivity). rewrite SF.
  change (0 =? 9) with false. change (0 >? 9) with false. cbn iota.
  match goal with |- context [Engine_Model.run ?su _ _ _ fuel] => set (S := su) end.
  assert (R : forall n k w av tops tr, (k + n <= fuel)%nat -> w_pos w = k ->
    snd (fst (Engine_Model.run S 0 9 0 n (Engine_Model.mkLoc 0 w av tops tr))) = Engine_Model.NoFuel).
  { induction n as [|n IH]; intros k w av' tops tr L K; [reflexivity|]. cbn [Engine_Model.run Engine_Model.state]. change (0 <? 9) with true. cbn iota.
    assert (St : exists ev w' tops', Engine_Model.step S 0 0 (Engine_Model.mkLoc 0 w av' tops tr) = (ev, inl (Engine_Model.mkLoc 0 w' av' tops' tr)) /\ w_pos w' = Datatypes.S k).
    { assert (G : stage P cfg tries d (repeat [] fuel) draws Plan_Model.ansi_gen_seed_input None w av' =
        (mkWorld (w_curve w) (Datatypes.S (w_calls w)) (Datatypes.S k) (w_wrong w), d_avma (draws (w_calls w)), Engine_Model.Ret 0)).
      { unfold stage. rewrite NT, repeat_length, K. cbn [reads negb orb andb]. rewrite (proj2 (Nat.leb_gt fuel k)) by lia. rewrite nth_repeat. reflexivity. }
      unfold Engine_Model.step. cbn [Engine_Model.state Engine_Model.world Engine_Model.avma Engine_Model.tops Engine_Model.tries].
      change (Engine_Model.generators S 0) with (Some (stage P cfg tries d (repeat [] fuel) draws Plan_Model.ansi_gen_seed_input None)). cbn iota. rewrite G.
      change (Engine_Model.validators S 0) with (@None (list (world -> world * Z))). cbn. eexists _, _, _. split; [reflexivity|]. reflexivity. }
    destruct St as (ev & w' & tops' & -> & K'). pose proof (IH (Datatypes.S k) w' av' tops' tr ltac:(lia) K') as X.
    destruct (Engine_Model.run S 0 9 0 n _) as [[ev' r] w2]. exact X. }
  pose proof (R fuel 0%nat (mkWorld (curve_start draws) 0 0 None) av (fun i => if i =? 0 then av else 0) (fun _ => 0) ltac:(lia) eq_refl) as X.
  destruct (Engine_Model.run S 0 9 0 fuel _) as [[ev r] w]. exact X.
Qed.
Print Assumptions C78_end_never.
Example C78_end_never_example : in_ansi_any ansi_cfg /\ Cli_Model.c_seed ansi_cfg = None /\ Plan_Model.is_random ansi_cfg RANDOM_SEED = false /\
  fst (search pari3 ansi_cfg CurveText_Props.hex_2 8 ","%char (repeat [] 50) (fun k => ex_draws 0 (2 + k)) (snd (Plan_Model.exhaustive_init ansi_cfg [N_method])) 50 0) = Engine_Model.NoFuel.
Proof. split; [exact (proj2 ansi_scope)|]. split; [reflexivity|]. split; [reflexivity|]. vm_compute. reflexivity. Qed.
