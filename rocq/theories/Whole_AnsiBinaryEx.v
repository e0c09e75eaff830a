(** C84: runs of the method of ANSI X9.62 over the binary field of degree 3, and what is not true of them. *)
From Coq Require Import Ascii String.
From Verif Require Import Base Poly_Model Random_Model Cli_Model CurveText_Spec Ec.
From Verif Require Import Whole_Model Whole_Spec Whole_Stages Whole_Proofs Whole_Default Whole_Binary Whole_Ansi Whole_AnsiBinary Whole_Example Whole_AnsiEx Whole_BinaryEx.
From Verif Require Bits_Spec Ansi_Spec Ansi_Model Cli_Spec CurveText_Model CurveText_Props Hex_Props Plan_Model Engine_Model Shell_Model Shell_Spec Shell_Props.
Import ListNotations.
Local Open Scope Z_scope.
Local Open Scope list_scope.

(** ** A run whose seeds are typed *)
(** b is 2 for the first seed, 0 for the second and 7 for the third *)
Definition b2_seed : str := lit "0x0000000000000000000000000000000000000001".
Definition b0_seed : str := lit "0000000000000000000000000000000000000012".
Definition b7_seed : str := lit "0000000000000000000000000000000000000000".
(** --f2m --random=field --ansi --count=2 --points=all --metadata 3: c0ffee is too short, and a field is lost to the
    timeout of each curve *)
Definition ansi2_line : list copt := [OF2m; ORandom (Some (lit "field")); OAnsi None; OCount (lit "2"); OPoints (lit "all"); OMetadata].
Definition ansi2_cfg : config := match cli 4 ansi2_line [lit "3"] with Some (c, _) => c | None => cfg0 end.
Definition ansi2_input : str := lit "c0ffee," ++ b2_seed ++ lit "," ++ b0_seed ++ lit "," ++ b0_seed ++ lit "," ++ b7_seed ++ lit ",".
(** random_int(3) is 4, 5, 6 or 7 *)
Definition ansi2_draws (i : Z) (k : nat) : draw :=
  mkDraw ((i + 3 * Z.of_nat k) mod 4) 0 (fun n => i + Z.of_nat n) (fun n m => i + Z.of_nat n) (fun _ => 0%N) (k =? 1)%nat curve_new false 0 None.
Lemma ansi2_never_top cfg : c_bits cfg = 3 -> never_top cfg ansi2_draws.
Proof.
  intros E3 i n r. rewrite E3. cbn [ansi2_draws d_one]. pose proof (Z.mod_pos_bound (i + 3 * Z.of_nat n) 4 ltac:(lia)) as B. revert B.
  generalize ((i + 3 * Z.of_nat n) mod 4). intros z B E. assert (ZZ : z = 0 \/ z = 1 \/ z = 2 \/ z = 3) by lia.
  destruct ZZ as [->|[->|[->| ->]]]; vm_compute in E; injection E as <-; discriminate.
Qed.
Lemma ansi2_scope : in_ansi_binary ansi2_cfg.
Proof.
  constructor; [reflexivity|reflexivity|exact irreducible_3|]. constructor; [reflexivity..|intros u H; vm_compute in H; discriminate H|constructor; vm_compute; intuition congruence].
Qed.
Example C84_run_example :
  let io := Shell_Model.mkIo (Some (list_ascii_of_string "o")) false (Some (lit "in")) None in
  let fs := fun i => if (i =? 2)%nat then Some ansi2_input else None in
  cli 4 ansi2_line [lit "3"] <> None /\ c_count ansi2_cfg = 2 /\
  pari_over pari3 (binary_over (c_bits ansi2_cfg)) /\ in_ansi_binary ansi2_cfg /\ never_top ansi2_cfg ansi2_draws /\
  Shell_Spec.separate Shell_Props.by_length Shell_Props.all_files io /\
  Shell_Spec.input_is Shell_Props.by_length Shell_Props.all_files io fs [] ","%char ansi2_input /\
  Shell_Spec.out_file Shell_Props.by_length Shell_Props.all_files io 1 /\
  let '(w, status) := Shell_Model.main Shell_Props.by_length Shell_Props.all_files Shell_Props.all_files Shell_Props.no_limit [] true io true
    (exhaustive_do pari3 ansi2_cfg CurveText_Props.hex_2 CurveText_Props.hex_2 CurveText_Props.dec_2 (fun _ => "?"%char) ansi2_draws 8 200 0 ","%char
      (snd (Plan_Model.exhaustive_init ansi2_cfg [N_method])) 3)
    (Shell_Model.fresh fs []) in
  status = Some 0 /\ exists t, Shell_Model.files w 1 = Some t /\ 1000 <= Z.of_nat (length t).
Proof.
  intros io fs. split; [vm_compute; discriminate|]. split; [reflexivity|].
  split; [exact pari3_binary|]. split; [exact ansi2_scope|]. split; [apply ansi2_never_top; vm_compute; reflexivity|].
  split; [|split; [vm_compute; auto|split; [exists (list_ascii_of_string "o"); auto|]]].
  - intros i. split; [|split]; intros (A & B); destruct B as (g & B & C); try discriminate B.
    all: destruct A as (h & A & D); try discriminate A; try (injection A as <-; injection B as <-; vm_compute in *; intuition congruence).
  - vm_compute. split; [reflexivity|]. eexists. split; [reflexivity|]. vm_compute. discriminate.
Qed.

(** ** A seed from the command line: --f2m --random=field --ansi=0x0...01 --points=random --unique 3 *)
Definition given (s : str) : config :=
  match cli 4 [OF2m; ORandom (Some (lit "field")); OAnsi (Some s); OPoints (lit "random"); OUnique] [lit "3"] with Some (c, _) => c | None => cfg0 end.
Lemma given_scope s : s = b2_seed \/ s = b0_seed -> in_ansi_binary (given s).
Proof.
  assert (E : forall s u, Cli_Model.c_seed (given s) = Some u -> s = b2_seed \/ s = b0_seed -> u = s) by (intros v u H [-> | ->]; vm_compute in H; injection H as <-; reflexivity).
  intros K. constructor; [destruct K as [-> | ->]; reflexivity..|destruct K as [-> | ->]; exact irreducible_3|].
  constructor; [destruct K as [-> | ->]; reflexivity..| |destruct K as [-> | ->]; constructor; vm_compute; intuition congruence].
  intros u H. rewrite (E s u H K). destruct K as [-> | ->]; split; vm_compute; reflexivity.
Qed.
Example C84_defined_example : pari_over pari3 (binary_over (c_bits (given b2_seed))) /\ in_ansi_binary (given b2_seed) /\ never_top (given b2_seed) ansi2_draws /\
  safe (given b2_seed) /\ c_bits (given b2_seed) <> 1060 /\ Cli_Model.c_seed (given b2_seed) <> None /\
  exists w x y, search pari3 (given b2_seed) CurveText_Props.hex_2 8 "010"%char [] (ansi2_draws 2) (snd (Plan_Model.exhaustive_init (given b2_seed) [N_method])) 200 0 =
    (Engine_Model.Returned 1, w) /\ w_wrong w = None /\ k_field (w_curve w) = Some (Binary [1; 1; 0; 1]) /\
    k_a (w_curve w) = Some x /\ elem_int x = 5 /\ k_b (w_curve w) = Some y /\ elem_int y = 2.
Proof.
  split; [exact pari3_binary|]. split; [apply given_scope; left; reflexivity|]. split; [apply ansi2_never_top; vm_compute; reflexivity|]. split; [split; [reflexivity|right; reflexivity]|].
  split; [discriminate|]. split; [discriminate|]. eexists _, _, _. split; [vm_compute; reflexivity|]. split; [reflexivity|]. split; [reflexivity|]. split; [reflexivity|]. split; [reflexivity|]. split; reflexivity.
Qed.

(** ** A seed whose b is zero *)
(** With such a seed on the command line there is no curve: however long is waited, the search does not succeed. *)
Theorem C84_zero_seed : forall P cfg hexw draws tries d l i fuel av u w,
  pari_over P (binary_over (c_bits cfg)) -> in_ansi_binary cfg -> never_top cfg draws -> Cli_Model.c_seed cfg = Some u ->
  (forall bs, seed_spelled u bs -> Ansi_Spec.ansi_b padded_sha1 bs (Z.to_nat (c_bits cfg)) = 0) ->
  search P cfg hexw tries d l (draws i) (snd (Plan_Model.exhaustive_init cfg [N_method])) fuel av <> (Engine_Model.Returned 1, w).
Proof.
  intros P cfg hexw draws tries d l i fuel av u w PO IA NT CS Z0 H.
  destruct (ansi2_result P cfg PO IA hexw (fun _ => "?"%char) draws NT tries fuel d l i fuel av _ _ H) as [(_ & S)|(X & _)]; [|discriminate X].
  destruct S as (_ & p0 & a0 & b0 & S). destruct (e_known _ _ _ _ _ _ _ _ _ _ S) as (_ & F). destruct (F ltac:(discriminate)) as (l0 & ls & lf & _ & _ & (sd & SE & SS) & G).
  destruct (G ltac:(discriminate)) as (l1 & lp & p & _ & _ & _ & _ & M). destruct (M ltac:(discriminate)) as (x & y & _ & _ & _ & B & N).
  destruct SS as [(R & _)|(Sd & SG)].
  - unfold seed_f in R. rewrite CS in R. discriminate R.
  - unfold seed_given in SG. rewrite CS in SG. destruct SG as (_ & SG). rewrite (N sd SE Sd), (Z0 _ SG) in B. lia.
Qed.
Print Assumptions C84_zero_seed.
Lemma b0_spelled bs : seed_spelled b0_seed bs -> Ansi_Spec.ansi_b padded_sha1 bs 3 = 0.
Proof.
  intros (digits & B & _ & Sp). assert (D : Cli_Spec.hex_body b0_seed b0_seed).
  { split; [apply Forall_forall, forallb_forall; vm_compute; reflexivity|]. left. split; [reflexivity|]. intros (x & r & E & X). injection E as E _. destruct X as ([X|X] & _); congruence. }
  rewrite (body_one _ _ _ B D) in Sp. rewrite (spells_one _ bs (repeat false 155 ++ [true; false; false; true; false]) Sp) by (split; vm_compute; reflexivity). vm_compute. reflexivity.
Qed.
Example C84_zero_seed_example : pari_over pari3 (binary_over (c_bits (given b0_seed))) /\ in_ansi_binary (given b0_seed) /\ never_top (given b0_seed) ansi2_draws /\
  Cli_Model.c_seed (given b0_seed) = Some b0_seed /\ (forall bs, seed_spelled b0_seed bs -> Ansi_Spec.ansi_b padded_sha1 bs (Z.to_nat (c_bits (given b0_seed))) = 0) /\
  fst (search pari3 (given b0_seed) CurveText_Props.hex_2 8 "010"%char [] (ansi2_draws 2) (snd (Plan_Model.exhaustive_init (given b0_seed) [N_method])) 200 0) = Engine_Model.NoFuel.
Proof.
  split; [exact pari3_binary|]. split; [apply given_scope; right; reflexivity|]. split; [apply ansi2_never_top; vm_compute; reflexivity|]. split; [reflexivity|].
  split; [exact b0_spelled|]. vm_compute. reflexivity.
Qed.

(** ** What is not true of such runs *)
(** random_int(cfg->bits) may be 2^bits (see C62), and then a is no element of the field. *)
Theorem C84_top_refuted : exists cfg d t k k' p x, in_ansi_binary cfg /\ k_field k = Some (Binary p) /\ binary_over (c_bits cfg) (Binary p) /\
  (forall P tries delim, generator P cfg tries delim Plan_Model.ansi_gen_equation None d t k = Ok (k', 1)) /\
  k_field k' = Some (Binary p) /\ k_a k' = Some x /\ elem_int x = 2 ^ c_bits cfg /\ ~ inside (Binary p) (elem_int x).
Proof.
  assert (BO : binary_over 3 (Binary [1; 1; 0; 1])) by (apply (binaryr_ok 3); [lia|exact poly_3|exact (irreducible_3 _ poly_3)]).
  destruct (Ansi_Model.ansi_gen_seed_argument b2_seed 3) as [sd| | |] eqn:E; [|vm_compute in E; discriminate E..].
  exists ansi2_cfg, (mkDraw 4 0 (fun _ => 0) (fun _ _ => 0) (fun _ => 0%N) false curve_new false 0 None), [], (set_field (Binary [1; 1; 0; 1]) (set_seed (Some (AnsiSeed sd)) curve_new)).
  vm_compute in E. injection E as <-. eexists _, [1; 1; 0; 1], _. split; [exact ansi2_scope|]. split; [reflexivity|]. split; [exact BO|].
  split; [intros P tries delim; vm_compute; reflexivity|]. split; [reflexivity|]. split; [reflexivity|]. split; [reflexivity|]. vm_compute. discriminate.
Qed.
Print Assumptions C84_top_refuted.
