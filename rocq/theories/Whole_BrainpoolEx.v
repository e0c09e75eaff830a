(** C80: runs of the Brainpool method, and what is not true of them. *)
From Coq Require Import Ascii String Znumtheory.
From Verif Require Import Base Fp Primes Ec Poly_Model Points_Model Cli_Model CurveText_Spec Whole_Model Whole_Spec Whole_Proofs Whole_Default Whole_Brainpool Whole_BrainpoolOne Whole_Example.
From Verif Require Whole_AnsiEx Ansi_Props Brainpool_Spec Brainpool_Model Brainpool_Props CurveText_Model CurveText_Props Json_Spec Hex_Props Plan_Model Engine_Model Shell_Model Shell_Spec Shell_Props.
Local Open Scope Z_scope.
Local Open Scope list_scope.

(** ** PARI, by trying *)
(** next_prime does not compute *)
Definition small_next (x : Z) : Z := if (0 <=? x) && (x <=? 20) then Brainpool_Props.np_small 5 x else next_prime x.
Lemma small_next_all : forallb (fun x => let q := Brainpool_Props.np_small 5 x in
  (x <=? q) && isprime_b q && forallb (fun r => negb ((x <=? r) && (r <? q) && isprime_b r)) (map Z.of_nat (seq 0 24)) && (q <? 24)) (map Z.of_nat (seq 0 21)) = true.
Proof. vm_compute. reflexivity. Qed.
Lemma small_next_ok x : x <= small_next x /\ prime (small_next x) /\ forall q, x <= q < small_next x -> ~ prime q.
Proof.
  unfold small_next. destruct (Z.leb_spec 0 x); cbn [andb]; [|apply next_prime_ok]. destruct (Z.leb_spec x 20); [|apply next_prime_ok].
  pose proof small_next_all as A. rewrite forallb_forall in A. specialize (A x ltac:(apply Whole_AnsiEx.in_residues with (p := 21); lia)). cbv zeta in A.
  rewrite !andb_true_iff in A. destruct A as (((A & B) & C) & D). apply Z.leb_le in A. apply Z.ltb_lt in D. apply isprime_b_ok in B.
  split; [exact A|]. split; [exact B|]. intros q Q P. rewrite forallb_forall in C. specialize (C q ltac:(apply Whole_AnsiEx.in_residues with (p := 24); lia)).
  apply isprime_b_ok in P. rewrite P in C. destruct (Z.leb_spec x q); [|lia]. destruct (Z.ltb_spec q (Brainpool_Props.np_small 5 x)); [|lia]. discriminate C.
Qed.
Definition pari7 : pari :=
  mkPari (isprime pari3) (randomprime pari3) (ellinit pari3) (ell_get_disc pari3) (ell_get_j pari3) (ellff_get_card pari3) (ellsea pari3) (ellff_get_gens pari3)
    (ellmul pari3) (ellorder pari3) (Z_factor pari3) (znorder pari3) (coredisc2 pari3) (kronecker pari3) small_next (class_roots pari3)
    (Fp_invsafe pari3) (Fp_issquare pari3) (Fp_sqrt pari3) (Fp_sqrtn pari3)
    (fun f a b x => filter (fun y => ec_on f a b (Some (x mod field_size f, y))) (Fp.elements (field_size f)))
    (forprime pari3) (cornacchia2 pari3) (glog pari3) (issquarefree pari3) (quaddisc pari3) (norm_traces pari3) (ellfromj pari3) (elltwist pari3) (ellrandom pari3).
Lemma pari7_ok : pari_ok pari7 3.
Proof. destruct pari3_ok as [A B C D E]. constructor; [exact A|exact B|exact C|exact D|]. intros p a b O N. destruct (E p a b O N) as [X1 X2 X3 X4 X5 X6 X7]. constructor; assumption. Qed.
Lemma pari7_brainpool : brainpool_ok pari7 3.
Proof.
  constructor; cbn [pari7 pari3 nextprime ellinit znorder Fp_invsafe Fp_sqrtn Fp_issquare ellordinate].
  - exact small_next_ok.
  - intros [p|cc] a b CO [_ _ _ N]; [|destruct CO]. cbn [nonsingular] in N. apply negb_true_iff, Z.eqb_neq. exact N.
  - intros p _. unfold x_znorder, first. change (upto 1) with [1]. cbn [find]. rewrite Z.mod_1_r. reflexivity.
  - intros p x Pp. pose proof (prime_ge_2 p Pp). destruct (Brainpool_Props.C17_contract p ltac:(lia)) as (A & B & _). destruct (Ansi_Props.inv_small x p) eqn:E; [exact (A _ _ E)|exact (B _ E)].
  - intros p x Pp. pose proof (prime_ge_2 p Pp). destruct (Brainpool_Props.C17_contract p ltac:(lia)) as (_ & _ & A & B & _). destruct (Brainpool_Props.root4_small x 4 p) eqn:E; [exact (A _ _ E)|exact (B _ E)].
  - intros p x Pp. pose proof (prime_ge_2 p Pp). destruct (Brainpool_Props.C17_contract p ltac:(lia)) as (_ & _ & _ & _ & A). apply A.
  - intros p a b x y CO ns. rewrite filter_In. split; [intros H; apply H|]. intros H. split; [|exact H]. apply (ec_on_iff p a b ns) in H. apply H.
Qed.

(** ** Runs *)
Definition seed_of_text (u : str) : list copt := [OFp; OBrainpool (Some u); OCount (lit "2")].
Definition brainpool_of (u : str) : config := match cli 4 (seed_of_text u) [lit "3"] with Some (c, _) => c | None => cfg0 end.
(** Two seeds that give no prime of 3 bits come first. The curve is printed twice, with two signs of the generator. *)
Definition seed_a : str := lit "0x0000000000000000000000000000000000000018".
Definition seed_b : str := lit "0x0000000000000000000000000000000000000035".
Definition seed_c : str := lit "0x0000000000000000000000000000000000000020".
Lemma brainpool_scope u : In u [seed_a; seed_b; seed_c; lit "0x0000000000000000000000000000000000000038"] -> in_brainpool (brainpool_of u).
Proof. intros [<-|[<-|[<-|[<-|[]]]]]; (constructor; [reflexivity|left; reflexivity|intros v H; vm_compute in H; injection H as <-; reflexivity|vm_compute; intuition congruence..]). Qed.
Definition two_curves (io : Shell_Model.io_config) :=
  Shell_Model.main Shell_Props.by_length Shell_Props.all_files Shell_Props.all_files Shell_Props.no_limit [] true io true
    (exhaustive_do pari7 (brainpool_of seed_a) CurveText_Props.hex_2 CurveText_Props.hex_2 CurveText_Props.dec_2 (fun _ => "?"%char) ex_draws 60 200 0 "010"%char
      (snd (Plan_Model.exhaustive_init (brainpool_of seed_a) [N_method])) 3)
    (Shell_Model.fresh (fun _ => None) []).
Example C80_run_example :
  let io := Shell_Model.mkIo (Some (list_ascii_of_string "o")) false None None in
  cli 4 (seed_of_text seed_a) [lit "3"] <> None /\ c_count (brainpool_of seed_a) = 2 /\ Cli_Model.c_seed (brainpool_of seed_a) = Some seed_a /\ c_hex_check (brainpool_of seed_a) = None /\
  pari_ok pari7 (c_bits (brainpool_of seed_a)) /\ brainpool_ok pari7 (c_bits (brainpool_of seed_a)) /\ in_brainpool (brainpool_of seed_a) /\
  prints CurveText_Props.hex_2 CurveText_Props.hex_2 CurveText_Props.dec_2 /\ Hex_Props.prints_hex CurveText_Props.hex_2 /\
  Shell_Spec.separate Shell_Props.by_length Shell_Props.all_files io /\
  Shell_Spec.input_is Shell_Props.by_length Shell_Props.all_files io (fun _ => None) [] "010"%char [] /\
  Shell_Spec.out_file Shell_Props.by_length Shell_Props.all_files io 1 /\
  snd (two_curves io) = Some 0 /\ exists t, Shell_Model.files (fst (two_curves io)) 1 = Some t /\ 500 <= Z.of_nat (length t).
Proof.
  intros io. split; [vm_compute; discriminate|]. split; [reflexivity|]. split; [reflexivity|]. split; [reflexivity|].
  split; [exact pari7_ok|]. split; [exact pari7_brainpool|]. split; [apply brainpool_scope; cbn; auto|]. split; [exact CurveText_Props.printers|]. split; [exact hex_2_digits|].
  split; [|split; [vm_compute; auto|split; [exists (list_ascii_of_string "o"); auto|]]].
  - intros i. split; [|split]; intros (A & B); destruct B as (g & B & _); discriminate B.
  - split; [vm_compute; reflexivity|]. eexists. split; [vm_compute; reflexivity|]. vm_compute. discriminate.
Qed.

(** ** The seed that is printed *)
(** It is that of the generator. A run from it goes on from there, and gives another curve. *)
Definition one_search (u : str) := search pari7 (brainpool_of u) CurveText_Props.hex_2 60 "010"%char [] (ex_draws 0) (snd (Plan_Model.exhaustive_init (brainpool_of u) [N_method])) 200 0.
Definition shown (w : world) : option (option str * Z * Z) :=
  match to_output (w_curve w) with
  | Ok c => Some (option_map seed_text (CurveText_Model.c_seed c), elem_int (CurveText_Model.c_a c), elem_int (CurveText_Model.c_b c))
  | _ => None
  end.
Theorem C80_printed_refuted : exists u v w w' s a b a' b', pari_ok pari7 3 /\ brainpool_ok pari7 3 /\
  in_brainpool (brainpool_of u) /\ Cli_Model.c_seed (brainpool_of u) = Some u /\ in_brainpool (brainpool_of v) /\ Cli_Model.c_seed (brainpool_of v) = Some v /\
  one_search u = (Engine_Model.Returned 1, w) /\ shown w = Some (Some v, a, b) /\ u <> v /\
  one_search v = (Engine_Model.Returned 1, w') /\ shown w' = Some (s, a', b') /\ (a, b) <> (a', b').
Proof.
  exists seed_b, (lit "0x0000000000000000000000000000000000000038"). eexists _, _, _, _, _, _, _. split; [exact pari7_ok|]. split; [exact pari7_brainpool|].
  split; [apply brainpool_scope; cbn; auto|]. split; [reflexivity|]. split; [apply brainpool_scope; cbn; auto|]. split; [reflexivity|].
  split; [vm_compute; reflexivity|]. split; [vm_compute; reflexivity|]. split; [vm_compute; discriminate|]. split; [vm_compute; reflexivity|]. split; [vm_compute; reflexivity|]. vm_compute. discriminate.
Qed.
Print Assumptions C80_printed_refuted.
(** ** The generator can be the point at infinity *)
(** when the number from its seed is a multiple of the order; it cannot be printed (see C68) *)
Theorem C80_defined_refuted : exists u w, pari_ok pari7 3 /\ brainpool_ok pari7 3 /\ in_brainpool (brainpool_of u) /\
  one_search u = (Engine_Model.Returned 1, w) /\ option_map (map (fun s => p_point (s_gen s))) (k_gens (w_curve w)) = Some [None] /\
  finished (brainpool_of u) CurveText_Props.hex_2 CurveText_Props.hex_2 CurveText_Props.dec_2 (Engine_Model.Returned 1) w = Shell_Model.Exit UNDEFINED.
Proof.
  exists seed_c. eexists. split; [exact pari7_ok|]. split; [exact pari7_brainpool|]. split; [apply brainpool_scope; cbn; auto|]. split; [vm_compute; reflexivity|]. split; vm_compute; reflexivity.
Qed.
Print Assumptions C80_defined_refuted.
