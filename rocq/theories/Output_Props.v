(** C28: the exhaustive method's output is an array of exactly the generated curves. *)
From Coq Require Import String Ascii.
From Verif Require Import Base Output_Model.
Local Open Scope string_scope.
Local Open Scope Z_scope.

(** ** Specification *)
(** the elements with a comma and a line feed between any two of them *)
Fixpoint listed (l : list string) : string :=
  match l with
  | [] => ""
  | [x] => x
  | x :: t => x ++ String "," (String "010" (listed t))
  end.
(** what a file holding exactly these elements looks like *)
Definition array (l : list string) : string :=
  String "[" (String "010" (listed l ++ String "]" (String "010" ""))).

Lemma app_assoc_s a b c : (a ++ b) ++ c = a ++ b ++ c.
Proof. induction a as [|x a IH]; simpl; congruence. Qed.
Lemma app_nil_s a : a ++ "" = a.
Proof. induction a as [|x a IH]; simpl; congruence. Qed.

Section Proofs.
  Context {C : Type} (show : C -> string) (gen : Z -> option C).

  (** ** The three ways a run can end *)
  (** all the curves from [i] on succeed *)
  Lemma generate_all cs : forall i count fuel,
    0 <= i -> u64 count = i + Z.of_nat (length cs) -> (length cs <= fuel)%nat ->
    (forall k c, nth_error cs k = Some c -> gen (i + Z.of_nat k) = Some c) ->
    generate_from show gen fuel i count = Ok (listed (map show cs), true).
  Proof.
    induction cs as [|c cs IH]; intros i count fuel Hi Hn Hf Hg.
    - assert (E : i <? u64 count = false) by (rewrite Hn; simpl; lia).
      destruct fuel; simpl; rewrite E; reflexivity.
    - assert (R : 0 <= u64 count < 2 ^ 64) by (apply Z.mod_pos_bound; reflexivity).
      simpl in Hn, Hf.
      destruct fuel as [|fuel]; [lia|]. simpl.
      replace (i <? u64 count) with true by lia.
      assert (E := Hg 0%nat c eq_refl). replace (i + Z.of_nat 0) with i in E by lia. rewrite E.
      assert (P1 : u64 (count - 1) = u64 count - 1).
      { unfold u64. rewrite Zminus_mod. change (1 mod 2 ^ 64) with 1.
        apply Z.mod_small. unfold u64 in R, Hn. lia. }
      destruct cs as [|c' cs].
      + rewrite u64_small by (simpl in Hn; lia).
        rewrite (IH (i + 1) count fuel); simpl in *; try lia.
        * rewrite P1, Hn. replace (i =? i + 1 - 1) with true by lia. simpl.
          now rewrite app_nil_s.
        * intros [|k] c0 Hk; discriminate.
      + rewrite u64_small by (simpl in Hn; lia).
        rewrite (IH (i + 1) count fuel); try (simpl in *; lia).
        * simpl bind. rewrite P1, Hn. simpl length. 
          replace (i =? i + Z.pos (Pos.of_succ_nat (S (length cs))) - 1) with false by lia.
          reflexivity.
        * intros k c0 Hk. replace (i + 1 + Z.of_nat k) with (i + Z.of_nat (S k)) by lia.
          apply Hg. exact Hk.
  Qed.

  (** the curve after [cs] fails: every element is followed by a separator *)
  Lemma generate_fail cs : forall i count fuel,
    0 <= i -> i + Z.of_nat (length cs) < u64 count -> (length cs < fuel)%nat ->
    (forall k c, nth_error cs k = Some c -> gen (i + Z.of_nat k) = Some c) ->
    gen (i + Z.of_nat (length cs)) = None ->
    generate_from show gen fuel i count
    = Ok (String.concat "" (map (fun c => show c ++ o_separator) cs), false).
  Proof.
    induction cs as [|c cs IH]; intros i count fuel Hi Hn Hf Hg Hx.
    - destruct fuel as [|fuel]; [simpl in Hf; lia|]. simpl in *.
      replace (i <? u64 count) with true by lia.
      replace (i + 0) with i in Hx by lia. rewrite Hx. reflexivity.
    - assert (R : 0 <= u64 count < 2 ^ 64) by (apply Z.mod_pos_bound; reflexivity).
      simpl in Hn, Hf, Hx.
      destruct fuel as [|fuel]; [lia|]. cbn [generate_from].
      replace (i <? u64 count) with true by lia.
      assert (E := Hg 0%nat c eq_refl). replace (i + Z.of_nat 0) with i in E by lia. rewrite E.
      assert (P1 : u64 (count - 1) = u64 count - 1).
      { unfold u64. rewrite Zminus_mod. change (1 mod 2 ^ 64) with 1.
        apply Z.mod_small. unfold u64 in R, Hn. lia. }
      rewrite u64_small by lia.
      rewrite (IH (i + 1) count fuel); try lia.
      + cbn [bind]. rewrite P1. replace (i =? u64 count - 1) with false by lia. cbn [negb].
        f_equal. f_equal. cbn [map]. destruct cs as [|c' cs].
        * cbn [map String.concat]. now rewrite app_nil_s.
        * cbn [map String.concat]. change ("" ++ ?x) with x. rewrite !app_assoc_s. reflexivity.
      + intros k c0 Hk. replace (i + 1 + Z.of_nat k) with (i + Z.of_nat (S k)) by lia.
        apply Hg. exact Hk.
      + rewrite <- Hx. f_equal. lia.
  Qed.

  (** C28, full statement: for every count and every point of failure, when exactly the curves
      [cs] were generated the output is [array (map show cs)].
      Proved: when all the requested curves are generated (any count from 1 to 2^64 - 1), and
      when the very first one already fails.
      Missing: failure after at least one curve, where it is false, see [C28_refuted]. *)
  Theorem C28_success_partial cs count fuel :
    0 <= count < 2 ^ 64 -> count = Z.of_nat (length cs) -> (length cs <= fuel)%nat ->
    (forall k c, nth_error cs k = Some c -> gen (Z.of_nat k) = Some c) ->
    exhaustive_generate show gen fuel count = Ok (array (map show cs), true).
  Proof.
    intros R H Hf Hg. unfold exhaustive_generate.
    rewrite (generate_all cs 0 count fuel); try lia.
    - reflexivity.
    - rewrite u64_small; lia.
    - intros k c Hk. apply (Hg k c Hk).
  Qed.

  Theorem C28_first_fails_partial count fuel :
    0 < count < 2 ^ 64 -> (0 < fuel)%nat -> gen 0 = None ->
    exhaustive_generate show gen fuel count = Ok (array [], false).
  Proof.
    intros R Hf Hx. unfold exhaustive_generate.
    rewrite (generate_fail [] 0 count fuel); try reflexivity; simpl; try lia.
    - rewrite u64_small; lia.
    - intros [|k] c H; discriminate.
    - exact Hx.
  Qed.

  (** whatever happens: a result is reported as success exactly when all the requested curves
      were generated, and a failing run prints every curve generated before the failure, each
      followed by a separator *)
  Theorem C28_failure_text cs count fuel :
    Z.of_nat (length cs) < count < 2 ^ 64 -> (length cs < fuel)%nat ->
    (forall k c, nth_error cs k = Some c -> gen (Z.of_nat k) = Some c) ->
    gen (Z.of_nat (length cs)) = None ->
    exhaustive_generate show gen fuel count
    = Ok (String "[" (String "010" (String.concat "" (map (fun c => show c ++ String "," (String "010" "")) cs)
                                     ++ String "]" (String "010" ""))), false).
  Proof.
    intros R Hf Hg Hx. unfold exhaustive_generate.
    rewrite (generate_fail cs 0 count fuel); try lia.
    - reflexivity.
    - rewrite u64_small; lia.
    - intros k c Hk. apply (Hg k c Hk).
    - exact Hx.
  Qed.
End Proofs.

(** A run that fails part-way leaves a separator before the closing bracket: of two requested
    curves the first is generated, the second is not. *)
Theorem C28_refuted :
  exists (show : unit -> string) (gen : Z -> option unit) cs count,
    (forall k c, nth_error cs k = Some c -> gen (Z.of_nat k) = Some c) /\
    gen (Z.of_nat (length cs)) = None /\ Z.of_nat (length cs) < count /\
    exists text,
    exhaustive_generate show gen 5 count = Ok (text, false) /\
    text = String "[" (String "010" ("{}," ++ String "010" (String "]" (String "010" "")))) /\
    text <> array (map show cs).
Proof.
  exists (fun _ => "{}"), (fun i => if i =? 0 then Some tt else None), [tt], 2.
  split; [intros [|[|k]] [] H; [reflexivity|discriminate|discriminate]|].
  split; [reflexivity|]. split; [reflexivity|].
  eexists. split; [reflexivity|]. split; [reflexivity|discriminate].
Qed.

Section Examples.
  Local Definition sh (n : Z) : string := if n =? 0 then "{a}" else if n =? 1 then "{b}" else "{c}".

  Example C28_success_example :
    exhaustive_generate sh (fun i => Some i) 3 3
    = Ok (array ["{a}"; "{b}"; "{c}"], true)
    /\ array ["{a}"; "{b}"; "{c}"]
       = String "[" (String "010" ("{a}," ++ String "010" ("{b}," ++ String "010" ("{c}]" ++ String "010" "")))).
  Proof.
    split; [|reflexivity].
    apply (C28_success_partial sh (fun i => Some i) [0; 1; 2] 3 3); try reflexivity.
    - split; reflexivity || discriminate.
    - intros [|[|[|[|k]]]] c H; try (injection H as <-; reflexivity); discriminate.
  Qed.

  Example C28_first_fails_example :
    exhaustive_generate sh (fun i => if i =? 0 then None else Some i) 3 3 = Ok (array [], false).
  Proof. apply C28_first_fails_partial; [split; reflexivity|repeat constructor|reflexivity]. Qed.

  Example C28_failure_example :
    exhaustive_generate sh (fun i => if i =? 2 then None else Some i) 9 7
    = Ok (String "[" (String "010" ("{a}," ++ String "010" ("{b}," ++ String "010" ("]" ++ String "010" "")))), false).
  Proof.
    apply (C28_failure_text sh _ [0; 1] 7 9); try reflexivity.
    - split; reflexivity.
    - repeat constructor.
    - intros [|[|[|k]]] c H; try (injection H as <-; reflexivity); discriminate.
  Qed.
End Examples.

Print Assumptions C28_success_partial.
Print Assumptions C28_first_fails_partial.
Print Assumptions C28_failure_text.
Print Assumptions C28_refuted.
