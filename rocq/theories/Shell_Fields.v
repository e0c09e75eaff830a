(** Which part of the input each curve of a run is made of. *)
From Coq Require Import Ascii String.
From Verif Require Import Base Shell_Model Shell_Spec Shell_Proofs.
From Verif Require RunText_Props Output_Props.
Local Open Scope Z_scope.
Local Open Scope list_scope.
Notation bytes := list_ascii_of_string.

(** ** Specification *)
(** the first [k] fields of the input, and what is left of it after them *)
Fixpoint taken (d : ascii) (k : nat) (input : text) : list text :=
  match k with O => [] | S k => let '(t, rest) := field d input in t :: taken d k rest end.
Fixpoint left_over (d : ascii) (k : nat) (input : text) : text :=
  match k with O => input | S k => left_over d k (snd (field d input)) end.
(** the curves are made of consecutive parts of the input *)
Fixpoint each {C} (R : list text -> C -> Prop) (d : ascii) (input : text) (cs : list C) : Prop :=
  match cs with [] => True | c :: cs => exists k, R (taken d k input) c /\ each R d (left_over d k input) cs end.

Lemma taken_length d k : forall input, length (taken d k input) = k.
Proof. induction k as [|k IH]; intros input; [reflexivity|]. cbn [taken]. destruct (field d input) as (t, rest). cbn [length]. now rewrite IH. Qed.
Lemma taken_snoc d k : forall input, taken d (S k) input = taken d k input ++ [fst (field d (left_over d k input))].
Proof.
  induction k as [|k IH]; intros input.
  - cbn [taken left_over app]. destruct (field d input) as (t, rest). reflexivity.
  - change (taken d (S (S k)) input) with (let '(t, rest) := field d input in t :: taken d (S k) rest).
    cbn [taken left_over]. destruct (field d input) as (t, rest) eqn:E. cbn [snd app]. f_equal. rewrite <- IH. cbn [taken]. reflexivity.
Qed.
Lemma left_snoc d k : forall input, left_over d (S k) input = snd (field d (left_over d k input)).
Proof. induction k as [|k IH]; intros input; [reflexivity|]. cbn [left_over]. rewrite <- IH. reflexivity. Qed.
Lemma each_impl {C} (R R' : list text -> C -> Prop) d cs : (forall l c, R l c -> R' l c) -> forall input, each R d input cs -> each R' d input cs.
Proof. intros H. induction cs as [|c cs IH]; intros input; [trivial|]. intros (k & A & B). exists k. split; [now apply H|now apply IH]. Qed.
Lemma each_map {C D} (f : C -> D) (R : list text -> D -> Prop) d cs : forall input, each (fun l c => R l (f c)) d input cs -> each R d input (map f cs).
Proof. induction cs as [|c cs IH]; intros input; [trivial|]. intros (k & A & B). exists k. split; [exact A|now apply IH]. Qed.
Lemma each_all {C} (R : list text -> C -> Prop) (G : C -> Prop) d cs : (forall l c, R l c -> G c) -> forall input, each R d input cs -> Forall G cs.
Proof. intros H. induction cs as [|c cs IH]; intros input; [constructor|]. intros (k & A & B). constructor; [exact (H _ _ A)|exact (IH _ B)]. Qed.

(** what a program leaves of its input *)
Fixpoint leaves {A} (p : prog A) (d : ascii) (input : text) : text :=
  match p with
  | Done _ | Exit _ => input
  | Write _ _ k => leaves k d input
  | Read k => let '(a, b) := field d input in leaves (k a) d b
  end.
Lemma then_leaves {A B} (p : prog A) (f : A -> prog B) c d : forall input,
  says c (then_ p f) d input = says c p d input ++ (match ends p d input with Returned a => says c (f a) d (leaves p d input) | Exited _ => [] end) /\
  ends (then_ p f) d input = (match ends p d input with Returned a => ends (f a) d (leaves p d input) | Exited s => Exited s end).
Proof.
  induction p as [a|s|c' t k IH|k IH]; intros input; cbn.
  - auto.
  - auto.
  - destruct (IH input) as (E1 & E2). rewrite E1, app_assoc. auto.
  - destruct (field d input) as (a, b). apply IH.
Qed.

(** ** A run of the exhaustive method *)
Section Run.
Context {C : Type}.
Variable show : C -> string.
Variable gen : Z -> prog (option C).
Variable R : list text -> C -> Prop.
Variable d : ascii.
Hypothesis quiet : forall i input, says Out (gen i) d input = [].
Hypothesis never : forall i input, ends (gen i) d input <> Exited 0.
Hypothesis made : forall i input c, ends (gen i) d input = Returned (Some c) -> exists k, R (taken d k input) c /\ leaves (gen i) d input = left_over d k input.
Notation from := (generate_from (fun c => bytes (show c)) gen).
Lemma from_fields count : 0 <= count < 2 ^ 64 -> forall fuel i input, 0 <= i <= count -> status_of (ends (from fuel i count) d input) = Some 0 ->
  ends (from fuel i count) d input = Returned (Some 0) /\
  exists cs, i + Z.of_nat (length cs) = count /\ each R d input cs /\ says Out (from fuel i count) d input = bytes (Output_Props.listed (map show cs)).
Proof.
  intros B. assert (U : u64 count = count) by (unfold u64; apply Z.mod_small; lia).
  induction fuel as [|fuel IH]; intros i input L0; cbn [generate_from]; rewrite U; destruct (Z.ltb_spec i count) as [L|L].
  - discriminate.
  - intros _. split; [reflexivity|]. exists []. cbn. split; [lia|]. split; [exact I|reflexivity].
  - destruct (then_leaves (gen i) (fun r => match r with
       | Some c => Write Out (bytes (show c)) (if negb (i =? u64 (count - 1)) then Write Out [","; "010"]%char (from fuel (u64 (i + 1)) count) else from fuel (u64 (i + 1)) count)
       | None => Done (Some 1) end) Out d input) as (E1 & E2).
    rewrite E1, E2, quiet. destruct (ends (gen i) d input) as [[c|]|s] eqn:G; [|cbn; discriminate|intros [= ->]; now destruct (never i input)].
    destruct (made _ _ _ G) as (k & Rk & Lk). rewrite Lk.
    assert (U1 : u64 (i + 1) = i + 1) by (unfold u64; apply Z.mod_small; lia).
    assert (U2 : u64 (count - 1) = count - 1) by (unfold u64; apply Z.mod_small; lia).
    rewrite U1, U2. cbn [app says ends same_channel]. destruct (Z.eqb_spec i (count - 1)) as [Q|Q]; cbn [negb ends says same_channel];
      intros H; destruct (IH (i + 1) (left_over d k input) ltac:(lia) H) as (H' & cs & N & PS & S); (split; [exact H'|]); exists (c :: cs); cbn [length map];
      (split; [lia|]); (split; [exists k; split; [exact Rk|exact PS]|]); rewrite S.
    + destruct cs; [cbn; now rewrite app_nil_r|cbn [length] in N; lia].
    + destruct cs as [|c' cs]; [cbn [length] in N; lia|]. cbn [map]. cbn [Output_Props.listed]. rewrite RunText_Props.bytes_app. reflexivity.
  - intros _. split; [reflexivity|]. exists []. cbn. split; [lia|]. split; [exact I|reflexivity].
Qed.
Lemma exhaustive_fields count fuel input : 0 <= count < 2 ^ 64 ->
  status_of (ends (exhaustive_generate (fun c => bytes (show c)) gen fuel count) d input) = Some 0 ->
  exists cs, Z.of_nat (length cs) = count /\ each R d input cs /\
    says Out (exhaustive_generate (fun c => bytes (show c)) gen fuel count) d input = bytes (Output_Props.array (map show cs)).
Proof.
  intros B. unfold exhaustive_generate. cbn [ends says same_channel].
  destruct (then_leaves (from fuel 0 count) (fun r => Write Out ["]"; "010"]%char (Done r)) Out d input) as (E1 & E2).
  rewrite E1, E2. intros E.
  assert (E' : status_of (ends (from fuel 0 count) d input) = Some 0) by (destruct (ends (from fuel 0 count) d input); exact E).
  destruct (from_fields count B fuel 0 input ltac:(lia) E') as (H & cs & N & PS & S). exists cs. split; [lia|]. split; [exact PS|]. rewrite S, H.
  unfold Output_Props.array. cbn [list_ascii_of_string says same_channel]. rewrite RunText_Props.bytes_app. reflexivity.
Qed.
End Run.
