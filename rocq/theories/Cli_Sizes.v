(** C61 for every text: what a size or a time comes to. *)
From Coq Require Import Ascii String.
From Verif Require Import Base Cli_Model Cli_Spec Cli_Proofs.
From Verif Require Cli_Props.
Local Open Scope Z_scope.
Local Open Scope list_scope.

(** ** What is to come out *)
(** the number that is read: 2^64 - 1 if there are too many digits, modulo 2^64 if there is a minus sign *)
Definition size_read (neg : bool) (ds : str) (v : Z) : Prop :=
  0 <= v < 2 ^ 64 /\ if 2 ^ 64 <=? dec ds then v = 2 ^ 64 - 1 else if neg then (2 ^ 64 | v + dec ds) else v = dec ds.
(** the letters with a factor *)
Definition mem_letters : list (ascii * Z) :=
  [("k", 1000); ("K", 1000); ("m", 1000000); ("M", 1000000); ("g", 1000000000); ("G", 1000000000)]%char.
Definition time_letters : list (ascii * Z) := [("m", 60); ("M", 60); ("h", 3600); ("H", 3600); ("d", 86400); ("D", 86400)]%char.
(** only the first character behind the number counts, and one without a factor does not *)
Definition size_factor (letters : list (ascii * Z)) (rest : str) (f : Z) : Prop :=
  (exists c t, rest = c :: t /\ In (c, f) letters) \/ (f = 1 /\ forall c t g, rest = c :: t -> ~ In (c, g) letters).
(** the product, modulo 2^64 *)
Definition size_is (letters : list (ascii * Z)) (neg : bool) (ds rest : str) (w : Z) : Prop :=
  exists v f, size_read neg ds v /\ size_factor letters rest f /\ 0 <= w < 2 ^ 64 /\ (2 ^ 64 | v * f - w).

(** ** Proofs *)
Lemma dec_digits ds : Forall digit ds -> 0 <= dec ds. Proof. exact (Cli_Props.dec_nonneg ds). Qed.
Lemma numeral_dec a neg ds rest : numeral a neg ds rest -> 0 <= dec ds.
Proof. intros N. destruct N as [sp sg neg ds rest S G E D R]. now apply dec_digits. Qed.
Lemma read_ok a neg ds rest : numeral a neg ds rest -> exists v, strtoul a = (v, rest) /\ size_read neg ds v.
Proof.
  intros N. pose proof (numeral_dec _ _ _ _ N) as D. apply scan_numeral in N. unfold strtoul. rewrite N. eexists. split; [reflexivity|].
  unfold size_read, ULONG_MAX, u64. destruct (Z.leb_spec (2 ^ 64) (dec ds)) as [L|L].
  - replace (2 ^ 64 - 1 <? dec ds) with true by (symmetry; apply Z.ltb_lt; lia). lia.
  - replace (2 ^ 64 - 1 <? dec ds) with false by (symmetry; apply Z.ltb_ge; lia). destruct neg; [|lia].
    split; [apply Z.mod_pos_bound; lia|]. exists (- ((- dec ds) / 2 ^ 64)). pose proof (Z.div_mod (- dec ds) (2 ^ 64) ltac:(lia)). lia.
Qed.
Lemma wraps x : 0 <= u64 x < 2 ^ 64 /\ (2 ^ 64 | x - u64 x).
Proof. unfold u64. split; [apply Z.mod_pos_bound; lia|]. exists (x / 2 ^ 64). pose proof (Z.div_mod x (2 ^ 64) ltac:(lia)). lia. Qed.
Lemma by_letter letters v rest w : 0 <= v < 2 ^ 64 ->
  (exists c t f, rest = c :: t /\ In (c, f) letters /\ w = u64 (v * f)) \/ (w = v /\ forall c t g, rest = c :: t -> ~ In (c, g) letters) ->
  exists f, size_factor letters rest f /\ 0 <= w < 2 ^ 64 /\ (2 ^ 64 | v * f - w).
Proof.
  intros V [(c & t & f & E & I & ->)|(-> & N)].
  - exists f. split; [left; eauto|]. apply wraps.
  - exists 1. split; [right; auto|]. split; [exact V|]. exists 0. lia.
Qed.
Tactic Notation "letter" constr(x) constr(k) := destruct (Ascii.eqb_spec x k) as [->|?]; [left|].

(** C61: the value for every text that begins with a number. *)
Theorem C61_exact : forall a neg ds rest, numeral a neg ds rest ->
  (exists w, cli_parse_memory a = Some w /\ size_is mem_letters neg ds rest w) /\
  (exists w, cli_parse_time a = Some w /\ size_is time_letters neg ds rest w).
Proof.
  intros a neg ds rest N. destruct (read_ok _ _ _ _ N) as (v & S & R). apply scan_numeral in N. unfold cli_parse_memory, cli_parse_time. rewrite N, S.
  split; (eexists; split; [reflexivity|]); unfold size_is; exists v;
    match goal with |- exists f, _ /\ size_factor ?l _ f /\ 0 <= ?w < _ /\ _ =>
      destruct (by_letter l v rest w (proj1 R)) as (f & F); [|exists f; split; [exact R|exact F]] end;
    (destruct rest as [|x t]; [right; split; [reflexivity|discriminate]|]).
  - letter x "k"%char; [exists "k"%char, t, 1000; cbn; auto 12|]. letter x "K"%char; [exists "K"%char, t, 1000; cbn; auto 12|].
    letter x "m"%char; [exists "m"%char, t, 1000000; cbn; auto 12|]. letter x "M"%char; [exists "M"%char, t, 1000000; cbn; auto 12|].
    letter x "g"%char; [exists "g"%char, t, 1000000000; cbn; auto 12|]. letter x "G"%char; [exists "G"%char, t, 1000000000; cbn; auto 12|].
    right. split; [reflexivity|]. intros c' t' g E I. injection E as <- <-. cbn in I. intuition congruence.
  - letter x "m"%char; [exists "m"%char, t, 60; cbn; auto 12|]. letter x "M"%char; [exists "M"%char, t, 60; cbn; auto 12|].
    letter x "h"%char; [exists "h"%char, t, 3600; cbn; auto 12|]. letter x "H"%char; [exists "H"%char, t, 3600; cbn; auto 12|].
    letter x "d"%char; [exists "d"%char, t, 86400; cbn; auto 12|]. letter x "D"%char; [exists "D"%char, t, 86400; cbn; auto 12|].
    right. split; [reflexivity|]. intros c' t' g E I. injection E as <- <-. cbn in I. intuition congruence.
Qed.
(** The value is determined: there is one product. *)
Lemma size_read_one neg ds v v' : size_read neg ds v -> size_read neg ds v' -> v = v'.
Proof.
  unfold size_read. intros (V & A) (V' & B). destruct (2 ^ 64 <=? dec ds); [lia|]. destruct neg; [|lia].
  destruct A as (k & A), B as (l & B). assert (v - v' = (k - l) * 2 ^ 64) by lia. nia.
Qed.
Theorem C61_one : forall letters, letters = mem_letters \/ letters = time_letters -> forall neg ds rest w w',
  size_is letters neg ds rest w -> size_is letters neg ds rest w' -> w = w'.
Proof.
  intros letters L neg ds rest w w' (v & f & R & F & W & A) (v' & f' & R' & F' & W' & A').
  rewrite (size_read_one _ _ _ _ R' R) in A'. assert (E : f' = f).
  { destruct F as [(c & t & -> & I)|(-> & N)], F' as [(c' & t' & E & I')|(-> & N')].
    - injection E as <- <-. destruct L as [-> | ->]; cbn in I, I'; intuition congruence.
    - exfalso. exact (N' _ _ _ eq_refl I).
    - exfalso. exact (N _ _ _ E I').
    - reflexivity. }
  rewrite E in A'. destruct A as (k & A), A' as (l & B). assert (w - w' = (l - k) * 2 ^ 64) by lia. nia.
Qed.
Print Assumptions C61_exact.
Print Assumptions C61_one.
(** -1g is 2^64 - 10^9 bytes *)
Example C61_exact_example : numeral (lit "-1gb") true (lit "1") (lit "gb") /\ cli_parse_memory (lit "-1gb") = Some (2 ^ 64 - 1000000000) /\
  size_is mem_letters true (lit "1") (lit "gb") (2 ^ 64 - 1000000000).
Proof.
  assert (N : numeral ([] ++ lit "-" ++ lit "1" ++ lit "gb") true (lit "1") (lit "gb")).
  { apply numeral_intro; [constructor|right; right; split; reflexivity|discriminate|repeat constructor; unfold digit; cbn; lia|unfold digit; cbn; lia]. }
  split; [exact N|]. split; [vm_compute; reflexivity|]. destruct (C61_exact _ _ _ _ N) as ((w & E & S) & _).
  replace (2 ^ 64 - 1000000000) with w; [exact S|]. vm_compute in E. injection E as <-. reflexivity.
Qed.
