(** C47, C54, C55, C65: numbers and text read from the user or a file. *)
From Coq Require Import Ascii String Znumtheory.
From Verif Require Import Base Primes Str_Model Str_Proofs Cli_Model Cli_Spec Cli_Proofs Poly_Model Koblitz_Model Family_Model Input_Model.
Local Open Scope string_scope.
Local Open Scope Z_scope.

Definition lit (s : string) : str := String.list_ascii_of_string s.

(** ** Specification *)
(** The next item of the input is the text [t]; [r] is left; [closed] tells whether a delimiter was
    behind it. At the end of the input there is no item. *)
Inductive item (d : ascii) : str -> str -> str -> bool -> Prop :=
| item_closed t r : ~ In d t -> item d (t ++ d :: r)%list t r true
| item_last t : ~ In d t -> t <> [] -> item d t t [] false.

(** hexadecimal digits in order of their value *)
Definition hexits : list (ascii * Z) :=
  [("0",0); ("1",1); ("2",2); ("3",3); ("4",4); ("5",5); ("6",6); ("7",7); ("8",8); ("9",9);
   ("a",10); ("b",11); ("c",12); ("d",13); ("e",14); ("f",15);
   ("A",10); ("B",11); ("C",12); ("D",13); ("E",14); ("F",15)]%char.
Definition hexit (c : ascii) (v : Z) : Prop := In (c, v) hexits.
(** value of a hexadecimal text, least significant digit last *)
Inductive hexnum : str -> Z -> Prop :=
| hexnum_nil : hexnum [] 0
| hexnum_snoc t v c x : hexnum t v -> hexit c x -> hexnum (t ++ [c])%list (16 * v + x).

(** what a user types for a non-negative number, and for a number *)
Inductive magnitude : str -> Z -> Prop :=
| mag_dec ds : ds <> [] -> Forall digit ds -> magnitude ds (dec ds)
| mag_hex x ds v : x = "x"%char \/ x = "X"%char -> ds <> [] -> hexnum ds v -> magnitude ("0"%char :: x :: ds) v.
Inductive number : str -> Z -> Prop :=
| num_pos t v : magnitude t v -> number t v
| num_neg t v : magnitude t v -> number ("-"%char :: t) (- v).

(** the delimiters in use, src/io/input.c:96-109 *)
Definition delimiter (d : ascii) : Prop := d = ","%char \/ d = "010"%char.

(** ** Reading an item *)
Lemma cut_some d t r : ~ In d t -> cut d (t ++ d :: r)%list = Some ((t ++ [d])%list, r).
Proof.
  induction t as [|c t IH]; intros N; cbn [cut app]; [now rewrite Ascii.eqb_refl|].
  destruct (Ascii.eqb_spec c d) as [->|_]; [exfalso; apply N; now left|]. rewrite IH; [reflexivity|]. intros X. apply N. now right.
Qed.
Lemma cut_none d t : ~ In d t -> cut d t = None.
Proof.
  induction t as [|c t IH]; intros N; cbn [cut]; [reflexivity|].
  destruct (Ascii.eqb_spec c d) as [->|_]; [exfalso; apply N; now left|]. rewrite IH; [reflexivity|]. intros X. apply N. now right.
Qed.
Lemma cut_spec d s : match cut d s with Some (l, r) => exists t, l = (t ++ [d])%list /\ s = (t ++ d :: r)%list /\ ~ In d t | None => ~ In d s end.
Proof.
  induction s as [|c s IH]; cbn [cut]; [intros []|]. destruct (Ascii.eqb_spec c d) as [->|N]; [exists []; auto|].
  destruct (cut d s) as [[l r]|].
  - destruct IH as (t & -> & -> & H). exists (c :: t). split; [reflexivity|]. split; [reflexivity|]. intros [X|X]; auto.
  - intros [X|X]; auto.
Qed.

Definition line_of (d : ascii) (t : str) (closed : bool) : str := if closed then (t ++ [d])%list else t.
Lemma getdelim_item d s t r closed : item d (rest s) t r closed ->
  getdelim d s = (Some (line_of d t closed), Stream r (eof s || negb closed)).
Proof.
  intros H. unfold getdelim. remember (rest s) as q eqn:Q. clear Q. destruct H as [t r N|t N E].
  - pose proof (cut_some d t r N) as C. rewrite orb_false_r. cbn [line_of]. destruct (t ++ d :: r)%list eqn:X; [destruct t; discriminate|]. now rewrite C.
  - pose proof (cut_none d t N) as C. rewrite orb_true_r. cbn [line_of]. destruct t; [congruence|]. now rewrite C.
Qed.
Lemma getdelim_cases d s :
  (rest s = [] /\ getdelim d s = (None, Stream [] true)) \/
  exists t r closed, item d (rest s) t r closed.
Proof.
  unfold getdelim. destruct (rest s) as [|c u]; [left; auto|right]. pose proof (cut_spec d (c :: u)) as H. destruct (cut d (c :: u)) as [[l r]|].
  - destruct H as (t & -> & -> & N). eexists t, r, true. constructor; exact N.
  - exists (c :: u), [], false. constructor; [exact H|discriminate].
Qed.

(** ** Reading a number *)
Lemma hexit_ok c v : hexit c v -> isxdigit c = true /\ hexval c = v.
Proof. intros H. unfold hexit, hexits in H. repeat (destruct H as [[= <- <-]|H]; [split; reflexivity|]). destruct H. Qed.
Lemma take_hex_ok t v : hexnum t v -> forall acc r, match r with c :: _ => isxdigit c = false | [] => True end ->
  take_hex acc (t ++ r)%list = acc * 16 ^ Z.of_nat (length t) + v.
Proof.
  induction 1 as [|t v c x H IH X]; intros acc r Hr.
  - cbn [app length Z.of_nat]. destruct r as [|c r]; cbn [take_hex]; [|rewrite Hr]; rewrite Z.pow_0_r; ring.
  - destruct (hexit_ok c x X) as [Hc Hv].
    assert (G : forall acc, take_hex acc ((t ++ [c]) ++ r)%list = 16 * take_hex acc t + x).
    { clear IH acc. intros acc. assert (A : Forall (fun c => isxdigit c = true) t).
      { clear - H. induction H as [|t v c x H IH X]; [constructor|]. apply Forall_app. split; [exact IH|]. constructor; [apply (hexit_ok _ _ X)|constructor]. }
      clear H. revert acc. induction A as [|a t Ha A IH]; intros acc; cbn [app take_hex].
      - rewrite Hc. destruct r as [|b r]; cbn [take_hex]; [|rewrite Hr]; now rewrite Hv.
      - rewrite Ha. apply IH. }
    rewrite G. specialize (IH acc [] I). rewrite app_nil_r in IH. rewrite IH. rewrite app_length. cbn [length].
    replace (Z.of_nat (length t + 1)) with (Z.succ (Z.of_nat (length t))) by lia. rewrite Z.pow_succ_r by lia. ring.
Qed.

(** text that cannot be mistaken for part of a number *)
Definition stops (r : str) : Prop := r = [] \/ exists d, delimiter d /\ r = [d].
Lemma stops_digit r : stops r -> match r with c :: _ => ~ digit c | [] => True end.
Proof. intros [->|(d & [->| ->] & ->)]; [exact I| |]; unfold digit; vm_compute; lia. Qed.
Lemma stops_hex r : stops r -> match r with c :: _ => isxdigit c = false | [] => True end.
Proof. intros [->|(d & [->| ->] & ->)]; [exact I| |]; reflexivity. Qed.
Lemma stops_nul r : stops r -> ~ In "000"%char r.
Proof. intros [->|(d & [->| ->] & ->)]; [intros []| |]; intros [X|[]]; discriminate. Qed.

Lemma cstring_id s : ~ In "000"%char s -> cstring s = s.
Proof.
  induction s as [|c s IH]; intros N; cbn [cstring]; [reflexivity|]. destruct (Ascii.eqb_spec c "000") as [->|_]; [exfalso; apply N; now left|].
  f_equal. apply IH. intros X. apply N. now right.
Qed.
Lemma digit_eqb c e : digit c -> ~ digit e -> Ascii.eqb c e = false.
Proof. intros H N. destruct (Ascii.eqb_spec c e) as [->|_]; [contradiction|reflexivity]. Qed.
Ltac nodigit := unfold digit; vm_compute; lia.

Lemma strtoi_magnitude t v r : magnitude t v -> stops r -> strtoi (t ++ r)%list = v.
Proof.
  intros H S. destruct H as [ds N D|x ds v X N H].
  - assert (G : fst (take_digits 0 (ds ++ r)%list) = dec ds) by (rewrite (take_digits_app ds D 0 r (stops_digit r S)); reflexivity).
    unfold strtoi. destruct ds as [|c ds]; [congruence|]. cbn [app] in *. destruct (ds ++ r)%list as [|x u] eqn:E; [exact G|].
    assert (Q : digit x \/ (exists d, delimiter d /\ x = d)).
    { destruct ds as [|y ds]; cbn [app] in E.
      - right. destruct S as [->|(d & Hd & ->)]; [discriminate|]. injection E as <- _. eauto.
      - left. injection E as <- _. inversion D; subst. inversion H2; assumption. }
    assert (K : (Ascii.eqb x "x" || Ascii.eqb x "X") = false /\ (Ascii.eqb x "b" || Ascii.eqb x "B") = false).
    { destruct Q as [Q|(d & [->| ->] & ->)]; [|split; reflexivity|split; reflexivity]. split; rewrite !digit_eqb; auto; nodigit. }
    destruct K as [K1 K2]. rewrite K1, K2, !andb_false_r. exact G.
  - cbn [app strtoi]. destruct X as [->| ->]; cbn -[take_hex app]; rewrite (take_hex_ok ds v H 0 r (stops_hex r S)); lia.
Qed.
Lemma magnitude_head t v : magnitude t v -> exists c u, t = c :: u /\ digit c.
Proof.
  intros [ds N D|x ds v' X N H]; [|eexists _, _; split; [reflexivity|nodigit]]. destruct ds as [|c ds]; [congruence|]. inversion D; subst. eauto.
Qed.
Lemma magnitude_nul t v : magnitude t v -> ~ In "000"%char t.
Proof.
  intros [ds N D|x ds v' X N H] I.
  - rewrite Forall_forall in D. specialize (D _ I). revert D. nodigit.
  - destruct I as [I|[I|I]]; [discriminate|destruct X; subst; discriminate|]. clear N. induction H as [|u w c y H IH Y]; [destruct I|].
    apply in_app_iff in I. destruct I as [I|[I|[]]]; [auto|]. subst c. apply hexit_ok in Y. destruct Y as [Y _]. discriminate.
Qed.
Lemma number_nul t v : number t v -> ~ In "000"%char t.
Proof. intros [t' v' H|t' v' H]; [exact (magnitude_nul _ _ H)|]. intros [X|X]; [discriminate|]. exact (magnitude_nul _ _ H X). Qed.

(** the text of a line as input_i understands it *)
Definition parse (line : str) : Z :=
  let text := cstring line in
  let sign := match text with c :: _ => Ascii.eqb c "-" | [] => false end in
  let i := strtoi (if sign then tl text else text) in
  if sign then - i else i.
Lemma parse_number t v r : number t v -> stops r -> parse (t ++ r)%list = v.
Proof.
  intros H S. unfold parse. rewrite cstring_id by (intros X; apply in_app_iff in X; destruct X as [X|X]; [exact (number_nul _ _ H X)|exact (stops_nul _ S X)]).
  destruct H as [t v H|t v H].
  - destruct (magnitude_head t v H) as (c & u & -> & D). cbn [app]. rewrite digit_eqb by (auto; nodigit). now apply strtoi_magnitude with (1 := H).
  - cbn [app tl]. rewrite Ascii.eqb_refl. cbn [tl]. now rewrite (strtoi_magnitude t v r H S).
Qed.

Lemma line_stops d t closed : delimiter d -> exists r, line_of d t closed = (t ++ r)%list /\ stops r.
Proof. intros D. destruct closed; [exists [d]|exists []]; cbn [line_of]; rewrite ?app_nil_r; split; auto; [right; eauto|now left]. Qed.

(** what input_i does: nothing left, an empty item, or the parsed text compared with 2^bits *)
Lemma input_i_end d bits s : rest s = [] -> input_i d bits s = (-2, Stream [] true).
Proof. intros H. unfold input_i, getdelim. now rewrite H. Qed.
Lemma input_i_item d bits s t r closed : eof s = false -> item d (rest s) t r closed ->
  input_i d bits s = (if match t with [] => true | _ => false end then -1
                      else if parse (line_of d t closed) <=? 2 ^ bits then parse (line_of d t closed) else -1, Stream r (negb closed)).
Proof.
  intros E H. unfold input_i. rewrite (getdelim_item d s t r closed H), E. cbn [orb eof]. rewrite negb_involutive. fold (parse (line_of d t closed)).
  assert (L : ((length (line_of d t closed) =? 1)%nat && closed) = match t with [] => true | _ => false end).
  { destruct closed; cbn [line_of].
    - rewrite app_length, andb_true_r. destruct t as [|c t]; [reflexivity|]. simpl. destruct (length t + 1)%nat eqn:X; [lia|reflexivity].
    - rewrite andb_false_r. destruct t; [|reflexivity]. inversion H; congruence. }
  rewrite L. destruct t; [reflexivity|]. now destruct (_ <=? _).
Qed.

Lemma input_i_cases d bits s v s' : eof s = false -> input_i d bits s = (v, s') ->
  (rest s = [] /\ v = -2 /\ s' = Stream [] true) \/
  exists t r closed, item d (rest s) t r closed /\ s' = Stream r (negb closed) /\
    (t = [] /\ v = -1 \/ t <> [] /\ 2 ^ bits < parse (line_of d t closed) /\ v = -1 \/
     t <> [] /\ parse (line_of d t closed) <= 2 ^ bits /\ v = parse (line_of d t closed)).
Proof.
  intros E H. destruct (getdelim_cases d s) as [[R _]|(t & r & closed & It)].
  - left. rewrite input_i_end in H by exact R. injection H as <- <-. auto.
  - right. rewrite (input_i_item d bits s t r closed E It) in H. exists t, r, closed. split; [exact It|].
    pose proof (f_equal fst H) as H1. pose proof (f_equal snd H) as H2. cbn [fst snd] in H1, H2. clear H. split; [congruence|].
    destruct t as [|c t]; [left; auto|right]. destruct (Z.leb_spec (parse (line_of d (c :: t) closed)) (2 ^ bits)); [right|left]; repeat split; try congruence; lia.
Qed.

(** a typed number is read as that number, or refused when it exceeds 2^bits *)
Lemma number_ne t v : number t v -> t <> [].
Proof. intros [t' v' H|t' v' H]; [|discriminate]. destruct (magnitude_head _ _ H) as (c & u & -> & _). discriminate. Qed.
Lemma input_i_number d bits s t r closed v : delimiter d -> eof s = false -> item d (rest s) t r closed -> number t v ->
  input_i d bits s = (if v <=? 2 ^ bits then v else -1, Stream r (negb closed)).
Proof.
  intros D E It N. rewrite (input_i_item d bits s t r closed E It). destruct (line_stops d t closed D) as (q & L & S). rewrite L, (parse_number t v q N S).
  pose proof (number_ne t v N). destruct t; [congruence|reflexivity].
Qed.

(** ** C54 *)
(** Full statement: an accepted number is non-negative and has at most [bits] bits. An accepted
    number is one other than the sentinels -1 and -2.
    Missing: numbers below zero and the number 2^bits, see [C54_refuted]. *)
Theorem C54_bound_partial d bits s v s' : 0 <= bits -> eof s = false -> input_int d bits s = (v, s') -> v <= 2 ^ bits.
Proof.
  intros B E H. assert (0 < 2 ^ bits) by (apply Z.pow_pos_nonneg; lia).
  destruct (input_i_cases d bits s v s' E H) as [(_ & -> & _)|(t & r & closed & _ & _ & [[_ ->]|[(_ & _ & ->)|(_ & X & ->)]])]; lia.
Qed.
Example C54_bound_ex : input_int "," 8 (Stream (lit "200,7") false) = (200, Stream (lit "7") false) /\
  input_int "," 8 (Stream (lit "300,7") false) = (-1, Stream (lit "7") false).
Proof. split; reflexivity. Qed.

(** Primes read for a prime field do fit. *)
Theorem C54_prime isprime d bits s v s' : 2 <= bits -> eof s = false -> (forall n, isprime n = true <-> prime n) ->
  input_prime isprime d bits s = (v, s') -> v <> -1 -> v <> -2 -> prime v /\ 0 < v < 2 ^ bits.
Proof.
  intros B E P H N1 N2. unfold input_prime in H. destruct (input_i d bits s) as [x s1] eqn:I.
  destruct (Z.eqb_spec x (-1)) as [->|M1]; [cbn in H; congruence|]. destruct (Z.eqb_spec x (-2)) as [->|M2]; [cbn in H; congruence|]. cbn [orb] in H.
  destruct (isprime x) eqn:Px; [|congruence]. apply P in Px. assert (x = v) as -> by congruence. split; [exact Px|].
  pose proof (C54_bound_partial d bits s v s1 ltac:(lia) E I) as U. pose proof (prime_ge_2 v Px). split; [lia|].
  destruct (Z.eq_dec v (2 ^ bits)) as [->|]; [exfalso|lia]. 
  assert (D : (2 | 2 ^ bits)) by (exists (2 ^ (bits - 1)); rewrite Z.mul_comm, <- Z.pow_succ_r by lia; f_equal; lia).
  apply prime_divisors with (1 := Px) in D. assert (4 <= 2 ^ bits) by (change 4 with (2 ^ 2); apply Z.pow_le_mono_r; lia). lia.
Qed.
Example C54_prime_ex : (forall n, isprime_b n = true <-> prime n) /\ input_prime isprime_b "," 8 (Stream (lit "251,7") false) = (251, Stream (lit "7") false).
Proof. split; [exact isprime_b_ok|vm_compute; reflexivity]. Qed.

Theorem C54_refuted :
  (exists s v s' t, input_int "," 8 s = (v, s') /\ eof s = false /\ item "," (rest s) t (rest s') true /\ number t v /\ v = 2 ^ 8) /\
  (exists s v s' t, input_int "," 8 s = (v, s') /\ eof s = false /\ item "," (rest s) t (rest s') true /\ number t v /\ v < -2).
Proof.
  split.
  - exists (Stream (lit "256,1") false), 256, (Stream (lit "1") false), (lit "256"). split; [reflexivity|]. split; [reflexivity|].
    split; [apply (item_closed "," (lit "256") (lit "1")); vm_compute; intuition discriminate|]. split; [|reflexivity].
    apply num_pos. change 256 with (dec (lit "256")). constructor; [discriminate|]. repeat (constructor; [vm_compute; lia|]). constructor.
  - exists (Stream (lit "-77,1") false), (-77), (Stream (lit "1") false), (lit "-77"). split; [reflexivity|]. split; [reflexivity|].
    split; [apply (item_closed "," (lit "-77") (lit "1")); vm_compute; intuition discriminate|]. split; [|reflexivity].
    apply (num_neg (lit "77") 77). change 77 with (dec (lit "77")). constructor; [discriminate|]. repeat (constructor; [vm_compute; lia|]). constructor.
Qed.

(** ** C47 *)
Definition is_value {A} (o : outcome A) : Prop := exists x, o = Value x.

(** Full statement: when reading a number fails no value is used, and a typed number is used as typed
    or refused; for every stage that reads numbers and every text.
    Proved here: both coefficient stages and the prime field stage, for the end of the input, an empty
    item, and an item that is a number (decimal or 0x, with an optional minus sign).
    Missing: items that are no numbers [C47_text_refuted], negative coefficients over binary fields
    [C47_negative_refuted], the binary field stage [C47_binary_refuted] and the family parameter
    [C47_family_refuted]. *)
Theorem C47_coefficient_partial d bits f s : delimiter d -> 0 <= bits -> eof s = false ->
  (rest s = [] -> fst (a_gen_input d bits f s) = Stop) /\
  (forall r, item d (rest s) [] r true -> fst (a_gen_input d bits f s) = Again) /\
  (forall t r closed v, item d (rest s) t r closed -> number t v ->
     rest (snd (a_gen_input d bits f s)) = r /\
     (fst (a_gen_input d bits f s) = Value (field_ielement f v) /\ v <= 2 ^ bits \/
      ~ is_value (fst (a_gen_input d bits f s)) /\ (2 ^ bits < v \/ v = -1 \/ v = -2))).
Proof.
  intros D B E. unfold a_gen_input, input_int. split; [|split].
  - intros R. rewrite input_i_end by exact R. reflexivity.
  - intros r It. rewrite (input_i_item d bits s [] r true E It). reflexivity.
  - intros t r closed v It N. rewrite (input_i_number d bits s t r closed v D E It N).
    destruct (Z.leb_spec v (2 ^ bits)) as [L|L].
    + destruct (Z.eqb_spec v (-1)) as [->|M]; [split; [reflexivity|right; split; [intros [x X]; discriminate|auto]]|].
      destruct (Z.eqb_spec v (-2)) as [->|M2]; [split; [reflexivity|right; split; [intros [x X]; discriminate|auto]]|]. auto.
    + split; [reflexivity|right; split; [intros [x X]; discriminate|auto]].
Qed.

Theorem C47_prime_partial isprime d bits s : delimiter d -> 0 <= bits -> eof s = false -> (forall n, isprime n = true <-> prime n) ->
  (rest s = [] -> fst (field_gen_input_prime isprime d bits s) = Stop) /\
  (forall r, item d (rest s) [] r true -> fst (field_gen_input_prime isprime d bits s) = Again) /\
  (forall t r closed v, item d (rest s) t r closed -> number t v ->
     rest (snd (field_gen_input_prime isprime d bits s)) = r /\
     (fst (field_gen_input_prime isprime d bits s) = Value v /\ prime v /\ v <= 2 ^ bits \/
      ~ is_value (fst (field_gen_input_prime isprime d bits s)) /\ (2 ^ bits < v \/ ~ prime v))).
Proof.
  intros D B E P. unfold field_gen_input_prime, input_prime. split; [|split].
  - intros R. rewrite input_i_end by exact R. reflexivity.
  - intros r It. rewrite (input_i_item d bits s [] r true E It). reflexivity.
  - intros t r closed v It N. rewrite (input_i_number d bits s t r closed v D E It N).
    assert (C : forall x, x < 2 -> ~ prime x) by (intros x Hx Px; apply prime_ge_2 in Px; lia).
    destruct (Z.leb_spec v (2 ^ bits)) as [L|L].
    + destruct (Z.eqb_spec v (-1)) as [->|M]; [split; [reflexivity|right; split; [intros [x X]; discriminate|right; apply C; lia]]|].
      destruct (Z.eqb_spec v (-2)) as [->|M2]; [split; [reflexivity|right; split; [intros [x X]; discriminate|right; apply C; lia]]|]. cbn [orb].
      destruct (isprime v) eqn:Q.
      * apply P in Q. destruct (Z.eqb_spec v (-1)); [lia|]. destruct (Z.eqb_spec v (-2)); [lia|]. auto.
      * split; [reflexivity|right; split; [intros [x X]; discriminate|right]]. intros X. apply P in X. congruence.
    + split; [reflexivity|right; split; [intros [x X]; discriminate|auto]].
Qed.

Ltac is_item t r := apply (item_closed "," t r); vm_compute; intuition discriminate.
Ltac is_dec := constructor; [discriminate|]; repeat (constructor; [vm_compute; lia|]); constructor.
Example C47_coefficient_ex : let s := Stream (lit "-12,0x1f,") false in
  delimiter ","%char /\ item "," (rest s) (lit "-12") (lit "0x1f,") true /\ number (lit "-12") (-12) /\
  item "," (lit "0x1f,") (lit "0x1f") [] true /\ number (lit "0x1f") 31 /\
  a_gen_input "," 8 (Prime 251) s = (Value (Mod 239 251), Stream (lit "0x1f,") false) /\
  a_gen_input "," 8 (Prime 251) (Stream (lit "0x1f,") false) = (Value (Mod 31 251), Stream [] false) /\
  a_gen_input "," 8 (Prime 251) (Stream [] false) = (Stop, Stream [] true).
Proof.
  cbv zeta. split; [now left|]. split; [is_item (lit "-12") (lit "0x1f,")|]. split; [apply (num_neg (lit "12") 12); change 12 with (dec (lit "12")); is_dec|].
  split; [is_item (lit "0x1f") (@nil ascii)|].
  split; [apply num_pos, mag_hex; [now left|discriminate|]; apply (hexnum_snoc (lit "1") 1 "f" 15); [apply (hexnum_snoc [] 0 "1" 1); [constructor|]|]; vm_compute; tauto|].
  repeat split; reflexivity.
Qed.

Lemma abc_no_number v : ~ number (lit "abc") v.
Proof.
  intros H. inversion H as [t w M E|t w M E]; subst.
  apply magnitude_head in M. destruct M as (c & u & X & Dc). vm_compute in X. injection X as <- _. revert Dc. nodigit.
Qed.
(** A text that is no number becomes the coefficient 0. *)
Theorem C47_text_refuted : exists s t r f, eof s = false /\ item "," (rest s) t r true /\ (forall v, ~ number t v) /\
  fst (a_gen_input "," 8 f s) = Value (field_ielement f 0).
Proof.
  exists (Stream (lit "abc,5") false), (lit "abc"), (lit "5"), (Prime 251). split; [reflexivity|]. split; [is_item (lit "abc") (lit "5")|].
  split; [exact abc_no_number|reflexivity].
Qed.

(** A negative coefficient over a binary field becomes its absolute value. *)
Theorem C47_negative_refuted : exists s t r v e, eof s = false /\ item "," (rest s) t r true /\ number t v /\
  fst (a_gen_input "," 8 (Binary [1; 1; 0; 1; 1; 0; 0; 0; 1]) s) = Value e /\ v = -5 /\ field_elementi e = 5.
Proof.
  exists (Stream (lit "-5,1") false), (lit "-5"), (lit "1"), (-5), (FF [1; 0; 1]). split; [reflexivity|]. split; [is_item (lit "-5") (lit "1")|].
  split; [apply (num_neg (lit "5") 5); change 5 with (dec (lit "5")); is_dec|]. repeat split; reflexivity.
Qed.

(** The binary field stage takes the end of the input for an absent exponent: with "5,2," both later
    exponents are missing and the field x^5 + x^2 + 1 is used. *)
Theorem C47_binary_refuted irreducible : irreducible [1; 0; 1; 0; 0; 1] = true ->
  exists s s1 s2, input_short "," s = (5, s1) /\ input_short "," s1 = (2, s2) /\ rest s2 = [] /\
    field_gen_input_binary irreducible "," 5 s = Ok (Value [1; 0; 1; 0; 0; 1], Stream [] true).
Proof.
  intros H. exists (Stream (lit "5,2,") false), (Stream (lit "2,") false), (Stream [] false). split; [reflexivity|]. split; [reflexivity|]. split; [reflexivity|].
  transitivity (@Ok (outcome (list Z) * stream) (match (if irreducible [1;0;1;0;0;1] then Some [1;0;1;0;0;1] else None) with Some v => Value v | None => Again end, Stream [] true)); [vm_compute; reflexivity|].
  rewrite H. reflexivity.
Qed.
(** the full length of the text: all four numbers given *)
Example C47_binary_ex : field_gen_input_binary (fun _ => true) "," 8 (Stream (lit "8,4,3,1,9") false) = Ok (Value [1; 1; 0; 1; 1; 0; 0; 0; 1], Stream (lit "9") false).
Proof. vm_compute. reflexivity. Qed.

(** What the binary field stage does with the four numbers it reads, exactly: it never leaves the
    coefficient vector; a number that is refused ends the reading, so the later ones stay in the input;
    and a field is accepted for exactly the coefficient vector of x^m + x^e1 + x^e2 + x^e3 + 1 over the
    positive exponents. Missing from the full statement: the numbers may be the sentinels of the end
    of the input, see [C47_binary_refuted]. *)
Definition coefficient (bits e1 e2 e3 i : Z) : Z :=
  if (i =? 0) || (i =? bits) || (i =? e1) || (i =? e2) || (i =? e3) then 1 else 0.
Definition refused (bits e : Z) : bool := (e =? -1) || (bits <? e).
Lemma wr_pos (v : list Z) bits e f : length v = Z.to_nat (bits + 1) -> e <= bits ->
  (forall i, 0 <= i <= bits -> nth (Z.to_nat i) v 0 = f i) ->
  exists v', (if 0 <? e then wr v (Z.to_nat e) 1 else Ok v) = Ok v' /\ length v' = Z.to_nat (bits + 1) /\
    forall i, 0 <= i <= bits -> nth (Z.to_nat i) v' 0 = if (0 <? e) && (i =? e) then 1 else f i.
Proof.
  intros L E F. destruct (Z.ltb_spec 0 e) as [P|N].
  - rewrite wr_ok by lia. eexists. split; [reflexivity|]. split; [now rewrite upd_length|]. intros i I.
    rewrite upd_nth by lia. cbn [andb]. destruct (Nat.eqb_spec (Z.to_nat i) (Z.to_nat e)); destruct (Z.eqb_spec i e); try lia; auto.
  - exists v. split; [reflexivity|]. split; [exact L|]. intros i I. cbn [andb]. auto.
Qed.
Theorem C47_binary_partial irreducible d bits s m s1 e1 s2 e2 s3 e3 s4 : 1 <= bits ->
  input_short d s = (m, s1) -> input_short d s1 = (e1, s2) -> input_short d s2 = (e2, s3) -> input_short d s3 = (e3, s4) ->
  exists o, field_gen_input_binary irreducible d bits s =
      Ok (o, if negb (m =? bits) then s1 else if refused bits e1 then s2 else if refused bits e2 then s3 else s4) /\
    o <> Stop /\
    forall v, o = Value v <->
      (m = bits /\ refused bits e1 = false /\ refused bits e2 = false /\ refused bits e3 = false /\
       ~ (e1 = 0 /\ e2 = 0 /\ e3 = 0) /\ irreducible v = true /\ length v = Z.to_nat (bits + 1) /\
       forall i, 0 <= i <= bits -> nth (Z.to_nat i) v 0 = coefficient bits e1 e2 e3 i).
Proof.
  intros B R0 R1 R2 R3. unfold field_gen_input_binary. rewrite R0. destruct (Z.eqb_spec m bits) as [->|N]; cbn [negb].
  2: { exists Again. split; [reflexivity|]. split; [discriminate|]. intros v. split; [discriminate|]. intros (X & _). contradiction. }
  rewrite R1. fold (refused bits e1). destruct (refused bits e1) eqn:F1.
  { exists Again. split; [reflexivity|]. split; [discriminate|]. intros v. split; [discriminate|]. intros (_ & X & _). discriminate. }
  rewrite R2. fold (refused bits e2). destruct (refused bits e2) eqn:F2.
  { exists Again. split; [reflexivity|]. split; [discriminate|]. intros v. split; [discriminate|]. intros (_ & _ & X & _). discriminate. }
  rewrite R3. fold (refused bits e3). destruct (refused bits e3) eqn:F3.
  { exists Again. split; [reflexivity|]. split; [discriminate|]. intros v. split; [discriminate|]. intros (_ & _ & _ & X & _). discriminate. }
  unfold field_input_binary. rewrite Z.eqb_refl. cbn [negb]. fold (refused bits e1) (refused bits e2) (refused bits e3). rewrite F1, F2, F3.
  destruct ((e1 =? 0) && (e2 =? 0) && (e3 =? 0)) eqn:F0.
  { exists Again. split; [reflexivity|]. split; [discriminate|]. intros v. split; [discriminate|]. intros (_ & _ & _ & _ & X & _). exfalso. lia. }
  assert (E0 : ~ (e1 = 0 /\ e2 = 0 /\ e3 = 0)) by (clear - F0; lia).
  assert (B1 : e1 <= bits) by (clear - F1; unfold refused in F1; lia).
  assert (B2 : e2 <= bits) by (clear - F2; unfold refused in F2; lia).
  assert (B3 : e3 <= bits) by (clear - F3; unfold refused in F3; lia).
  assert (L0 : length (repeat 0 (Z.to_nat (bits + 1))) = Z.to_nat (bits + 1)) by apply repeat_length.
  assert (G0 : forall i, 0 <= i <= bits -> nth (Z.to_nat i) (repeat 0 (Z.to_nat (bits + 1))) 0 = (fun _ => 0) i) by (intros; apply nth_repeat).
  destruct (wr_pos _ bits bits _ L0 (Z.le_refl bits) G0) as (v1 & W1 & L1 & G1). replace (0 <? bits) with true in W1, G1 by (clear - B; lia). rewrite W1. cbn [bind].
  destruct (wr_pos _ bits e1 _ L1 B1 G1) as (v2 & W2 & L2 & G2). rewrite W2. cbn [bind].
  destruct (wr_pos _ bits e2 _ L2 B2 G2) as (v3 & W3 & L3 & G3). rewrite W3. cbn [bind].
  destruct (wr_pos _ bits e3 _ L3 B3 G3) as (v4 & W4 & L4 & G4). rewrite W4. cbn [bind].
  rewrite wr_ok by (clear - L4 B; lia). cbn [bind].
  assert (L : length (upd v4 0 1) = Z.to_nat (bits + 1)) by now rewrite upd_length.
  assert (G : forall i, 0 <= i <= bits -> nth (Z.to_nat i) (upd v4 0 1) 0 = coefficient bits e1 e2 e3 i).
  { intros i I. rewrite upd_nth by (clear - L4 B; lia). unfold coefficient. destruct (Z.eqb_spec i 0) as [->|Ni]; [reflexivity|].
    replace (Z.to_nat i =? 0)%nat with false by (symmetry; apply Nat.eqb_neq; clear - Ni I; lia). rewrite G4 by exact I. cbn [orb andb]. clear - Ni I.
    destruct (Z.eqb_spec i bits); destruct (Z.eqb_spec i e1); destruct (Z.eqb_spec i e2); destruct (Z.eqb_spec i e3);
      destruct (Z.ltb_spec 0 e1); destruct (Z.ltb_spec 0 e2); destruct (Z.ltb_spec 0 e3); cbn [orb andb]; try reflexivity; lia. }
  assert (U : forall v, length v = Z.to_nat (bits + 1) -> (forall i, 0 <= i <= bits -> nth (Z.to_nat i) v 0 = coefficient bits e1 e2 e3 i) -> v = upd v4 0 1).
  { intros v Lv Gv. apply (nth_ext _ _ 0 0); [congruence|]. intros n Hn. assert (Hi : 0 <= Z.of_nat n <= bits) by (clear - Hn Lv B; lia). specialize (Gv _ Hi). specialize (G _ Hi).
    rewrite Nat2Z.id in Gv, G. congruence. }
  destruct (irreducible (upd v4 0 1)) eqn:Ir.
  - eexists. split; [reflexivity|]. split; [discriminate|]. intros v. split.
    + intros [= <-]. split; [reflexivity|]. do 3 (split; [reflexivity|]). split; [exact E0|]. auto.
    + intros (_ & _ & _ & _ & _ & _ & Lv & Gv). now rewrite <- (U v Lv Gv).
  - eexists. split; [reflexivity|]. split; [discriminate|]. intros v. split; [discriminate|].
    intros (_ & _ & _ & _ & _ & Iv & Lv & Gv). rewrite (U v Lv Gv) in Iv. congruence.
Qed.
(** an exponent above the degree: the two numbers after it are not read *)
Example C47_binary_partial_ex : 1 <= 8 /\
  field_gen_input_binary (fun _ => true) "," 8 (Stream (lit "8,9,3,1,") false) = Ok (Again, Stream (lit "3,1,") false) /\
  field_gen_input_binary (fun _ => true) "," 8 (Stream (lit "8,4,3,1,") false) = Ok (Value [1; 1; 0; 1; 1; 0; 0; 0; 1], Stream [] false).
Proof. split; [lia|]. split; vm_compute; reflexivity. Qed.
Print Assumptions C47_binary_partial.

(** The family parameter is not looked at: the end of the input is the parameter -2 and an empty item
    is the parameter -1; both are accepted for BN curves. *)
Theorem C47_family_refuted : exists bn, store FAMILY_BN = Some bn /\
  (exists z s', family_gen_seed_read "," 10 (Stream [] false) = (Value z, s') /\ family_gen_field isprime_b bn z = Some 373) /\
  (exists z s', family_gen_seed_read "," 10 (Stream (lit ",") false) = (Value z, s') /\ family_gen_field isprime_b bn z = Some 19).
Proof. eexists. split; [reflexivity|]. split; eexists; eexists; (split; [reflexivity|vm_compute; reflexivity]). Qed.

(** ** C55 *)
(** Full statement: reading a text returns the characters before the next delimiter or the end of the
    input. Proved: when there is a delimiter (and no NUL). Missing: the end of the input, see
    [C55_refuted]. *)
Theorem C55_delimited_partial d s t r : item d (rest s) t r true -> ~ In "000"%char t ->
  input_string d s = (t, Stream r (eof s)).
Proof.
  intros It N. unfold input_string. rewrite (getdelim_item d s t r true It), orb_false_r. cbn [line_of]. rewrite app_length. destruct t as [|c t].
  - reflexivity.
  - replace (length (c :: t) + length [d] =? 1)%nat with false by (cbn [length]; lia). rewrite removelast_last. now rewrite cstring_id.
Qed.
Example C55_delimited_ex : item "," (lit "00ff,abc") (lit "00ff") (lit "abc") true /\ ~ In "000"%char (lit "00ff") /\
  input_string "," (Stream (lit "00ff,abc") false) = (lit "00ff", Stream (lit "abc") false).
Proof. split; [is_item (lit "00ff") (lit "abc")|]. split; [vm_compute; intuition discriminate|reflexivity]. Qed.

(** Without a delimiter the last character is lost. *)
Theorem C55_refuted d t : ~ In d t -> ~ In "000"%char t -> t <> [] -> fst (input_string d (Stream t false)) = removelast t.
Proof.
  intros N Z E. unfold input_string. rewrite (getdelim_item d (Stream t false) t [] false (item_last d t N E)). cbn [line_of].
  destruct (length t =? 1)%nat eqn:L.
  - destruct t as [|c [|c' t]]; [congruence|reflexivity|discriminate].
  - cbn [fst]. apply cstring_id. intros X. apply Z. rewrite (app_removelast_last d E). apply in_app_iff. now left.
Qed.
Example C55_refuted_ex : exists s, item "," s s [] false /\ fst (input_string "," (Stream s false)) <> s.
Proof. exists (lit "abc"). split; [constructor; [vm_compute; intuition discriminate|discriminate]|discriminate]. Qed.

(** ** C65 *)
From Verif Require Engine_Model.
(** a stage function as the engine calls it: the world is the stream *)
Definition result {A} (o : outcome A) : Z := match o with Value _ => 1 | Again => 0 | Stop => Engine_Model.INT_MIN end.
Definition stage {A} (g : stream -> outcome A * stream) (w : stream) (av : Z) : stream * Z * Engine_Model.gout :=
  let (o, w') := g w in (w', av, Engine_Model.Ret (result o)).
(** a plan with this stage at place [k] *)
Definition plan_with {A} (k : Z) (g : stream -> outcome A * stream) : Engine_Model.setup stream :=
  Engine_Model.mkSetup (fun i => if i =? k then Some (stage g) else None) (fun _ => None) (fun _ => None).
Definition binary_stage irr bits (s : stream) : outcome (list Z) * stream :=
  match field_gen_input_binary irr "," bits s with Ok r => r | _ => (Stop, s) end.

Definition stop_of (r : list Engine_Model.event * Engine_Model.stop * stream) : Engine_Model.stop := snd (fst r).
(** Full statement: when the input has ended, a stage that reads from it ends the run.
    Missing: the binary field stage, see [C65_refuted]. *)
Theorem C65_partial isprime d bits f k fuel s av : 0 <= k < 2 ^ 31 -> rest s = [] ->
  stop_of (Engine_Model.exhaustive_gen (plan_with k (a_gen_input d bits f)) k (k + 1) (S fuel) s av) = Engine_Model.Returned 0 /\
  stop_of (Engine_Model.exhaustive_gen (plan_with k (field_gen_input_prime isprime d bits)) k (k + 1) (S fuel) s av) = Engine_Model.Returned 0.
Proof.
  intros K R.
  assert (G : forall A (g : stream -> outcome A * stream), fst (g s) = Stop ->
    stop_of (Engine_Model.exhaustive_gen (plan_with k g) k (k + 1) (S fuel) s av) = Engine_Model.Returned 0).
  { intros A g G. unfold stop_of, Engine_Model.exhaustive_gen, Engine_Model.exhaustive_gen_retry. replace (k =? k + 1) with false by lia. replace (k >? k + 1) with false by lia.
    cbn [Engine_Model.run Engine_Model.state]. replace (k <? k + 1) with true by lia. unfold Engine_Model.step, plan_with.
    cbn [Engine_Model.state Engine_Model.generators Engine_Model.validators Engine_Model.unrolls Engine_Model.world Engine_Model.avma]. rewrite Z.eqb_refl. unfold stage.
    destruct (g s) as [o w]. cbn [fst] in G. subst o. cbn [result].
    unfold Engine_Model.INT_MAX. replace (k + Engine_Model.INT_MIN >? 2 ^ 31 - 1) with false by (unfold Engine_Model.INT_MIN; lia).
    reflexivity. }
  split; apply G.
  - unfold a_gen_input, input_int. rewrite input_i_end by exact R. reflexivity.
  - unfold field_gen_input_prime, input_prime. rewrite input_i_end by exact R. reflexivity.
Qed.
Example C65_ex : stop_of (Engine_Model.exhaustive_gen (plan_with 1 (a_gen_input "," 8 (Prime 251))) 1 2 5 (Stream [] false) 0) = Engine_Model.Returned 0 /\
  stop_of (Engine_Model.exhaustive_gen (plan_with 1 (a_gen_input "," 8 (Prime 251))) 1 2 5 (Stream (lit ",,7,") false) 0) = Engine_Model.Returned 1.
Proof. split; vm_compute; reflexivity. Qed.

(** The binary field stage is called again and again: however long one waits, the run has not ended. *)
Theorem C65_refuted irreducible bits k fuel av : 0 <= k < 2 ^ 31 -> 0 < bits ->
  stop_of (Engine_Model.exhaustive_gen (plan_with k (binary_stage irreducible bits)) k (k + 1) fuel (Stream [] false) av) = Engine_Model.NoFuel.
Proof.
  intros K B. unfold stop_of, Engine_Model.exhaustive_gen, Engine_Model.exhaustive_gen_retry. replace (k =? k + 1) with false by lia. replace (k >? k + 1) with false by lia.
  generalize (fun i : Z => if i =? 0 then av else 0). generalize (fun _ : Z => 0).
  assert (G : forall e, binary_stage irreducible bits (Stream [] e) = (Again, Stream [] true)).
  { intros e. unfold binary_stage, field_gen_input_binary, input_short. rewrite input_i_end by reflexivity. replace (-2 =? bits) with false by lia. reflexivity. }
  generalize false. revert av. induction fuel as [|fuel IH]; intros av e tr tp; cbn [Engine_Model.run Engine_Model.state]; replace (k <? k + 1) with true by lia; [reflexivity|].
  unfold Engine_Model.step, plan_with.
  cbn [Engine_Model.state Engine_Model.generators Engine_Model.validators Engine_Model.unrolls Engine_Model.world Engine_Model.avma]. rewrite Z.eqb_refl. unfold stage. rewrite G.
  cbn [result]. rewrite Z.add_0_r. unfold Engine_Model.INT_MAX. replace (k >? 2 ^ 31 - 1) with false by lia. replace (k <? k) with false by lia. replace (k <? 0) with false by lia.
  replace (0 =? Engine_Model.INT_MIN) with false by reflexivity. cbn [Z.leb Z.compare Z.eqb negb andb orb]. rewrite Z.sub_diag. cbn [Z.to_nat Engine_Model.unroll_loop].
  replace (k >? k) with false by lia.
  specialize (IH (Engine_Model.upd tp k av k) true tr (Engine_Model.upd tp k av)). revert IH. unfold plan_with, stage.
  cbn [Engine_Model.tops Engine_Model.tries].
  match goal with |- context [Engine_Model.run ?a ?c ?d ?e fuel ?l] => destruct (Engine_Model.run a c d e fuel l) as [[ev r] w] end.
  exact (fun H => H).
Qed.
Example C65_refuted_ex : stop_of (Engine_Model.exhaustive_gen (plan_with 1 (binary_stage (fun _ => true) 5)) 1 2 50 (Stream (lit "5,2,0,0") false) 0) = Engine_Model.Returned 1.
Proof. vm_compute. reflexivity. Qed.

Print Assumptions C54_bound_partial.
Print Assumptions C54_prime.
Print Assumptions C54_refuted.
Print Assumptions C47_coefficient_partial.
Print Assumptions C47_prime_partial.
Print Assumptions C47_text_refuted.
Print Assumptions C47_negative_refuted.
Print Assumptions C47_binary_refuted.
Print Assumptions C47_family_refuted.
Print Assumptions C55_delimited_partial.
Print Assumptions C55_refuted.
Print Assumptions C65_partial.
Print Assumptions C65_refuted.
