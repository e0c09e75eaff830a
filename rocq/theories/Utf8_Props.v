(** C67: strings are checked to be UTF-8, exactly, and the text of a document is UTF-8. *)
From Coq Require Import Ascii String.
From Verif Require Import Base Str_Model Json_Spec Json_Model Json_Proofs Utf8_Spec CurveText_Props.
Local Open Scope Z_scope.
Local Open Scope list_scope.

(** ** bytes *)
Lemma byte_range c : 0 <= byte c < 256.
Proof. unfold byte. pose proof (nat_ascii_bounded c). lia. Qed.
Lemma within_byte l h c : within l h c <-> Z.of_nat l <= byte c <= Z.of_nat h.
Proof. unfold within, byte. lia. Qed.
Definition cont (b : Z) : bool := (128 <=? b) && (b <=? 191).
Definition lead (a : Z) : Z :=
  if a <? 128 then 1 else if a <? 194 then 0 else if a <? 224 then 2 else if a <? 240 then 3 else if a <? 245 then 4 else 0.
Definition byte_check (c : ascii) : bool :=
  let b := byte c in
  Bool.eqb (is_cont c) (cont b) && (num_bytes_in_utf8_sequence c =? lead b)
  && (Z.land b 31 =? b mod 32) && (Z.land b 15 =? b mod 16) && (Z.land b 7 =? b mod 8) && (Z.land b 63 =? b mod 64).
Lemma byte_checked c : byte_check c = true.
Proof. destruct c as [[] [] [] [] [] [] [] []]; vm_compute; reflexivity. Qed.
Lemma is_cont_eq c : is_cont c = cont (byte c).
Proof. pose proof (byte_checked c) as K. unfold byte_check in K. cbv zeta in K. andbs. now apply Bool.eqb_prop. Qed.
Lemma lead_eq c : num_bytes_in_utf8_sequence c = lead (byte c).
Proof. pose proof (byte_checked c) as K. unfold byte_check in K. cbv zeta in K. andbs. now apply Z.eqb_eq. Qed.
Lemma lows c : Z.land (byte c) 31 = byte c mod 32 /\ Z.land (byte c) 15 = byte c mod 16 /\ Z.land (byte c) 7 = byte c mod 8 /\ Z.land (byte c) 63 = byte c mod 64.
Proof. pose proof (byte_checked c) as K. unfold byte_check in K. cbv zeta in K. andbs. rewrite <- !Z.eqb_eq. tauto. Qed.
Lemma lor_six x y : 0 <= y < 64 -> Z.lor (Z.shiftl x 6) y = 64 * x + y.
Proof.
  intros Y. assert (L : Z.land (Z.shiftl x 6) y = 0).
  { apply Z.bits_inj'. intros n N. rewrite Z.land_spec, Z.bits_0. destruct (Z_lt_le_dec n 6) as [H|H].
    - now rewrite Z.shiftl_spec_low.
    - rewrite <- (Z.mod_small y (2 ^ 6)) by exact Y. rewrite Z.mod_pow2_bits_high by lia. apply andb_false_r. }
  rewrite <- Z.lxor_lor, <- Z.add_nocarry_lxor by exact L. rewrite Z.shiftl_mul_pow2 by lia. change (2 ^ 6) with 64. ring.
Qed.

(** ** one character *)
Lemma cont_iff b : cont b = true <-> 128 <= b <= 191.
Proof. unfold cont. rewrite andb_true_iff, !Z.leb_le. tauto. Qed.
Lemma cont_no : cont (byte zero) = false. Proof. reflexivity. Qed.
Lemma sub_mod a m k r : a = m * k + r -> 0 <= r < m -> a mod m = r.
Proof. intros E R. symmetry. apply (Z.mod_unique a m k r); [left; exact R|exact E]. Qed.

Definition good_code (len cp : Z) : bool :=
  negb (((cp <? 128) && (1 <? len)) || ((cp <? 2048) && (2 <? len)) || ((cp <? 65536) && (3 <? len)))
       && negb (1114111 <? cp) && negb ((55296 <=? cp) && (cp <=? 57343)).
Lemma good_code_iff len cp : good_code len cp = true <->
  ~ (cp < 128 /\ 1 < len) /\ ~ (cp < 2048 /\ 2 < len) /\ ~ (cp < 65536 /\ 3 < len) /\ cp <= 1114111 /\ ~ 55296 <= cp <= 57343.
Proof.
  unfold good_code. rewrite !andb_true_iff, !negb_true_iff, !orb_false_iff, !andb_false_iff, !Z.ltb_ge, !Z.leb_gt. lia.
Qed.

Lemma verify_eq string : exists cp, verify_utf8_sequence string =
  (lead (byte (nth 0 string zero)), match cp with Some cp => good_code (lead (byte (nth 0 string zero))) cp | None => false end) /\
  let c i := nth i string zero in let b i := byte (c i) in let len := lead (b 0%nat) in
  match cp with
  | Some cp => (len = 1 /\ cp = b 0%nat) \/
     (len = 2 /\ 128 <= b 1%nat <= 191 /\ cp = 64 * (b 0%nat - 192) + (b 1%nat - 128)) \/
     (len = 3 /\ 128 <= b 1%nat <= 191 /\ 128 <= b 2%nat <= 191 /\ cp = 64 * (64 * (b 0%nat - 224) + (b 1%nat - 128)) + (b 2%nat - 128)) \/
     (len = 4 /\ 128 <= b 1%nat <= 191 /\ 128 <= b 2%nat <= 191 /\ 128 <= b 3%nat <= 191 /\
      cp = 64 * (64 * (64 * (b 0%nat - 240) + (b 1%nat - 128)) + (b 2%nat - 128)) + (b 3%nat - 128))
  | None => len = 0 \/ (2 <= len /\ ~ 128 <= b 1%nat <= 191) \/ (3 <= len /\ ~ 128 <= b 2%nat <= 191) \/ (4 <= len /\ ~ 128 <= b 3%nat <= 191)
  end.
Proof.
  unfold verify_utf8_sequence. cbv zeta. rewrite lead_eq, !is_cont_eq.
  set (a := nth 0 string zero). set (b := nth 1 string zero). set (c := nth 2 string zero). set (d := nth 3 string zero).
  pose proof (byte_range a) as Ra.
  assert (LR : forall x, lead x = 0 \/ (lead x = 1 /\ x < 128) \/ (lead x = 2 /\ 194 <= x < 224) \/ (lead x = 3 /\ 224 <= x < 240) \/ (lead x = 4 /\ 240 <= x < 245)).
  { intros x. unfold lead. repeat match goal with |- context [?p <? ?q] => destruct (Z.ltb_spec p q) end; lia. }
  assert (T : forall x, 128 <= byte x <= 191 -> Z.land (byte x) 63 = byte x - 128).
  { intros x R. destruct (lows x) as (_ & _ & _ & ->). apply (sub_mod _ _ 2); lia. }
  destruct (LR (byte a)) as [E|[(E & R)|[(E & R)|[(E & R)|(E & R)]]]]; rewrite E;
    cbn [Z.eqb Pos.eqb andb].
  - exists None. split; [reflexivity|]. now left.
  - exists (Some (byte a)). split; [reflexivity|]. left. auto.
  - destruct (cont (byte b)) eqn:B.
    + apply cont_iff in B. eexists (Some _). split; [reflexivity|]. right. left. split; [reflexivity|]. split; [exact B|].
      rewrite (T b B), lor_six by lia. destruct (lows a) as (-> & _). rewrite (sub_mod (byte a) 32 6 (byte a - 192)) by lia. reflexivity.
    + exists None. split; [reflexivity|]. right. left. split; [lia|]. intros X. apply cont_iff in X. congruence.
  - destruct (cont (byte b)) eqn:B; [destruct (cont (byte c)) eqn:C|].
    + apply cont_iff in B. apply cont_iff in C. eexists (Some _). split; [reflexivity|]. do 2 right. left.
      split; [reflexivity|]. split; [exact B|]. split; [exact C|].
      rewrite (T b B), (T c C), !lor_six by lia. destruct (lows a) as (_ & -> & _). rewrite (sub_mod (byte a) 16 14 (byte a - 224)) by lia. reflexivity.
    + exists None. split; [reflexivity|]. do 2 right. left. split; [lia|]. intros X. apply cont_iff in X. congruence.
    + exists None. split; [reflexivity|]. right. left. split; [lia|]. intros X. apply cont_iff in X. congruence.
  - destruct (cont (byte b)) eqn:B; [destruct (cont (byte c)) eqn:C; [destruct (cont (byte d)) eqn:D|]|].
    + apply cont_iff in B. apply cont_iff in C. apply cont_iff in D. eexists (Some _). split; [reflexivity|]. do 3 right.
      split; [reflexivity|]. split; [exact B|]. split; [exact C|]. split; [exact D|].
      rewrite (T b B), (T c C), (T d D), !lor_six by lia. destruct (lows a) as (_ & _ & -> & _). rewrite (sub_mod (byte a) 8 30 (byte a - 240)) by lia. reflexivity.
    + exists None. split; [reflexivity|]. do 3 right. split; [lia|]. intros X. apply cont_iff in X. congruence.
    + exists None. split; [reflexivity|]. do 2 right. left. split; [lia|]. intros X. apply cont_iff in X. congruence.
    + exists None. split; [reflexivity|]. right. left. split; [lia|]. intros X. apply cont_iff in X. congruence.
Qed.

Lemma lead_of a : (lead a = 1 <-> a < 128) /\ (lead a = 2 <-> 194 <= a < 224) /\ (lead a = 3 <-> 224 <= a < 240) /\ (lead a = 4 <-> 240 <= a < 245).
Proof. unfold lead. repeat match goal with |- context [?p <? ?q] => destruct (Z.ltb_spec p q) end; lia. Qed.

Ltac bytes_of := repeat match goal with H : within _ _ _ |- _ => apply within_byte in H | H : tail _ |- _ => apply within_byte in H end.
Lemma verify_ok ch t : utf8_char ch -> verify_utf8_sequence (ch ++ t) = (Z.of_nat (length ch), true).
Proof.
  intros H. destruct (verify_eq (ch ++ t)) as (cp & E & C). rewrite E. cbv zeta in C. clear E.
  destruct H; cbn [app nth Datatypes.length] in *; bytes_of;
    match goal with |- context [lead ?x] => pose proof (lead_of x) as L; pose proof (byte_range a) as R end;
    (destruct cp as [cp|]; [|exfalso; lia]); f_equal; try lia; apply good_code_iff; lia.
Qed.
Lemma nth_tail string i : byte (nth i string zero) <> 0 -> (i < length string)%nat.
Proof. intros H. destruct (Nat.lt_ge_cases i (length string)) as [L|L]; [exact L|]. rewrite nth_overflow in H by exact L. now elim H. Qed.
Ltac isin := apply within_byte; lia.
Lemma verify_conv string len : string <> [] -> verify_utf8_sequence string = (len, true) ->
  exists ch t, string = ch ++ t /\ utf8_char ch /\ len = Z.of_nat (length ch).
Proof.
  intros N H. destruct (verify_eq string) as (cp & E & C). rewrite E in H. cbv zeta in C. clear E.
  destruct cp as [cp|]; [|discriminate]. injection H as L G. apply good_code_iff in G.
  destruct string as [|a s]; [congruence|]. pose proof (lead_of (byte a)) as LO. pose proof (byte_range a) as R.
  assert (P : forall i, 128 <= byte (nth i (a :: s) zero) -> (i < length (a :: s))%nat) by (intros i X; apply nth_tail; lia).
  destruct C as [(C1 & C2)|[(C1 & B & C2)|[(C1 & B & D & C2)|(C1 & B & D & F & C2)]]].
  - exists [a], s. cbn [nth] in *. split; [reflexivity|]. split; [apply utf8_1; isin|cbn; lia].
  - pose proof (P 1%nat ltac:(lia)) as Q. destruct s as [|b s]; [cbn in Q; lia|]. clear P. cbn [nth] in *.
    exists [a; b], s. split; [reflexivity|]. split; [apply utf8_2; isin|cbn; lia].
  - pose proof (P 2%nat ltac:(lia)) as Q. destruct s as [|b [|c s]]; [cbn in Q; lia|cbn in Q; lia|]. clear P. cbn [nth] in *.
    exists [a; b; c], s. split; [reflexivity|]. split; [|cbn; lia].
    destruct (Z.eq_dec (byte a) 224) as [E|E1]; [apply utf8_3a; isin|].
    destruct (Z.eq_dec (byte a) 237) as [E|E2]; [apply utf8_3c; isin|].
    destruct (Z_lt_le_dec (byte a) 237); [apply utf8_3b; isin|apply utf8_3d; isin].
  - pose proof (P 3%nat ltac:(lia)) as Q. destruct s as [|b [|c [|d s]]]; [cbn in Q; lia|cbn in Q; lia|cbn in Q; lia|]. clear P. cbn [nth] in *.
    exists [a; b; c; d], s. split; [reflexivity|]. split; [|cbn; lia].
    destruct (Z.eq_dec (byte a) 240) as [E|E1]; [apply utf8_4a; isin|].
    destruct (Z.eq_dec (byte a) 244) as [E|E2]; [apply utf8_4c; isin|]. apply utf8_4b; isin.
Qed.

(** ** C67 *)
Lemma char_pos ch : utf8_char ch -> (0 < length ch)%nat.
Proof. destruct 1; cbn; lia. Qed.
Lemma loop_ok t : utf8 t -> forall fuel, (length t <= fuel)%nat -> utf8_loop fuel t = true.
Proof.
  induction 1 as [|ch t C _ IH]; intros fuel L; [destruct fuel; reflexivity|].
  pose proof (char_pos ch C) as P. rewrite app_length in L. destruct fuel as [|fuel]; [lia|].
  assert (E : utf8_loop (S fuel) (ch ++ t) = let '(len, ok) := verify_utf8_sequence (ch ++ t) in
      if ok then utf8_loop fuel (skipn (Z.to_nat len) (ch ++ t)) else false).
  { destruct ch; [cbn in P; lia|reflexivity]. }
  rewrite E, (verify_ok ch t C), Nat2Z.id, skipn_app, skipn_all, Nat.sub_diag. apply IH. lia.
Qed.
Lemma loop_conv fuel : forall t, utf8_loop fuel t = true -> utf8 t.
Proof.
  induction fuel as [|fuel IH]; intros [|c t] H; try constructor; [discriminate|].
  cbn [utf8_loop] in H. destruct (verify_utf8_sequence (c :: t)) as [len [|]] eqn:V; [|discriminate].
  apply verify_conv in V; [|discriminate]. destruct V as (ch & u & E & C & ->). rewrite E in *.
  rewrite Nat2Z.id, skipn_app, skipn_all, Nat.sub_diag in H. constructor; [exact C|]. apply IH. exact H.
Qed.
(** A string becomes a value exactly when it is well-formed UTF-8, and the value holds that string. *)
Theorem C67_string_checked s : (utf8 s -> json_value_init_string s = Some (JStr s)) /\ (~ utf8 s -> json_value_init_string s = None).
Proof.
  unfold json_value_init_string, is_valid_utf8. split; intros H.
  - now rewrite loop_ok.
  - destruct (utf8_loop (length s) s) eqn:E; [|reflexivity]. apply loop_conv in E. contradiction.
Qed.
Print Assumptions C67_string_checked.

(** the text *)
Lemma utf8_app a b : utf8 a -> utf8 b -> utf8 (a ++ b).
Proof. induction 1 as [|ch t C _ IH]; intros B; [exact B|]. rewrite <- app_assoc. constructor; [exact C|]. now apply IH. Qed.
Lemma utf8_ascii t : Forall (fun c => (nat_of_ascii c < 128)%nat) t -> utf8 t.
Proof.
  induction 1 as [|c t H _ IH]; [constructor|]. apply (utf8_more [c]); [|exact IH]. apply utf8_1. unfold within. lia.
Qed.
Definition esc_high (c : ascii) : bool :=
  if (nat_of_ascii c <? 128)%nat then forallb (fun d => (nat_of_ascii d <? 128)%nat) (esc c)
  else match esc c with [d] => Ascii.eqb c d | _ => false end.
Lemma esc_high_ok c : esc_high c = true.
Proof. destruct c as [[] [] [] [] [] [] [] []]; vm_compute; reflexivity. Qed.
Lemma esc_low c : (nat_of_ascii c < 128)%nat -> utf8 (esc c).
Proof.
  intros H. pose proof (esc_high_ok c) as K. unfold esc_high in K. rewrite (proj2 (Nat.ltb_lt _ _) H) in K.
  apply utf8_ascii. rewrite forallb_forall in K. apply Forall_forall. intros d I. apply Nat.ltb_lt. now apply K.
Qed.
Lemma esc_same c : (128 <= nat_of_ascii c)%nat -> esc c = [c].
Proof.
  intros H. pose proof (esc_high_ok c) as K. unfold esc_high in K. rewrite (proj2 (Nat.ltb_ge _ _) H) in K.
  destruct (esc c) as [|d [|]]; try discriminate. apply Ascii.eqb_eq in K. now subst.
Qed.
Lemma esc_utf8 s : utf8 s -> utf8 (concat (map esc s)).
Proof.
  induction 1 as [|ch t C _ IH]; [constructor|]. rewrite map_app, concat_app. apply utf8_app; [|exact IH].
  destruct (Nat.lt_ge_cases (nat_of_ascii (hd zero ch)) 128) as [L|L].
  - destruct C; cbn [hd] in L; unfold within in *; try lia. cbn [map concat]. rewrite app_nil_r. now apply esc_low.
  - assert (E : concat (map esc ch) = ch).
    { assert (F : Forall (fun c => (128 <= nat_of_ascii c)%nat) ch).
      { destruct C; cbn [hd] in L; unfold tail, within in *; repeat constructor; lia. }
      clear - F. induction F as [|c ch H _ IH]; [reflexivity|]. cbn [map concat]. rewrite (esc_same c H), IH. reflexivity. }
    rewrite E, <- (app_nil_r ch). constructor; [exact C|constructor].
Qed.
Lemma utf8_cons c t : (nat_of_ascii c < 128)%nat -> utf8 t -> utf8 (c :: t).
Proof. intros L U. apply (utf8_more [c]); [apply utf8_1; unfold within; lia|exact U]. Qed.
Ltac low := cbn; lia.
Lemma qtext_utf8 s : utf8 s -> utf8 (qtext s).
Proof. intros H. unfold qtext. apply utf8_cons; [low|]. apply utf8_app; [now apply esc_utf8|]. apply utf8_cons; [low|constructor]. Qed.
Lemma indent_utf8 n : utf8 (indent n).
Proof.
  unfold indent. induction n as [|n IH]; [constructor|]. cbn [repeat concat]. apply utf8_app; [|exact IH]. apply utf8_ascii. repeat constructor; low.
Qed.
Lemma ctext_utf8 i n : utf8 (ctext i n).
Proof. unfold ctext. destruct (i <? n - 1)%nat; [apply utf8_cons; [low|]|]; constructor. Qed.
Lemma text_utf8 v : coded v -> forall level, utf8 (Json_Proofs.text v level).
Proof.
  induction v as [s|l IH|m IH] using jval_induct; intros C level.
  - now apply qtext_utf8.
  - cbn [Json_Proofs.text]. apply utf8_cons; [low|].
    assert (N : utf8 (if (0 <? length l)%nat then ["010"%char] else [])) by (destruct (0 <? length l)%nat; [apply utf8_cons; [low|]|]; constructor).
    assert (I : utf8 (if (0 <? length l)%nat then indent level else [])) by (destruct (0 <? length l)%nat; [apply indent_utf8|constructor]).
    apply utf8_app; [exact N|]. apply utf8_app; [|apply utf8_app; [exact I|apply utf8_cons; [low|constructor]]].
    clear N I. generalize (length l) as n, 0%nat as i. intros n. revert C.
    induction IH as [|x l H _ IHl]; intros C i; [constructor|]. destruct C as (C1 & C2).
    cbn [map items_text]. apply utf8_app; [apply indent_utf8|]. apply utf8_app; [now apply H|].
    apply utf8_app; [apply ctext_utf8|]. apply utf8_cons; [low|]. now apply IHl.
  - cbn [Json_Proofs.text]. apply utf8_cons; [low|].
    assert (N : utf8 (if (0 <? length m)%nat then ["010"%char] else [])) by (destruct (0 <? length m)%nat; [apply utf8_cons; [low|]|]; constructor).
    assert (I : utf8 (if (0 <? length m)%nat then indent level else [])) by (destruct (0 <? length m)%nat; [apply indent_utf8|constructor]).
    apply utf8_app; [exact N|]. apply utf8_app; [|apply utf8_app; [exact I|apply utf8_cons; [low|constructor]]].
    clear N I. generalize (length m) as n, 0%nat as i. intros n. revert C.
    induction IH as [|x m H _ IHm]; intros C i; [constructor|]. destruct C as (C0 & C1 & C2).
    cbn [map members_text]. apply utf8_app; [apply indent_utf8|]. apply utf8_app; [now apply qtext_utf8|].
    apply utf8_cons; [low|]. apply utf8_cons; [low|]. apply utf8_app; [now apply H|].
    apply utf8_app; [apply ctext_utf8|]. apply utf8_cons; [low|]. now apply IHm.
Qed.
(** A document whose names and strings are UTF-8 has a text in UTF-8, as RFC 8259, section 8.1 wants. *)
Theorem C67_text_utf8 junk v : distinct v -> room v 0 < 2 ^ 31 - 1 -> coded v ->
  exists t, json_serialize_to_string_pretty junk v = Ok (Some (t ++ [zero])) /\ utf8 t.
Proof.
  intros D R C. pose proof (text_length v 0) as L. change (Z.of_nat 0) with 0 in L.
  exists (Json_Proofs.text v 0). split; [apply serialize_string; [exact D|unfold int_max; lia]|]. now apply text_utf8.
Qed.
Print Assumptions C67_text_utf8.

(** the euro sign, a surrogate half and an overlong slash *)
Example C67_utf8_example : let b n := ascii_of_nat n in
  utf8 [b 226; b 130; b 172]%nat /\ json_value_init_string [b 226; b 130; b 172]%nat = Some (JStr [b 226; b 130; b 172]%nat) /\
  json_value_init_string [b 237; b 160; b 128]%nat = None /\ json_value_init_string [b 192; b 175]%nat = None /\
  coded (JObj [(["k"%char], JArr [JStr [b 226; b 130; b 172]%nat])]) /\ distinct (JObj [(["k"%char], JArr [JStr [b 226; b 130; b 172]%nat])]).
Proof.
  cbv zeta.
  assert (U : utf8 (map ascii_of_nat [226; 130; 172]%nat)).
  { rewrite <- app_nil_r. apply utf8_more; [|constructor]. apply utf8_3b; vm_compute; lia. }
  split; [exact U|]. split; [vm_compute; reflexivity|]. split; [vm_compute; reflexivity|]. split; [vm_compute; reflexivity|].
  split; [|repeat split; repeat constructor; intros []].
  split; [apply utf8_ascii; repeat constructor; low|]. split; [split; [exact U|exact I]|exact I].
Qed.
