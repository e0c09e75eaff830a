(** Lemmas about str.c. *)
From Coq Require Import Ascii String.
From Verif Require Import Base Str_Model.
Local Open Scope nat_scope.
Local Open Scope list_scope.
Local Notation length := List.length.
Ltac Zify.zify_post_hook ::= Z.div_mod_to_equations.

Definition nonul (s : list ascii) : Prop := Forall (fun c => c <> zero) s.

(** ** Specification: text between separators *)
Fixpoint joined (sep : list ascii) (l : list (list ascii)) : list ascii :=
  match l with
  | [] => []
  | [s] => s
  | s :: t => s ++ sep ++ joined sep t
  end.
Definition text (s : option (list ascii)) : list ascii := match s with Some s => s | None => [] end.

(** contents of a buffer seen as a C string *)
Definition holds (b : list ascii) (s : list ascii) : Prop :=
  exists rest, b = s ++ zero :: rest.

Lemma find_nul_ok s rest : nonul s -> forall i, find_nul (s ++ zero :: rest) i = Ok (i + length s).
Proof.
  intros H. induction H as [|c s Hc H IH]; intros i; cbn [app find_nul Datatypes.length].
  - rewrite Ascii.eqb_refl, Nat.add_0_r. reflexivity.
  - destruct (Ascii.eqb_spec c zero); [contradiction|]. rewrite IH. f_equal. lia.
Qed.

Lemma upd_app {A} (a b : list A) i x : upd (a ++ b) (length a + i) x = a ++ upd b i x.
Proof. induction a; cbn [app Datatypes.length Nat.add upd]; [reflexivity|]. f_equal. assumption. Qed.

Lemma write_loop (pre s : list ascii) : forall k rest cells, length cells = k -> k <= length s + 1 ->
  for_from k (length s + 1 - k) (fun i d => wr d (length pre + i) (nth i s zero))
    (pre ++ firstn (length s + 1 - k) (s ++ [zero]) ++ cells ++ rest) = Ok (pre ++ (s ++ [zero]) ++ rest).
Proof.
  induction k as [|k IH]; intros rest cells HL HK; cbn [for_from].
  - destruct cells; [|discriminate]. rewrite firstn_all2 by (rewrite app_length; cbn; lia). reflexivity.
  - destruct cells as [|c cells]; [discriminate|]. injection HL as HL.
    assert (LF : length (firstn (length s + 1 - S k) (s ++ [zero])) = length s + 1 - S k).
    { rewrite firstn_length, app_length. cbn [Datatypes.length]. lia. }
    rewrite wr_ok by (rewrite !app_length, LF; cbn [app Datatypes.length]; lia). cbn [bind].
    rewrite upd_app.
    assert (U : forall a b : list ascii, forall x y, upd (a ++ x :: b) (length a) y = a ++ y :: b).
    { intros a b x y. rewrite <- (Nat.add_0_r (length a)), upd_app. reflexivity. }
    replace (upd _ (length s + 1 - S k) _) with (firstn (length s + 1 - S k) (s ++ [zero]) ++ nth (length s + 1 - S k) s zero :: cells ++ rest)
      by (rewrite <- (U _ _ c), LF; reflexivity).
    replace (S (length s + 1 - S k)) with (length s + 1 - k) by lia.
    rewrite <- (IH rest cells HL) by lia. f_equal. f_equal.
    replace (length s + 1 - k) with (S (length s + 1 - S k)) by lia.
    set (n := length s + 1 - S k) in *.
    assert (SF : forall (l : list ascii) m, m < length l -> firstn (S m) l = firstn m l ++ [nth m l zero]).
    { clear. induction l as [|x l IHl]; intros [|m] H; cbn in *; try lia; auto. f_equal. apply IHl. lia. }
    rewrite SF by (rewrite app_length; cbn; lia). rewrite <- app_assoc. cbn [app]. f_equal. f_equal.
    destruct (Nat.lt_ge_cases n (length s)).
    + rewrite app_nth1 by assumption. reflexivity.
    + assert (n = length s) as -> by lia. rewrite nth_overflow by lia. rewrite app_nth2, Nat.sub_diag by lia. reflexivity.
Qed.

Lemma strcat_ok a s n : nonul a -> length s <= n ->
  strcat (a ++ repeat zero (S n)) s = Ok ((a ++ s) ++ repeat zero (S (n - length s))).
Proof.
  intros HN HL. unfold strcat. change (repeat zero (S n)) with (zero :: repeat zero n) at 1.
  rewrite find_nul_ok by assumption. cbn [bind Nat.add]. unfold for_to.
  pose proof (write_loop a s (length s + 1) (repeat zero (n - length s)) (repeat zero (length s + 1))
    (repeat_length _ _) (le_n _)) as H.
  rewrite Nat.sub_diag in H. cbn [firstn app] in H. rewrite <- repeat_app in H.
  replace (length s + 1 + (n - length s)) with (S n) in H by lia.
  rewrite H. rewrite <- !app_assoc. reflexivity.
Qed.

Lemma nonul_app a b : nonul (a ++ b) <-> nonul a /\ nonul b. Proof. apply Forall_app. Qed.

(** ** total size *)
Definition sumlen (l : list (option (list ascii))) : nat := length (concat (map text l)).

Lemma total_ok l : forall t, (0 <= t)%Z -> (t + Z.of_nat (sumlen l) < 2 ^ 64)%Z ->
  fold_left (fun total s => match s with Some s => u64 (total + Z.of_nat (length s)) | None => total end) l t
  = (t + Z.of_nat (sumlen l))%Z.
Proof.
  induction l as [|s l IH]; intros t H0 H; cbn [fold_left]; unfold sumlen in *; cbn [map concat] in *.
  - cbn. lia.
  - rewrite app_length in H |- *. destruct s as [s|]; cbn [text] in *.
    + rewrite u64_small by lia. rewrite IH; lia.
    + cbn [Datatypes.length] in *. rewrite IH by lia. reflexivity.
Qed.

(** text after the first [i] rounds *)
Definition sofar (sep : list ascii) (l : list (list ascii)) (i : nat) : list ascii :=
  concat (map (fun s => s ++ sep) (firstn i l)).

Lemma joined_length sep l : l <> [] -> length (joined sep l) = length (concat l) + (length l - 1) * length sep.
Proof.
  induction l as [|s l IH]; intros H; [congruence|]. destruct l as [|s2 l].
  - cbn. rewrite app_nil_r. lia.
  - change (joined sep (s :: s2 :: l)) with (s ++ sep ++ joined sep (s2 :: l)).
    change (concat (s :: s2 :: l)) with (s ++ concat (s2 :: l)).
    rewrite !app_length, IH by discriminate. cbn [Datatypes.length]. lia.
Qed.

Lemma joined_sofar sep l : l <> [] ->
  joined sep l = sofar sep l (length l - 1) ++ nth (length l - 1) l [].
Proof.
  induction l as [|s l IH]; intros H; [congruence|]. destruct l as [|s2 l]; [reflexivity|].
  change (joined sep (s :: s2 :: l)) with (s ++ sep ++ joined sep (s2 :: l)).
  rewrite IH by discriminate. cbn [Datatypes.length]. rewrite !Nat.sub_succ, !Nat.sub_0_r.
  unfold sofar. cbn [firstn map concat]. rewrite <- !app_assoc. reflexivity.
Qed.

Lemma sofar_S sep l i : i < length l -> sofar sep l (S i) = sofar sep l i ++ nth i l [] ++ sep.
Proof.
  intros H. unfold sofar.
  assert (SF : firstn (S i) l = firstn i l ++ [nth i l []]).
  { clear sep. revert i H. induction l as [|x l IHl]; intros [|m] H; cbn in *; try lia; auto. f_equal. apply IHl. lia. }
  rewrite SF, map_app, concat_app. cbn [map concat]. rewrite app_nil_r. reflexivity.
Qed.

Lemma sofar_prefix sep l i : l <> [] -> i < length l -> exists t, joined sep l = sofar sep l i ++ nth i l [] ++ t /\
  (i < length l - 1 -> exists t', t = sep ++ t').
Proof.
  revert i. induction l as [|s l IH]; intros i H Hi; [congruence|]. destruct l as [|s2 l].
  - destruct i; [|cbn in Hi; lia]. exists []. split; [cbn; rewrite app_nil_r; reflexivity|cbn; lia].
  - change (joined sep (s :: s2 :: l)) with (s ++ sep ++ joined sep (s2 :: l)). destruct i as [|i].
    + exists (sep ++ joined sep (s2 :: l)). split; [reflexivity|eauto].
    + destruct (IH i) as (t & E & F); [discriminate|cbn [Datatypes.length] in *; lia|].
      exists t. split.
      * rewrite E. unfold sofar. cbn [firstn map concat nth]. rewrite <- !app_assoc. reflexivity.
      * intros L. apply F. cbn [Datatypes.length] in *. lia.
Qed.

Definition sep_text (sep : option (list ascii)) : list ascii := match sep with Some s => s | None => [] end.

Lemma nth_text l i s : nth_error l i = Some s -> nth i (map text l) [] = text s.
Proof. intros H. change (@nil ascii) with (text None). rewrite map_nth. erewrite nth_error_nth by eassumption. reflexivity. Qed.

Lemma nonul_nth (l : list (list ascii)) i : Forall nonul l -> nonul (nth i l []).
Proof.
  intros H. destruct (Nat.lt_ge_cases i (length l)).
  - apply (proj1 (Forall_forall _ _) H). apply nth_In; assumption.
  - rewrite nth_overflow by assumption. constructor.
Qed.

Lemma nonul_sofar sep l i : nonul sep -> Forall nonul l -> nonul (sofar sep l i).
Proof.
  intros Hs H. unfold sofar. revert i. induction H; intros [|i]; cbn [firstn map concat]; try constructor.
  apply nonul_app. split; [apply nonul_app; auto|]. apply IHForall.
Qed.

Lemma join_loop sep l cap : l <> [] -> nonul (sep_text sep) -> Forall nonul (map text l) ->
  (Z.of_nat (length l) < 2 ^ 63)%Z ->
  let J := joined (sep_text sep) (map text l) in
  length J <= cap ->
  for_to (length l) (fun i result =>
    do s <- rd l i;
    do result <- (match s with Some s => strcat result s | None => Ok result end);
    match sep with
    | Some sep => if negb (Z.of_nat i =? u64 (Z.of_nat (length l) - 1))%Z then strcat result sep else Ok result
    | None => Ok result
    end) (repeat zero (S cap)) = Ok (J ++ repeat zero (S (cap - length J))).
Proof.
  intros Hne Hsep Hl Hlen J HJ.
  assert (NM : map text l <> []) by (destruct l; [congruence|discriminate]).
  match goal with |- for_to _ ?f _ = _ => set (F := f) end.
  set (st := fun i => if i <? length l then sofar (sep_text sep) (map text l) i else J).
  assert (HS : forall i, i <= length l -> length (st i) <= length J).
  { intros i Hi. unfold st. destruct (Nat.ltb_spec i (length l)); [|lia].
    destruct (sofar_prefix (sep_text sep) (map text l) i) as (t & E & _); auto; [rewrite map_length; lia|].
    unfold J. rewrite E, app_length. lia. }
  destruct (for_to_inv (fun i b => b = st i ++ repeat zero (S (cap - length (st i)))) F (length l) (repeat zero (S cap)))
    as (b & E & HB).
  - unfold st. destruct (Nat.ltb_spec 0 (length l)).
    + unfold sofar. cbn [firstn map concat app Datatypes.length]. rewrite Nat.sub_0_r. reflexivity.
    + destruct l; [congruence|cbn in *; lia].
  - intros i b Hi ->. unfold F. pose proof (HS i ltac:(lia)) as HSi.
    assert (STi : st i = sofar (sep_text sep) (map text l) i) by (unfold st; destruct (Nat.ltb_spec i (length l)); [reflexivity|lia]).
    unfold rd. destruct (nth_error l i) as [s|] eqn:EN; [|apply nth_error_None in EN; lia]. cbn [bind].
    pose proof (nth_text l i s EN) as NT.
    destruct (sofar_prefix (sep_text sep) (map text l) i) as (t & EJ & Et); auto; [rewrite map_length; lia|].
    fold J in EJ. rewrite <- STi in EJ. rewrite NT in EJ.
    assert (LJ : length J = length (st i) + (length (text s) + length t)) by (rewrite EJ, !app_length; reflexivity).
    assert (NN : nonul (st i)) by (rewrite STi; apply nonul_sofar; assumption).
    assert (NS : nonul (text s)) by (rewrite <- NT; apply nonul_nth; assumption).
    assert (STEP1 : (match s with Some s => strcat (st i ++ repeat zero (S (cap - length (st i)))) s
        | None => Ok (st i ++ repeat zero (S (cap - length (st i)))) end)
      = Ok ((st i ++ text s) ++ repeat zero (S (cap - length (st i ++ text s))))).
    { destruct s as [s|]; cbn [text] in *.
      - rewrite strcat_ok; [|assumption|lia]. do 4 f_equal. rewrite app_length. lia.
      - rewrite app_nil_r. reflexivity. }
    rewrite STEP1. cbn [bind]. rewrite u64_small by lia.
    assert (STL : i = length l - 1 -> st (S i) = st i ++ text s).
    { intros Ei. unfold st at 1. destruct (Nat.ltb_spec (S i) (length l)); [lia|].
      unfold J. rewrite joined_sofar by assumption. rewrite map_length, <- Ei, NT, STi. reflexivity. }
    assert (STN : i < length l - 1 -> st (S i) = st i ++ text s ++ sep_text sep).
    { intros Ei. unfold st at 1. destruct (Nat.ltb_spec (S i) (length l)); [|lia].
      rewrite sofar_S by (rewrite map_length; lia). rewrite NT, STi. reflexivity. }
    destruct sep as [sep|]; cbn [sep_text] in *.
    + destruct (Z.eqb_spec (Z.of_nat i) (Z.of_nat (length l) - 1)) as [Ei|Ei]; cbn [negb].
      * eexists; split; [reflexivity|]. rewrite STL by lia. reflexivity.
      * rewrite map_length in Et. destruct Et as (t' & Et); [lia|]. rewrite Et, app_length in LJ.
        rewrite strcat_ok; [|apply nonul_app; auto|rewrite app_length; lia].
        eexists; split; [reflexivity|]. rewrite STN by lia. rewrite <- !app_assoc. do 4 f_equal. rewrite !app_length. f_equal. lia.
    + eexists; split; [reflexivity|].
      destruct (Nat.eq_dec i (length l - 1)) as [Ei|Ei]; [rewrite STL by assumption; reflexivity|].
      rewrite STN by lia. rewrite app_nil_r. reflexivity.
  - rewrite E, HB. unfold st. destruct (Nat.ltb_spec (length l) (length l)); [lia|]. reflexivity.
Qed.

Lemma str_join_ok sep l : l <> [] -> nonul (sep_text sep) -> Forall nonul (map text l) ->
  (Z.of_nat (length (joined (sep_text sep) (map text l))) < max_alloc)%Z ->
  (Z.of_nat (length l) < 2 ^ 63)%Z ->
  str_join sep l = Ok (joined (sep_text sep) (map text l) ++ [zero]).
Proof.
  intros Hne Hs Hl HA Hlen. unfold str_join. unfold max_alloc in HA.
  assert (NM : map text l <> []) by (destruct l; [congruence|discriminate]).
  assert (L1 : 1 <= length l) by (destruct l; [congruence|cbn; lia]).
  pose proof (joined_length (sep_text sep) (map text l) NM) as JL. rewrite map_length in JL.
  rewrite total_ok by (unfold sumlen; lia).
  assert (T : (match sep with
     | Some sep => u64 (1 + Z.of_nat (sumlen l) + u64 (u64 (Z.of_nat (length l) - 1) * Z.of_nat (length sep)))
     | None => 1 + Z.of_nat (sumlen l) end = 1 + Z.of_nat (length (joined (sep_text sep) (map text l))))%Z).
  { unfold sumlen. destruct sep as [sep|]; cbn [sep_text] in *; [|rewrite JL; cbn [Datatypes.length]; rewrite Nat.mul_0_r; lia].
    rewrite (u64_small (Z.of_nat (length l) - 1)) by lia.
    replace ((Z.of_nat (length l) - 1) * Z.of_nat (length sep))%Z with (Z.of_nat ((length l - 1) * length sep)) by nia.
    remember ((length l - 1) * length sep) as K eqn:EK. clear EK.
    rewrite (u64_small (Z.of_nat K)) by lia.
    rewrite u64_small by lia. rewrite JL. lia. }
  rewrite T. unfold try_calloc, max_alloc. destruct (Z.leb_spec (1 + Z.of_nat (length (joined (sep_text sep) (map text l)))) (2 ^ 47)); [|lia].
  cbn [bind]. replace (Z.to_nat (1 + Z.of_nat (length (joined (sep_text sep) (map text l))))) with (S (length (joined (sep_text sep) (map text l)))) by lia.
  pose proof (join_loop sep l _ Hne Hs Hl Hlen (le_n _)) as E. cbv zeta in E. rewrite Nat.sub_diag in E. exact E.
Qed.

(** ** Variadic join *)
Lemma collect_ok args : forall i arr, length arr = (if i <=? 5 then 5 else 10) -> i + length args <= 10 ->
  (forall j, j < i -> exists s, nth_error arr j = Some (Some s)) ->
  exists arr', collect args i arr = Ok (i + length args, arr') /\
    firstn (i + length args) arr' = firstn i arr ++ map Some args.
Proof.
  induction args as [|a args IH]; intros i arr HL HA HP; cbn [collect].
  - exists arr. cbn [Datatypes.length map]. rewrite Nat.add_0_r, app_nil_r. auto.
  - cbn [Datatypes.length] in HA.
    set (arr1 := if i =? 5 then firstn 5 arr ++ repeat None 5 else arr).
    assert (L1 : length arr1 = if i <? 5 then 5 else 10).
    { unfold arr1. destruct (Nat.eqb_spec i 5) as [->|D].
      - cbn [Nat.leb] in HL. rewrite app_length, firstn_length, HL. reflexivity.
      - rewrite HL. destruct (Nat.leb_spec i 5), (Nat.ltb_spec i 5); try lia. }
    assert (F1 : firstn i arr1 = firstn i arr).
    { unfold arr1. destruct (Nat.eqb_spec i 5) as [->|D]; [|reflexivity]. cbn [Nat.leb] in HL.
      rewrite firstn_app, firstn_firstn, firstn_length, HL. cbn [Nat.min Nat.sub]. rewrite firstn_O, app_nil_r. reflexivity. }
    assert (Hi : i < length arr1) by (rewrite L1; destruct (Nat.ltb_spec i 5); lia).
    rewrite wr_ok by assumption. cbn [bind]. clearbody arr1.
    assert (FU : firstn (S i) (upd arr1 i (Some a)) = firstn i arr ++ [Some a]).
    { rewrite <- F1. clear - Hi. revert i Hi. induction arr1 as [|x l IHl]; intros [|i] Hi; cbn in *; try lia; auto. f_equal. apply IHl. lia. }
    destruct (IH (S i) (upd arr1 i (Some a))) as (arr' & E & EF).
    + rewrite upd_length, L1. destruct (Nat.ltb_spec i 5), (Nat.leb_spec (S i) 5); try lia.
    + lia.
    + intros j Hj. assert (NJ : nth_error (firstn (S i) (upd arr1 i (Some a))) j = nth_error (upd arr1 i (Some a)) j).
      { clear - Hj. revert j Hj. generalize (upd arr1 i (Some a)) (S i). induction l as [|x l IHl]; intros [|n] [|j] Hj; cbn; auto; try lia. apply IHl. lia. }
      rewrite <- NJ, FU. destruct (Nat.eq_dec j i) as [->|D].
      * rewrite nth_error_app2 by (rewrite firstn_length; lia). 
        assert (i <= length arr) by (rewrite HL; destruct (Nat.leb_spec i 5); lia).
        rewrite firstn_length. replace (i - Nat.min i (length arr)) with 0 by lia. eexists; reflexivity.
      * assert (i <= length arr) by (rewrite HL; destruct (Nat.leb_spec i 5); lia).
        rewrite nth_error_app1 by (rewrite firstn_length; lia).
        assert (Hj2 : j < i) by lia. destruct (HP j Hj2) as (s & Es). exists s. rewrite <- Es.
        clear - Hj2. revert j i Hj2. induction arr as [|x l IHl]; intros [|j] [|n] Hj; cbn; auto; try lia. apply IHl. lia.
    + exists arr'. cbn [Datatypes.length map]. replace (i + S (length args)) with (S i + length args) by lia.
      split; [assumption|]. rewrite EF, FU, <- app_assoc. reflexivity.
Qed.

Lemma map_text_some l : map text (map Some l) = l.
Proof. rewrite map_map. apply map_id. Qed.

Lemma str_joinv_ok sep args : args <> [] -> length args <= 10 -> nonul (sep_text sep) -> Forall nonul args ->
  (Z.of_nat (length (joined (sep_text sep) args)) < max_alloc)%Z ->
  str_joinv sep args = Ok (joined (sep_text sep) args ++ [zero]).
Proof.
  intros Hne HL Hs Ha HM. unfold str_joinv.
  destruct (collect_ok args 0 (repeat None 5)) as (arr & E & EF); [reflexivity|lia|intros; lia|].
  rewrite E. cbn [bind fst snd Nat.add]. cbn [Nat.add firstn app] in EF. rewrite EF.
  rewrite str_join_ok; rewrite ?map_text_some; auto.
  - destruct args; [congruence|discriminate].
  - rewrite map_length. lia.
Qed.

Lemma collect_11 args : 11 <= length args -> forall i arr, i = 0 -> length arr = 5 -> collect args i arr = UB.
Proof.
  intros H i arr -> HL.
  do 11 (destruct args as [|? args]; [cbn in H; lia|]).
  do 5 (destruct arr as [|? arr]; [discriminate|]). destruct arr; [|discriminate].
  cbn. reflexivity.
Qed.

Lemma str_joinv_over sep args : 11 <= length args -> str_joinv sep args = UB.
Proof. intros H. unfold str_joinv. rewrite collect_11; auto. Qed.

(** ** Counting *)
Definition count (c : ascii) (s : list ascii) : nat := length (filter (Ascii.eqb c) s).

Lemma cnt_loop_S f s c p r : cnt_loop (S f) s c p r =
  (do x <- rd (s ++ [zero]) (p + r);
   if Ascii.eqb x zero then Ok r
   else if Ascii.eqb x c then cnt_loop f s c p (S r) else cnt_loop f s c (S p) r).
Proof. reflexivity. Qed.

Lemma cnt_loop_ok s c : nonul s -> forall k p r, p + r + k = length s -> 
  cnt_loop (S k) s c p r = Ok (r + count c (skipn (p + r) s)).
Proof.
  intros HN. induction k as [|k IH]; intros p r E; rewrite cnt_loop_S.
  - unfold rd. rewrite nth_error_app2 by lia. replace (p + r - length s) with 0 by lia. cbn [nth_error bind].
    rewrite Ascii.eqb_refl. rewrite skipn_all2 by lia. cbn. f_equal. lia.
  - unfold rd. rewrite nth_error_app1 by lia. destruct (nth_error s (p + r)) as [x|] eqn:EN; [|apply nth_error_None in EN; lia].
    cbn [bind].
    assert (x <> zero) by (apply (proj1 (Forall_forall _ _) HN); eapply nth_error_In; eassumption).
    destruct (Ascii.eqb_spec x zero); [contradiction|].
    assert (SK : skipn (p + r) s = x :: skipn (S (p + r)) s).
    { clear - EN. revert EN. generalize (p + r). induction s as [|y s IHs]; intros [|n] EN; cbn in *; try discriminate.
      - injection EN as ->. reflexivity.
      - apply IHs. assumption. }
    rewrite SK. unfold count. cbn [filter]. rewrite Ascii.eqb_sym. destruct (Ascii.eqb_spec c x) as [->|D].
    + rewrite IH by lia. replace (p + S r) with (S (p + r)) by lia. cbn [Datatypes.length]. fold (count x (skipn (S (p + r)) s)). f_equal. lia.
    + rewrite IH by lia. reflexivity.
Qed.

Lemma str_cnt_ok s c : nonul s -> str_cnt s c = Ok (count c s).
Proof. intros H. unfold str_cnt. rewrite cnt_loop_ok by (auto; lia). reflexivity. Qed.

(** ** Hex test *)
Lemma all_hex_iff s : all_hex s = true <-> Forall (fun c => isxdigit c = true) s.
Proof.
  induction s as [|c s IH]; cbn [all_hex]; [split; auto|].
  destruct (isxdigit c) eqn:E; cbn [negb].
  - rewrite IH. split; [auto|]. inversion 1; assumption.
  - split; [discriminate|]. inversion 1; congruence.
Qed.

Definition hexset : list ascii := String.list_ascii_of_string "0123456789abcdefABCDEF"%string.

Lemma isxdigit_set c : isxdigit c = existsb (Ascii.eqb c) hexset.
Proof. destruct c as [[] [] [] [] [] [] [] []]; vm_compute; reflexivity. Qed.

Lemma isxdigit_in c : isxdigit c = true <-> In c hexset.
Proof.
  rewrite isxdigit_set. split; intros H.
  - apply existsb_exists in H. destruct H as (x & Hx & E). apply Ascii.eqb_eq in E. subst. assumption.
  - apply existsb_exists. exists c. split; [assumption|apply Ascii.eqb_refl].
Qed.

Lemma all_hex_in s : all_hex s = true <-> Forall (fun c => In c hexset) s.
Proof.
  rewrite all_hex_iff. split; apply Forall_impl; intros c; apply isxdigit_in.
Qed.

Lemma is_hex_cases s :
  (forall rest, rest <> [] -> s = ("0" :: "x" :: rest)%char \/ s = ("0" :: "X" :: rest)%char ->
     (Forall (fun c => In c hexset) rest -> str_is_hex s = Some rest) /\
     (~ Forall (fun c => In c hexset) rest -> str_is_hex s = None)) /\
  (~ (exists rest, rest <> [] /\ (s = "0" :: "x" :: rest \/ s = "0" :: "X" :: rest)%char) ->
     (Forall (fun c => In c hexset) s -> str_is_hex s = Some s) /\
     (~ Forall (fun c => In c hexset) s -> str_is_hex s = None)).
Proof.
  assert (G : forall r, (Forall (fun c => In c hexset) r -> (if all_hex r then Some r else None) = Some r) /\
     (~ Forall (fun c => In c hexset) r -> (if all_hex r then Some r else None) = None)).
  { intros r. pose proof (all_hex_in r) as G. destruct (all_hex r).
    + split; [reflexivity|]. intros N. exfalso. apply N, G. reflexivity.
    + split; [|reflexivity]. intros F. apply G in F. discriminate. }
  split.
  - intros rest Hr H. unfold str_is_hex.
    assert (L : (2 <? length s) = true).
    { apply Nat.ltb_lt. destruct rest; [congruence|]. destruct H; subst; cbn; lia. }
    rewrite L. destruct H as [-> | ->]; cbn [Ascii.eqb]; apply (G rest).
  - intros H. unfold str_is_hex.
    assert (E : (if 2 <? length s then
      match s with
      | c0 :: c1 :: rest => if Ascii.eqb c0 "0" && (Ascii.eqb c1 "x" || Ascii.eqb c1 "X") then rest else s
      | _ => s end else s) = s).
    { destruct (Nat.ltb_spec 2 (length s)) as [L|L]; [|reflexivity].
      destruct s as [|c0 [|c1 rest]]; [reflexivity..|].
      destruct (Ascii.eqb_spec c0 "0") as [->|D]; [|reflexivity]. cbn [andb].
      destruct (Ascii.eqb_spec c1 "x") as [->|D1]; cbn [orb].
      - exfalso. apply H. exists rest. split; [destruct rest; [cbn in L; lia|discriminate]|auto].
      - destruct (Ascii.eqb_spec c1 "X") as [->|D2]; [|reflexivity].
        exfalso. apply H. exists rest. split; [destruct rest; [cbn in L; lia|discriminate]|auto]. }
    rewrite E. apply G.
Qed.
