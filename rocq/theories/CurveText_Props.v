(** C67: serialised JSON is well formed and denotes the value; C68: a printed curve reads back as the
    curve. *)
From Coq Require Import Ascii String.
From Verif Require Import Base Bits_Model Bits_Spec Bits_Proofs Bits_Props Str_Model Str_Proofs Cli_Model Poly_Model Field_Props
  Points_Model Hex_Model Json_Spec Json_Model Json_Proofs CurveText_Model CurveText_Spec.
Local Open Scope Z_scope.
Local Open Scope list_scope.

(** ** C67 *)
(** For every value the library can hold whose objects have distinct names and whose text is not too
    long for an int, whatever the allocated memory holds: the serialiser returns a block that holds
    exactly a text and its terminating NUL; the text is JSON for that value and for no other. No write
    leaves the block. *)
Theorem C67_serialise junk v : distinct v -> room v 0 < 2 ^ 31 - 1 ->
  exists t, json_serialize_to_string_pretty junk v = Ok (Some (t ++ [zero])) /\ nonul t /\
    json t v /\ forall v', json t v' -> v' = v.
Proof.
  intros D R. pose proof (text_length v 0) as L. change (Z.of_nat 0) with 0 in L.
  exists (Json_Proofs.text v 0).
  assert (J : json (Json_Proofs.text v 0) v).
  { exists [], (Json_Proofs.text v 0), []. repeat split; try constructor. apply text_value. now rewrite app_nil_r. }
  split; [apply serialize_string; [exact D|unfold int_max; lia]|].
  split; [exact (proj1 grammar_nn _ _ (text_value v 0))|].
  split; [exact J|]. intros v' J'. exact (json_unique _ _ _ J' J).
Qed.
Print Assumptions C67_serialise.


(** The values that can be built through the library's interface. *)
Inductive built : jval -> Prop :=
| b_string s v : json_value_init_string s = Some v -> built v
| b_object : built (JObj [])
| b_array : built (JArr [])
| b_set o k v o' : built (JObj o) -> built v -> json_object_set_value o k (Some v) = Some o' -> built (JObj o')
| b_dotset o k v o' : built (JObj o) -> built v -> json_object_dotset_value o k v = Some o' -> built (JObj o')
| b_append l v : built (JArr l) -> built v -> built (JArr (json_array_append_value l v)).

Lemma overwrite_names o k v : map fst (overwrite o k v) = map fst o.
Proof. induction o as [|[n w] o IH]; [reflexivity|]. cbn. destruct (same n k); cbn; congruence. Qed.
Lemma get_none {A} (o : list (list ascii * A)) k : json_object_get_value o k = None <-> ~ In k (map fst o).
Proof.
  induction o as [|[n w] o IH]; cbn; [tauto|]. destruct (same n k) eqn:E.
  - apply same_eq in E. subst. split; [discriminate|]. intros H. exfalso. apply H. now left.
  - rewrite IH. split; [|tauto]. intros H [->|I]; [now rewrite same_refl in E|tauto].
Qed.
Definition all_distinct (o : list (list ascii * jval)) : Prop := fold_right (fun x P => distinct (snd x) /\ P) True o.
Lemma distinct_obj o : distinct (JObj o) <-> NoDup (map fst o) /\ all_distinct o.
Proof. reflexivity. Qed.
Lemma all_app a b : all_distinct (a ++ b) <-> all_distinct a /\ all_distinct b.
Proof. unfold all_distinct. induction a as [|x a IH]; cbn; [tauto|]. rewrite IH. tauto. Qed.
Lemma all_overwrite o k v : all_distinct o -> distinct v -> all_distinct (overwrite o k v).
Proof.
  induction o as [|[n w] o IH]; [trivial|]. cbn. intros [H K] V. destruct (same n k); (split; [assumption|]); [exact K|exact (IH K V)].
Qed.
Lemma all_get o k v : all_distinct o -> json_object_get_value o k = Some v -> distinct v.
Proof.
  induction o as [|[n w] o IH]; [discriminate|]. cbn. intros [H K]. destruct (same n k); [congruence|auto].
Qed.
Lemma nodup_snoc {A} (l : list A) x : NoDup l -> ~ In x l -> NoDup (l ++ [x]).
Proof.
  induction 1 as [|y l N D IH]; intros I; cbn.
  - constructor; [intros []|constructor].
  - constructor; [|apply IH; intros J; apply I; now right].
    rewrite in_app_iff. intros [J|[->|[]]]; [tauto|]. apply I. now left.
Qed.
Lemma add_distinct o k v o' : distinct (JObj o) -> distinct v -> json_object_add o k v = Some o' -> distinct (JObj o').
Proof.
  unfold json_object_add. destruct (json_object_get_value o k) eqn:E; [discriminate|]. apply get_none in E.
  intros D V H. injection H as <-. apply distinct_obj in D. destruct D as (N & A). apply distinct_obj.
  rewrite map_app. cbn [map fst]. split; [now apply nodup_snoc|]. apply all_app. split; [exact A|]. cbn. auto.
Qed.
Lemma overwrite_distinct o k v : distinct (JObj o) -> distinct v -> distinct (JObj (overwrite o k v)).
Proof.
  rewrite !distinct_obj, overwrite_names. intros (N & A) V. split; [exact N|]. now apply all_overwrite.
Qed.
Lemma set_distinct o k v o' : distinct (JObj o) -> distinct v -> json_object_set_value o k (Some v) = Some o' -> distinct (JObj o').
Proof.
  cbn [json_object_set_value]. destruct (json_object_get_value o k) eqn:E; intros D V H.
  - injection H as <-. now apply overwrite_distinct.
  - eapply add_distinct; eauto.
Qed.
Lemma dotset_distinct f : forall o k v o', distinct (JObj o) -> distinct v -> dotset f o k v = Some o' -> distinct (JObj o').
Proof.
  induction f as [|f IH]; intros o k v o' D V H; cbn [dotset] in H; destruct (cut_dot k) as [[a b]|].
  - discriminate.
  - eapply set_distinct; eauto.
  - destruct (json_object_get_value o a) as [[s|l|inner]|] eqn:G; try discriminate.
    + destruct (dotset f inner b v) as [inner'|] eqn:E; [|discriminate]. injection H as <-.
      apply overwrite_distinct; [exact D|]. apply IH in E; [exact E| |exact V].
      apply distinct_obj in D. exact (all_get o a _ (proj2 D) G).
    + destruct (dotset f [] b v) as [inner'|] eqn:E; [|discriminate].
      eapply add_distinct; [exact D| |exact H]. apply IH in E; [exact E| |exact V]. split; [constructor|exact I].
  - eapply set_distinct; eauto.
Qed.
Lemma built_distinct v : built v -> distinct v.
Proof.
  induction 1 as [s v H| | |o k v o' _ IHo _ IHv H|o k v o' _ IHo _ IHv H|l v _ IHl _ IHv].
  - unfold json_value_init_string in H. destruct (is_valid_utf8 s); [|discriminate]. injection H as <-. exact I.
  - split; [constructor|exact I].
  - exact I.
  - eapply set_distinct; eauto.
  - eapply dotset_distinct; [exact IHo|exact IHv|exact H].
  - cbn [distinct] in *. unfold json_array_append_value. revert IHl. clear - IHv. induction l as [|x l IH]; cbn; [tauto|].
    intros [H K]. auto.
Qed.

(** The objects the library builds never have two members of the same name, so the serialiser's result
    is right for everything built through its interface. *)
Theorem C67_built junk v : built v -> room v 0 < 2 ^ 31 - 1 ->
  exists t, json_serialize_to_string_pretty junk v = Ok (Some (t ++ [zero])) /\ nonul t /\
    json t v /\ forall v', json t v' -> v' = v.
Proof. intros B. apply C67_serialise. now apply built_distinct. Qed.
Print Assumptions C67_built.

Example C67_example :
  let v := JObj [(lit "a", JArr [JStr (lit "x/""y"); JArr []]); (["010"%char], JObj [(lit "b", JStr ["001"%char])])] in
  distinct v /\ room v 0 < 2 ^ 31 - 1 /\ built (JObj [(lit "k", JArr [JStr (lit "s")])]) /\
  json_serialize_to_string_pretty (fun _ => "?"%char) v =
  Ok (Some (concat (map (fun l => list_ascii_of_string l ++ ["010"%char])
    ["{"; "    ""a"": ["; "        ""x\/\""y"","; "        []"; "    ],"; "    ""\n"": {"; "        ""b"": ""\u0001"""; "    }"]%string)
    ++ ["}"%char; zero])).
Proof.
  cbv zeta. split; [repeat split; repeat constructor; cbn; intuition discriminate|].
  split; [reflexivity|]. split; [|vm_compute; reflexivity].
  eapply (b_set [] (lit "k") (JArr [JStr (lit "s")])); [constructor| |reflexivity].
  apply (b_append [] (JStr (lit "s"))); [constructor|]. now apply b_string with (lit "s").
Qed.
(** without distinct names it would be false: the value is looked up by its name *)
Example C67_distinct_needed : exists v t, json_serialize_to_string_pretty (fun _ => zero) v = Ok (Some (t ++ [zero])) /\
  ~ json t v.
Proof.
  exists (JObj [(lit "a", JStr (lit "1")); (lit "a", JStr (lit "2"))]). eexists. split; [vm_compute|].
  - match goal with |- Ok (Some ?l) = _ => instantiate (1 := removelast l) end. reflexivity.
  - intros J.
    assert (K : json (Json_Proofs.text (JObj [(lit "a", JStr (lit "1")); (lit "a", JStr (lit "1"))]) 0)
                     (JObj [(lit "a", JStr (lit "1")); (lit "a", JStr (lit "1"))])).
    { exists [], (Json_Proofs.text (JObj [(lit "a", JStr (lit "1")); (lit "a", JStr (lit "1"))]) 0), []. repeat split; try constructor. apply text_value. }
    assert (X := json_unique _ _ _ J K). discriminate X.
Qed.

(** ** Strings that the library takes *)
Definition ascii7 (s : list ascii) : Prop := Forall (fun c => (nat_of_ascii c < 128)%nat) s.
Lemma one_byte c t : (nat_of_ascii c < 128)%nat -> verify_utf8_sequence (c :: t) = (1, true).
Proof. destruct c as [[] [] [] [] [] [] [] []]; intros H; vm_compute in H; try lia; reflexivity. Qed.
Lemma utf8_ok s : ascii7 s -> is_valid_utf8 s = true.
Proof.
  unfold is_valid_utf8. intros H. induction H as [|c s Hc H IH]; [reflexivity|].
  cbn [Datatypes.length utf8_loop]. rewrite one_byte by exact Hc. exact IH.
Qed.
Lemma hexd_7 c d : hexd c = Some d -> (nat_of_ascii c < 128)%nat.
Proof.
  unfold hexd. destruct ((48 <=? nat_of_ascii c)%nat && (nat_of_ascii c <=? 57)%nat) eqn:A; [lia|].
  destruct ((97 <=? nat_of_ascii c)%nat && (nat_of_ascii c <=? 102)%nat) eqn:B; [lia|].
  destruct ((65 <=? nat_of_ascii c)%nat && (nat_of_ascii c <=? 70)%nat) eqn:C; [lia|discriminate].
Qed.
Lemma hex_acc_7 s : forall acc n, hex_acc acc s = Some n -> ascii7 s.
Proof.
  induction s as [|c s IH]; intros acc n H; [constructor|]. cbn [hex_acc] in H.
  destruct (hexd c) as [d|] eqn:E; [|discriminate]. constructor; [eapply hexd_7; eauto|eapply IH; eauto].
Qed.
Lemma hex_num_7 s n : hex_num s = Some n -> ascii7 s.
Proof.
  destruct s as [|c [|d t]]; cbn [hex_num]; [discriminate|intros H; eapply hex_acc_7; eauto|].
  destruct (Ascii.eqb c "0" && Ascii.eqb d "x") eqn:E.
  - apply andb_true_iff in E. destruct E as [E F]. apply Ascii.eqb_eq in E, F. subst.
    destruct t; [discriminate|]. intros H. apply hex_acc_7 in H.
    constructor; [vm_compute; lia|]. constructor; [vm_compute; lia|exact H].
  - intros H. eapply hex_acc_7; eauto.
Qed.
Lemma decd_7 c d : decd c = Some d -> (nat_of_ascii c < 128)%nat.
Proof.
  unfold decd. destruct ((48 <=? Z.of_nat (nat_of_ascii c)) && (Z.of_nat (nat_of_ascii c) <=? 57)) eqn:A; [lia|discriminate].
Qed.
Lemma dec_acc_7 s : forall acc n, dec_acc acc s = Some n -> ascii7 s.
Proof.
  induction s as [|c s IH]; intros acc n H; [constructor|]. cbn [dec_acc] in H.
  destruct (decd c) as [d|] eqn:E; [|discriminate]. constructor; [eapply decd_7; eauto|eapply IH; eauto].
Qed.
Lemma dec_num_7 s n : dec_num s = Some n -> ascii7 s.
Proof.
  destruct s as [|c t]; cbn [dec_num]; [discriminate|]. destruct (Ascii.eqb c "-") eqn:E.
  - apply Ascii.eqb_eq in E. subst. destruct t as [|d t]; [discriminate|]. destruct (dec_acc 0 (d :: t)) eqn:F; [|discriminate].
    intros _. constructor; [vm_compute; lia|]. eapply dec_acc_7; eauto.
  - intros H. eapply dec_acc_7; eauto.
Qed.

(** ** What the calls do to an object *)
Lemma set_string_new o k s : ~ In k (map fst o) -> ascii7 s -> json_object_set_string o k s = o ++ [(k, JStr s)].
Proof.
  intros N A. unfold json_object_set_string, json_value_init_string. rewrite (utf8_ok s A). cbn [json_object_set_value].
  apply get_none in N. rewrite N. unfold json_object_add. rewrite N. reflexivity.
Qed.
Lemma set_value_new o k v : ~ In k (map fst o) -> json_object_set_value o k (Some v) = Some (o ++ [(k, v)]).
Proof.
  intros N. cbn [json_object_set_value]. apply get_none in N. rewrite N. unfold json_object_add. rewrite N. reflexivity.
Qed.

Lemma dot_new o first rest s : cut_dot (first ++ "."%char :: rest) = Some (first, rest) -> cut_dot rest = None ->
  ~ In first (map fst o) -> ascii7 s ->
  json_object_dotset_string o (first ++ "."%char :: rest) s = o ++ [(first, JObj [(rest, JStr s)])].
Proof.
  intros C D N A. unfold json_object_dotset_string, json_value_init_string. rewrite (utf8_ok s A).
  unfold json_object_dotset_value. rewrite app_length. cbn [Datatypes.length]. rewrite Nat.add_succ_r. cbn [dotset].
  rewrite C. apply get_none in N. rewrite N.
  assert (E : dotset (length first + length rest) [] rest (JStr s) = Some [(rest, JStr s)]).
  { destruct (length first + length rest)%nat; cbn [dotset]; rewrite D; reflexivity. }
  rewrite E. unfold json_object_add. rewrite N. reflexivity.
Qed.
Lemma get_last o k (v : jval) : ~ In k (map fst o) -> json_object_get_value (o ++ [(k, v)]) k = Some v.
Proof.
  induction o as [|[n w] o IH]; cbn; intros N; [now rewrite same_refl|].
  destruct (same n k) eqn:E; [apply same_eq in E; subst; exfalso; tauto|]. apply IH. tauto.
Qed.
Lemma overwrite_last o k v w : ~ In k (map fst o) -> overwrite (o ++ [(k, v)]) k w = o ++ [(k, w)].
Proof.
  induction o as [|[n u] o IH]; cbn; intros N; [now rewrite same_refl|].
  destruct (same n k) eqn:E; [apply same_eq in E; subst; exfalso; tauto|]. f_equal. apply IH. tauto.
Qed.
Lemma dot_more o first rest inner s : cut_dot (first ++ "."%char :: rest) = Some (first, rest) -> cut_dot rest = None ->
  ~ In first (map fst o) -> ~ In rest (map fst inner) -> ascii7 s ->
  json_object_dotset_string (o ++ [(first, JObj inner)]) (first ++ "."%char :: rest) s
  = o ++ [(first, JObj (inner ++ [(rest, JStr s)]))].
Proof.
  intros C D N M A. unfold json_object_dotset_string, json_value_init_string. rewrite (utf8_ok s A).
  unfold json_object_dotset_value. rewrite app_length. cbn [Datatypes.length]. rewrite Nat.add_succ_r. cbn [dotset].
  rewrite C, (get_last o first _ N).
  assert (E : dotset (length first + length rest) inner rest (JStr s) = Some (inner ++ [(rest, JStr s)])).
  { destruct (length first + length rest)%nat; cbn [dotset]; rewrite D; apply set_value_new; exact M. }
  rewrite E, (overwrite_last o first _ _ N). reflexivity.
Qed.

(** names are told apart by computing *)
Lemma notin_app (k : list ascii) (a b : object) : ~ In k (map fst a) -> ~ In k (map fst b) -> ~ In k (map fst (a ++ b)).
Proof. rewrite map_app, in_app_iff. tauto. Qed.
Lemma notin_opt {A} k (o : option A) f : (forall x, ~ In k (map fst (f x))) -> ~ In k (map fst (opt o f)).
Proof. destruct o; cbn [opt]; [auto|intros _ []]. Qed.
Lemma notin_one k name t : k <> lit name -> ~ In k (map fst (one name t)).
Proof. cbn. intuition congruence. Qed.
Lemma notin_cons k n v o : k <> n -> ~ In k (map fst o) -> ~ In k (map fst ((n, v) :: o : object)).
Proof. cbn. intuition congruence. Qed.
Ltac notin := repeat first [ apply notin_app | apply notin_opt; intros ? | apply notin_one; discriminate
  | apply notin_cons; [discriminate|] | solve [intros []] ].

(** ** The seed *)
Lemma hexch_hex d : 0 <= d < 16 -> exists k, hexd (hexch d) = Some k.
Proof.
  intros H. assert (K : d = 0 \/ d = 1 \/ d = 2 \/ d = 3 \/ d = 4 \/ d = 5 \/ d = 6 \/ d = 7 \/ d = 8 \/ d = 9 \/ d = 10 \/ d = 11 \/ d = 12 \/ d = 13 \/ d = 14 \/ d = 15) by lia.
  decompose [or] K; subst; eexists; reflexivity.
Qed.
Lemma hex_text_7 n : forall v, ascii7 (hex_text n v).
Proof.
  induction n as [|n IH]; intros v; [constructor|]. cbn [hex_text]. apply Forall_app. split; [apply IH|].
  constructor; [|constructor]. destruct (hexch_hex (v mod 16)) as [k K]; [apply Z.mod_pos_bound; lia|]. eapply hexd_7; eauto.
Qed.
Lemma hex_text_nonul n : forall v, nonul (hex_text n v).
Proof.
  induction n as [|n IH]; intros v; [constructor|]. cbn [hex_text]. apply Forall_app. split; [apply IH|].
  constructor; [|constructor]. destruct (hexch_hex (v mod 16)) as [k K]; [apply Z.mod_pos_bound; lia|]. intros E. rewrite E in K. discriminate.
Qed.
Lemma hex_text_length n : forall v, length (hex_text n v) = n.
Proof. induction n as [|n IH]; intros v; [reflexivity|]. cbn [hex_text]. rewrite app_length, IH. cbn. lia. Qed.
Lemma c_text_ok s rest : nonul s -> c_text (s ++ zero :: rest) = Ok s.
Proof. intros N. unfold c_text. rewrite find_nul_ok by exact N. cbn [bind Nat.add]. now rewrite firstn_app, Nat.sub_diag, firstn_all, firstn_O, app_nil_r. Qed.

Lemma seed_ok b : WF b -> Z.of_nat (Bits_Model.bitlen b) < 2 ^ 48 -> seed_hex b = Ok (seed_text b).
Proof.
  intros W L. unfold seed_hex. rewrite (to_hex_spec b W). cbn [bind]. unfold seed_text.
  set (n := (2 * ((Bits_Model.bitlen b + 7) / 8))%nat) in *. set (t := hex_text n (mag b)).
  assert (LT : length t = n) by apply hex_text_length.
  assert (NT : nonul t) by apply hex_text_nonul.
  assert (LN : Z.of_nat n <= 2 ^ 47 - 10).
  { unfold n. assert (H : ((Bits_Model.bitlen b + 7) / 8 * 8 <= Bits_Model.bitlen b + 7)%nat) by (rewrite Nat.mul_comm; apply Nat.mul_div_le; lia).
    lia. }
  destruct (bsign b); rewrite app_length, LT; cbn [Datatypes.length app].
  - rewrite u64_small by lia. unfold try_calloc, max_alloc.
    replace (Z.of_nat (1 + n) + 3 <=? 2 ^ 47) with true by lia. cbn [bind].
    replace (Z.to_nat (Z.of_nat (1 + n) + 3)) with (S (S (S (S n)))) by lia. cbn [repeat].
    rewrite wr_ok by (cbn; lia). cbn [bind upd]. rewrite wr_ok by (cbn; lia). cbn [bind upd].
    change ("-"%char :: "0"%char :: zero :: zero :: repeat zero n) with (["-"%char; "0"%char] ++ repeat zero (S (S n))).
    rewrite strcat_ok; [|repeat constructor; discriminate|cbn [Datatypes.length]; lia].
    cbn [bind]. cbn [Datatypes.length]. rewrite LT. replace (S n - S n)%nat with 0%nat by lia. cbn [app repeat].
    rewrite wr_ok by (cbn; lia). cbn [bind upd].
    change ("-"%char :: "0"%char :: "x"%char :: t ++ [zero]) with (("-"%char :: "0"%char :: "x"%char :: t) ++ zero :: []).
    apply c_text_ok. repeat (constructor; [discriminate|]). exact NT.
  - rewrite u64_small by lia. unfold try_calloc, max_alloc.
    replace (Z.of_nat (0 + n) + 3 <=? 2 ^ 47) with true by lia. cbn [bind].
    replace (Z.to_nat (Z.of_nat (0 + n) + 3)) with (S (S (S n))) by lia. cbn [repeat].
    rewrite wr_ok by (cbn; lia). cbn [bind upd]. rewrite wr_ok by (cbn; lia). cbn [bind upd].
    change ("0"%char :: "x"%char :: zero :: repeat zero n) with (["0"%char; "x"%char] ++ repeat zero (S n)).
    rewrite strcat_ok; [|repeat constructor; discriminate|lia].
    cbn [bind]. rewrite LT. replace (n - n)%nat with 0%nat by lia. cbn [app repeat].
    change ("0"%char :: "x"%char :: t ++ [zero]) with (("0"%char :: "x"%char :: t) ++ zero :: []).
    apply c_text_ok. repeat (constructor; [discriminate|]). exact NT.
Qed.
Lemma seed_text_7 b : ascii7 (seed_text b).
Proof.
  unfold seed_text. apply Forall_app. split; [destruct (bsign b); repeat constructor; vm_compute; lia|].
  constructor; [vm_compute; lia|]. constructor; [vm_compute; lia|]. apply hex_text_7.
Qed.

(** ** The document *)
Lemma elem_int_ok e : field_elementi e = elem_int e.
Proof. destruct e as [z|z p|p]; try reflexivity. cbn [field_elementi elem_int]. apply fromdigits_rev. Qed.

Section Document.
Variable hexw hexp dec : Z -> list ascii.
Hypothesis OK : prints hexw hexp dec.

Lemma hexw_7 n : 0 <= n -> ascii7 (hexw n).
Proof. intros H. destruct OK as (A & _ & _). eapply hex_num_7. apply A. exact H. Qed.
Lemma hexp_7 n : 0 <= n -> ascii7 (hexp n).
Proof. intros H. destruct OK as (_ & A & _). eapply hex_num_7. apply A. exact H. Qed.
Lemma dec_7 n : ascii7 (dec n).
Proof. destruct OK as (_ & _ & A). eapply dec_num_7. apply A. Qed.

Lemma point_ok p : affine p -> output_json_point hexw hexp (Some p) = Ok (point_doc hexw hexp (point_of p)).
Proof.
  intros ((x & y & E & X & Y) & O & C). unfold output_json_point, point_of. rewrite E, !elem_int_ok. cbv zeta.
  rewrite (set_string_new []); [|intros []|apply hexw_7; exact X].
  rewrite (set_string_new (_ ++ _)) by (first [solve [notin] | apply hexw_7; exact Y]).
  rewrite (set_string_new (_ ++ _)) by (first [solve [notin] | apply hexp_7; exact O]). f_equal.
  unfold point_doc. cbn [pp_x pp_y pp_order pp_cofactor]. destruct (p_cofactor p) as [c|]; cbn [opt]; [|reflexivity].
  cbn [opt_all] in C. rewrite (set_string_new (_ ++ _)) by (first [solve [notin] | apply hexp_7; exact C]). reflexivity.
Qed.

Lemma points_loop l : forall done, Forall (fun p => exists q, p = Some q /\ affine q) l ->
  forall pre array, done = length pre -> array = map (fun p => JObj (point_doc hexw hexp (point_of p))) (points_of (Some pre)) ->
  for_from (length l) done (fun j array =>
     do p <- rd (pre ++ l) j; do o <- output_json_point hexw hexp p; Ok (json_array_append_value array (JObj o))) array
  = Ok (map (fun p => JObj (point_doc hexw hexp (point_of p))) (points_of (Some (pre ++ l)))).
Proof.
  induction l as [|p l IH]; intros done H pre array D A; cbn [Datatypes.length for_from].
  - now rewrite app_nil_r, A.
  - inversion H as [|? ? (q & -> & Q) H']; subst.
    unfold rd at 1. rewrite nth_error_app2, Nat.sub_diag by lia. cbn [nth_error bind]. rewrite (point_ok q Q). cbn [bind].
    replace (pre ++ Some q :: l) with ((pre ++ [Some q]) ++ l) by (now rewrite <- app_assoc).
    apply IH; [exact H'|rewrite app_length; cbn; lia|].
    unfold json_array_append_value, points_of. rewrite flat_map_app, map_app. reflexivity.
Qed.

Definition points_doc (l : list pub_point) : object :=
  match l with [] => [] | l => [(lit "points", JArr (map (fun p => JObj (point_doc hexw hexp p)) l))] end.
Lemma points_ok o g : printable_group g -> ~ In (lit "points") (map fst o) ->
  output_points hexw hexp o g = Ok (o ++ points_doc (map point_of (points_of (s_points g)))).
Proof.
  intros (_ & H) N. unfold output_points. destruct (s_points g) as [l|] eqn:E.
  - destruct H as (L & H). rewrite L. destruct l as [|p l]; [cbn; now rewrite app_nil_r|].
    cbn [Datatypes.length Nat.eqb]. unfold for_to. change (S (length l)) with (length (p :: l)).
    pose proof (points_loop (p :: l) 0 H [] [] eq_refl eq_refl) as P. cbn [app] in P. rewrite P. cbn [bind].
    rewrite set_value_new by exact N. f_equal. f_equal.
    inversion H as [|? ? (q & -> & Q) H']; subst. cbn [points_of flat_map app map points_doc].
    rewrite map_map. reflexivity.
  - rewrite H. cbn. now rewrite app_nil_r.
Qed.

Definition group_of (g : subgroup_t hpoint) : pub_point * list pub_point := (point_of (s_gen g), map point_of (points_of (s_points g))).
Lemma group_doc_eq g : group_doc hexw hexp g = JObj (point_doc hexw hexp (fst g) ++ points_doc (snd g)).
Proof. destruct g as [p [|q l]]; reflexivity. Qed.
Lemma group_ok g : printable_group g ->
  (do o <- output_json_point hexw hexp (Some (s_gen g)); do o <- output_points hexw hexp o g; Ok o)
  = Ok (point_doc hexw hexp (point_of (s_gen g)) ++ points_doc (map point_of (points_of (s_points g)))).
Proof.
  intros H. rewrite (point_ok _ (proj1 H)). cbn [bind]. rewrite (points_ok _ g H); [reflexivity|].
  unfold point_doc. notin.
Qed.
Lemma groups_loop l : forall done, Forall printable_group l ->
  forall pre array, done = length pre -> array = map (fun g => group_doc hexw hexp (group_of g)) pre ->
  for_from (length l) done (fun i array =>
        do g <- rd (pre ++ l) i;
        do o <- output_json_point hexw hexp (Some (s_gen g));
        do o <- output_points hexw hexp o g;
        Ok (json_array_append_value array (JObj o))) array
  = Ok (map (fun g => group_doc hexw hexp (group_of g)) (pre ++ l)).
Proof.
  induction l as [|g l IH]; intros done H pre array D A; cbn [Datatypes.length for_from].
  - now rewrite app_nil_r, A.
  - inversion H as [|? ? G H']; subst.
    unfold rd at 1. rewrite nth_error_app2, Nat.sub_diag by lia. cbn [nth_error bind].
    rewrite (point_ok _ (proj1 G)). cbn [bind]. rewrite (points_ok _ g G) by (unfold point_doc; notin). cbn [bind].
    replace (pre ++ g :: l) with ((pre ++ [g]) ++ l) by (now rewrite <- app_assoc).
    apply IH; [exact H'|rewrite app_length; cbn; lia|].
    unfold json_array_append_value. rewrite map_app. cbn [map]. rewrite (group_doc_eq (group_of g)). reflexivity.
Qed.
Definition groups_doc (l : list (pub_point * list pub_point)) : object :=
  match l with [] => [] | l => [(lit "subgroups", JArr (map (group_doc hexw hexp) l))] end.
Lemma groups_ok o l : Forall printable_group l -> ~ In (lit "subgroups") (map fst o) ->
  output_subgroups hexw hexp o l = Ok (o ++ groups_doc (map group_of l)).
Proof.
  intros H N. unfold output_subgroups. destruct l as [|g l]; [cbn; now rewrite app_nil_r|].
  cbn [Datatypes.length Nat.eqb]. unfold for_to. change (S (length l)) with (length (g :: l)).
  pose proof (groups_loop (g :: l) 0 H [] [] eq_refl eq_refl) as P. cbn [app] in P. rewrite P. cbn [bind].
  rewrite set_value_new by exact N. cbn [map groups_doc]. rewrite map_map. reflexivity.
Qed.

(** the metadata so far *)
Definition with_meta (o inner : object) : object := match inner with [] => o | l => o ++ [(lit "meta", JObj l)] end.
Lemma meta_step o inner name v : ~ In (lit "meta") (map fst o) -> ~ In (lit name) (map fst inner) ->
  cut_dot (lit "meta" ++ "."%char :: lit name) = Some (lit "meta", lit name) -> cut_dot (lit name) = None ->
  output_meta dec ("meta." ++ name) v (with_meta o inner) = with_meta o (inner ++ opt v (fun n => one name (dec n))).
Proof.
  intros N M C D. unfold output_meta. destruct v as [n|]; cbn [opt]; [|now rewrite app_nil_r].
  change (lit ("meta." ++ name)) with (lit "meta" ++ "."%char :: lit name).
  destruct inner as [|x inner].
  - cbn [with_meta app]. rewrite dot_new by (auto using dec_7). reflexivity.
  - cbn [with_meta]. rewrite dot_more by (auto using dec_7). reflexivity.
Qed.

Lemma binary_params poly : (length (exponents poly) <= 4)%nat ->
  field_params (Binary poly) = Ok (map Z.of_nat (exponents poly) ++ repeat 0 (4 - length (exponents poly))).
Proof.
  intros L. assert (E : exponents poly = filter (nonzero poly) (down (length poly - 1))).
  { unfold exponents. generalize (length poly - 1)%nat as k. intros k.
    replace (down k) with (rev (seq 1 k)).
    - generalize (seq 1 k) as l. intros l. change (fun i => negb (nth i poly 0 =? 0)) with (nonzero poly).
      induction l as [|x l IH]; [reflexivity|]. cbn [filter rev]. rewrite filter_app. cbn [filter].
      destruct (nonzero poly x); cbn [rev]; rewrite IH; [reflexivity|now rewrite app_nil_r].
    - induction k as [|k IH]; [reflexivity|]. rewrite seq_S, rev_app_distr. cbn [rev app down Nat.add]. now rewrite IH. }
  rewrite E in *. cbn [field_params]. pose proof (params_ok poly (length poly - 1) 0 [] L eq_refl) as P.
  cbn [app repeat Nat.sub] in P. exact P.
Qed.

Local Ltac rootname FN := repeat first [ apply notin_app | apply notin_opt; intros ? | apply notin_one; discriminate | apply FN; discriminate
    | apply notin_cons; [discriminate|] | solve [intros []] ].
Lemma document_ok metadata c : printable c ->
  exists o, output_jjson hexw hexp dec metadata c = Ok o /\ JObj o = doc hexw hexp dec (published metadata c).
Proof.
  intros (F & S & A & B & O & G). unfold output_jjson.
  assert (FO : output_field hexw hexp (c_field c) = Ok [(lit "field", JObj (field_doc hexw hexp (pub_f (published metadata c))))]).
  { unfold published, output_field. cbn [pub_f]. destruct (c_field c) as [p|poly].
    - f_equal. apply (dot_new [] (lit "field") (lit "p")); [reflexivity|reflexivity|intros []|apply hexw_7; exact F].
    - rewrite (binary_params poly F). cbn [bind].
      set (l := map Z.of_nat (exponents poly) ++ repeat 0 (4 - length (exponents poly))).
      assert (L : length l = 4%nat) by (unfold l; rewrite app_length, map_length, repeat_length; lia).
      assert (P : Forall (fun z => 0 <= z) l).
      { unfold l. apply Forall_app. split; apply Forall_forall; intros z I.
        - apply in_map_iff in I. destruct I as (k & <- & _). lia.
        - apply repeat_spec in I. lia. }
      destruct l as [|l0 [|l1 [|l2 [|l3 [|]]]]]; try discriminate L.
      inversion P as [|? ? P0 P']; subst. inversion P' as [|? ? P1 P'']; subst. inversion P'' as [|? ? P2 P''']; subst.
      inversion P''' as [|? ? P3 _]; subst. cbn [rd nth_error bind]. cbv zeta. f_equal.
      rewrite (dot_new [] (lit "field") (lit "m")) by (first [reflexivity | solve [intros []] | apply hexp_7; assumption]).
      rewrite (dot_more [] (lit "field") (lit "e1")) by (first [reflexivity | solve [intros []] | solve [notin] | apply hexp_7; assumption]).
      rewrite (dot_more [] (lit "field") (lit "e2")) by (first [reflexivity | solve [intros []] | solve [notin] | apply hexp_7; assumption]).
      rewrite (dot_more [] (lit "field") (lit "e3")) by (first [reflexivity | solve [intros []] | solve [notin] | apply hexp_7; assumption]).
      reflexivity. }
  rewrite FO. clear FO. cbn [bind].
  set (f := [(lit "field", JObj (field_doc hexw hexp (pub_f (published metadata c))))]).
  assert (FN : forall k, k <> lit "field" -> ~ In k (map fst f)) by (unfold f; cbn; intuition congruence).
  assert (SO : output_seed f (c_seed c) = Ok (f ++ opt (pub_seed (published metadata c)) (one "seed"))).
  { unfold published, output_seed. cbn [pub_seed]. destruct (c_seed c) as [b|]; cbn [opt]; [|now rewrite app_nil_r].
    destruct S as (W & L). rewrite (seed_ok b W L). cbn [bind].
    rewrite set_string_new; [reflexivity|apply FN; discriminate|apply seed_text_7]. }
  rewrite SO. clear SO. cbn [bind]. cbv zeta. rewrite !elem_int_ok.
  rewrite (set_string_new (_ ++ _)) by (first [solve [rootname FN] | apply hexw_7; exact A]).
  rewrite (set_string_new (_ ++ _)) by (first [solve [rootname FN] | apply hexw_7; exact B]).
  rewrite (set_string_new (_ ++ _)) by (first [solve [rootname FN] | apply hexw_7; exact O]).
  rewrite groups_ok by (first [exact G | solve [rootname FN] ]). cbn [bind].
  set (root := (((( f ++ opt (pub_seed (published metadata c)) (one "seed")) ++ [(lit "a", JStr (hexw (elem_int (c_a c))))])
     ++ [(lit "b", JStr (hexw (elem_int (c_b c))))]) ++ [(lit "order", JStr (hexw (c_order c)))]) ++ groups_doc (map group_of (c_gens c))).
  assert (NM : ~ In (lit "meta") (map fst root)).
  { unfold root. apply notin_app; [rootname FN|]. destruct (map group_of (c_gens c)); cbn; [tauto|]. intros [X|[]]. discriminate X. }
  assert (FIN : JObj (with_meta root (meta_doc dec (if metadata then c_meta c else no_meta))) = doc hexw hexp dec (published metadata c)).
  { unfold doc, published. cbn [pub_meta pub_f pub_seed pub_a pub_b pub_order pub_groups]. f_equal. unfold root, f.
    change (map (fun g => (point_of (s_gen g), map point_of (points_of (s_points g)))) (c_gens c)) with (map group_of (c_gens c)).
    unfold published. cbn [pub_f pub_seed].
    destruct (map group_of (c_gens c)) as [|g0 gl]; destruct (meta_doc dec (if metadata then c_meta c else no_meta)) as [|x l]; cbn [with_meta groups_doc];
      repeat rewrite <- app_assoc; cbn [app]; rewrite ?app_nil_r; reflexivity. }
  destruct metadata.
  - eexists. split; [|exact FIN]. f_equal.
    change (output_meta dec "meta.j" (m_j (c_meta c)) root) with (output_meta dec ("meta." ++ "j") (m_j (c_meta c)) (with_meta root [])).
    rewrite meta_step by (first [exact NM | reflexivity | solve [intros []] ]). cbn [app].
    change "meta.discriminant"%string with ("meta." ++ "discriminant")%string.
    rewrite meta_step by (first [exact NM | reflexivity | solve [notin] ]).
    change "meta.embedding_degree"%string with ("meta." ++ "embedding_degree")%string.
    rewrite meta_step by (first [exact NM | reflexivity | solve [notin] ]).
    change "meta.frobenius"%string with ("meta." ++ "frobenius")%string.
    rewrite meta_step by (first [exact NM | reflexivity | solve [notin] ]).
    change "meta.cm_discriminant"%string with ("meta." ++ "cm_discriminant")%string.
    rewrite meta_step by (first [exact NM | reflexivity | solve [notin] ]).
    change "meta.conductor"%string with ("meta." ++ "conductor")%string.
    rewrite meta_step by (first [exact NM | reflexivity | solve [notin] ]).
    unfold meta_doc. now rewrite <- !app_assoc.
  - eexists. split; [|exact FIN]. reflexivity.
Qed.
End Document.

(** ** Reading back *)
Lemma member_eq o k : member o k = json_object_get_value o k.
Proof.
  induction o as [|[n v] o IH]; [reflexivity|]. cbn. unfold same. destruct (list_eq_dec ascii_dec n k); [reflexivity|exact IH].
Qed.
Lemma member_app a b k : member (a ++ b) k = match member a k with Some v => Some v | None => member b k end.
Proof. induction a as [|[n v] a IH]; [reflexivity|]. cbn. destruct (list_eq_dec ascii_dec n k); [reflexivity|exact IH]. Qed.
Lemma member_none (a : object) k : ~ In k (map fst a) -> member a k = None.
Proof. intros H. rewrite member_eq. now apply get_none. Qed.

Section Reading.
Variable hexw hexp dec : Z -> list ascii.
Hypothesis OK : prints hexw hexp dec.

Lemma all_map {A B C} (f : A -> B) (g : B -> option C) (h : A -> C) l :
  (forall x, In x l -> g (f x) = Some (h x)) -> all g (map f l) = Some (map h l).
Proof.
  induction l as [|x l IH]; intros H; [reflexivity|]. cbn [map all]. rewrite (H x) by now left.
  rewrite IH; [reflexivity|]. intros y I. apply H. now right.
Qed.

Definition good_point (p : pub_point) : Prop := 0 <= pp_x p /\ 0 <= pp_y p /\ 0 <= pp_order p /\ opt_all (fun c => 0 <= c) (pp_cofactor p).
Lemma read_point_more p rest : good_point p -> ~ In (lit "cofactor") (map fst rest) ->
  read_point (JObj (point_doc hexw hexp p ++ rest)) = Some p.
Proof.
  destruct p as [x y o c]. intros (X & Y & O & C) N. cbn [pp_x pp_y pp_order pp_cofactor] in *. destruct OK as (W & P & _).
  unfold point_doc, read_point, number, maybe. cbn [pp_x pp_y pp_order pp_cofactor].
  set (tail := opt c (fun c => one "cofactor" (hexp c)) ++ rest).
  set (D := (one "x" (hexw x) ++ one "y" (hexw y) ++ one "order" (hexp o) ++ opt c (fun c => one "cofactor" (hexp c))) ++ rest).
  assert (E : D = (lit "x", JStr (hexw x)) :: (lit "y", JStr (hexw y)) :: (lit "order", JStr (hexp o)) :: tail) by reflexivity.
  rewrite E. clear E D.
  assert (M1 : forall r, member ((lit "x", JStr (hexw x)) :: r) (lit "x") = Some (JStr (hexw x))) by reflexivity.
  assert (M2 : forall u v r, member ((lit "x", u) :: (lit "y", v) :: r) (lit "y") = Some v) by reflexivity.
  assert (M3 : forall u v w r, member ((lit "x", u) :: (lit "y", v) :: (lit "order", w) :: r) (lit "order") = Some w) by reflexivity.
  assert (M4 : forall u v w r, member ((lit "x", u) :: (lit "y", v) :: (lit "order", w) :: r) (lit "cofactor") = member r (lit "cofactor")) by reflexivity.
  rewrite M1, M2, M3, M4, (W x X), (W y Y), (P o O). unfold tail. destruct c as [c|]; cbn [opt app].
  - assert (M5 : forall r t, member (one "cofactor" t ++ r) (lit "cofactor") = Some (JStr t)) by reflexivity.
    rewrite M5. cbn [opt_all] in C. rewrite (P c C). reflexivity.
  - rewrite (member_none rest _ N). reflexivity.
Qed.
Lemma read_point_ok p : good_point p -> read_point (JObj (point_doc hexw hexp p)) = Some p.
Proof. intros G. rewrite <- (app_nil_r (point_doc hexw hexp p)). apply read_point_more; [exact G|intros []]. Qed.

Lemma read_group_ok g : good_point (fst g) -> Forall good_point (snd g) -> read_group (group_doc hexw hexp g) = Some g.
Proof.
  intros G H. destruct g as [p l]. cbn [fst snd] in *. rewrite group_doc_eq. cbn [fst snd]. unfold read_group.
  rewrite read_point_more; [|exact G|destruct l; cbn; [tauto|intros [X|[]]; discriminate X]].
  rewrite member_app, member_none by (unfold point_doc; notin).
  destruct l as [|q l]; [reflexivity|]. cbn [points_doc]. assert (M : forall v, member [(lit "points", v)] (lit "points") = Some v) by reflexivity. rewrite M.
  cbn [read_list]. rewrite (all_map _ _ (fun p => p)), map_id; [reflexivity|].
  intros x I. apply read_point_ok. rewrite Forall_forall in H. now apply H.
Qed.

Lemma maybe_opt name v rest : ~ In (lit name) (map fst rest) ->
  maybe dec_num (opt v (fun n => one name (dec n)) ++ rest) name = Some v.
Proof.
  intros N. unfold maybe. rewrite member_app. destruct v as [n|]; cbn [opt].
  - unfold one. cbn [member]. destruct (list_eq_dec ascii_dec (lit name) (lit name)) as [_|X]; [|congruence].
    destruct OK as (_ & _ & D). now rewrite D.
  - cbn [member]. now rewrite member_none.
Qed.
Lemma maybe_skip name a rest : ~ In (lit name) (map fst a) -> maybe dec_num (a ++ rest) name = maybe dec_num rest name.
Proof. intros N. unfold maybe. rewrite member_app, member_none by exact N. reflexivity. Qed.
Lemma read_meta_ok m : read_meta (match meta_doc dec m with [] => None | l => Some (JObj l) end) = Some m.
Proof.
  destruct (meta_doc dec m) as [|x l] eqn:E.
  - destruct m as [a b c d e f]. unfold meta_doc in E. cbn in E.
    destruct a; [discriminate|]. destruct b; [discriminate|]. destruct c; [discriminate|]. destruct d; [discriminate|].
    destruct e; [discriminate|]. destruct f; [discriminate|]. reflexivity.
  - rewrite <- E. clear E. destruct m as [a b c d e f]. unfold read_meta, meta_doc. cbn [m_j m_disc m_embedding m_frobenius m_cm m_conductor].
    rewrite maybe_opt by notin.
    rewrite maybe_skip, maybe_opt by notin.
    rewrite !(maybe_skip "embedding_degree"), maybe_opt by notin.
    rewrite !(maybe_skip "frobenius"), maybe_opt by notin.
    rewrite !(maybe_skip "cm_discriminant"), maybe_opt by notin.
    rewrite !(maybe_skip "conductor") by notin.
    rewrite <- (app_nil_r (opt f (fun n => one "conductor" (dec n)))), maybe_opt by notin. reflexivity.
Qed.

Definition good (p : pub) : Prop :=
  (match pub_f p with
   | PubPrime q => 0 <= q
   | PubBinary l => length l = 4%nat /\ Forall (fun e => 0 <= e) l
   end) /\ 0 <= pub_a p /\ 0 <= pub_b p /\ 0 <= pub_order p /\
  Forall (fun g => good_point (fst g) /\ Forall good_point (snd g)) (pub_groups p).

Lemma member_tail (a : object) n v b k : n = k -> ~ In k (map fst a) -> member (a ++ (n, v) :: b) k = Some v.
Proof.
  intros E N. rewrite member_app, member_none by exact N. cbn [member].
  destruct (list_eq_dec ascii_dec n k); [reflexivity|congruence].
Qed.

Lemma read_field_ok f : (match f with PubPrime q => 0 <= q | PubBinary l => length l = 4%nat /\ Forall (fun e => 0 <= e) l end) ->
  read_field (Some (JObj (field_doc hexw hexp f))) = Some f.
Proof.
  destruct OK as (W & P & _). destruct f as [q|l]; intros H; unfold read_field, number.
  - assert (M : member (field_doc hexw hexp (PubPrime q)) (lit "p") = Some (JStr (hexw q))) by reflexivity.
    rewrite M, (W q H). reflexivity.
  - destruct H as (L & H). destruct l as [|a [|b [|c [|d [|]]]]]; try discriminate L.
    inversion H as [|? ? Ha H1]; subst. inversion H1 as [|? ? Hb H2]; subst. inversion H2 as [|? ? Hc H3]; subst.
    inversion H3 as [|? ? Hd _]; subst.
    set (D := field_doc hexw hexp (PubBinary [a; b; c; d])).
    assert (M0 : member D (lit "p") = None) by reflexivity.
    assert (M1 : member D (lit "m") = Some (JStr (hexp a))) by reflexivity.
    assert (M2 : member D (lit "e1") = Some (JStr (hexp b))) by reflexivity.
    assert (M3 : member D (lit "e2") = Some (JStr (hexp c))) by reflexivity.
    assert (M4 : member D (lit "e3") = Some (JStr (hexp d))) by reflexivity.
    rewrite M0, M1, M2, M3, M4, (P a Ha), (P b Hb), (P c Hc), (P d Hd). reflexivity.
Qed.

Lemma groups_in k l : k <> lit "subgroups" -> ~ In k (map fst (match l with [] => [] | l => [(lit "subgroups", JArr (map (group_doc hexw hexp) l))] end : object)).
Proof. intros N. destruct l; cbn; [tauto|]. intros [E|[]]. now apply N. Qed.
Lemma metas_in k m : k <> lit "meta" -> ~ In k (map fst (match meta_doc dec m with [] => [] | l => [(lit "meta", JObj l)] end : object)).
Proof. intros N. destruct (meta_doc dec m); cbn; [tauto|]. intros [E|[]]. now apply N. Qed.
Lemma seed_in k s : k <> lit "seed" -> ~ In k (map fst (opt s (one "seed"))).
Proof. intros N. destruct s; cbn; [|tauto]. intros [E|[]]. now apply N. Qed.
Ltac topname := repeat first [ apply notin_app | apply groups_in; discriminate | apply metas_in; discriminate | apply seed_in; discriminate
  | apply notin_one; discriminate | apply notin_cons; [discriminate|] | solve [intros []] ].

Lemma read_ok p : good p -> read_curve (doc hexw hexp dec p) = Some p.
Proof.
  destruct p as [f s a b o g m]. intros (F & A & B & O & G). cbn [pub_f pub_a pub_b pub_order pub_groups] in *.
  set (fo := [(lit "field", JObj (field_doc hexw hexp f))]).
  set (go := match g with [] => [] | l => [(lit "subgroups", JArr (map (group_doc hexw hexp) l))] end).
  set (mo := match meta_doc dec m with [] => [] | l => [(lit "meta", JObj l)] end).
  assert (FN : forall k, k <> lit "field" -> ~ In k (map fst fo)) by (unfold fo; cbn; intros k N [E|[]]; now apply N).
  assert (GN : forall k, k <> lit "subgroups" -> ~ In k (map fst go)) by (intros k; apply groups_in).
  assert (MN : forall k, k <> lit "meta" -> ~ In k (map fst mo)) by (intros k; apply metas_in).
  set (root := fo ++ opt s (one "seed") ++ one "a" (hexw a) ++ one "b" (hexw b) ++ one "order" (hexw o) ++ go ++ mo).
  assert (Rf : member root (lit "field") = Some (JObj (field_doc hexw hexp f))) by reflexivity.
  assert (Rs : member root (lit "seed") = option_map JStr s).
  { unfold root. rewrite member_app, member_none by (apply FN; discriminate). rewrite member_app.
    destruct s as [s|]; [reflexivity|]. cbn [opt member option_map]. apply member_none.
    repeat first [apply notin_app | apply notin_one; discriminate | apply GN; discriminate | apply MN; discriminate]. }
  assert (Ra : member root (lit "a") = Some (JStr (hexw a))).
  { unfold root. rewrite app_assoc. apply member_tail; [reflexivity|]. apply notin_app; [apply FN; discriminate|apply seed_in; discriminate]. }
  assert (Rb : member root (lit "b") = Some (JStr (hexw b))).
  { unfold root. rewrite !app_assoc, <- !(app_assoc _ (one "order" (hexw o))), <- (app_assoc _ (one "b" (hexw b))), <- !app_assoc.
    rewrite (app_assoc fo), (app_assoc _ (one "a" _)). apply member_tail; [reflexivity|].
    repeat first [apply notin_app | apply notin_one; discriminate | apply FN; discriminate | apply seed_in; discriminate]. }
  assert (Ro : member root (lit "order") = Some (JStr (hexw o))).
  { unfold root. rewrite (app_assoc fo), (app_assoc _ (one "a" _)), (app_assoc _ (one "b" _)). apply member_tail; [reflexivity|].
    repeat first [apply notin_app | apply notin_one; discriminate | apply FN; discriminate | apply seed_in; discriminate]. }
  assert (SK : forall k, k <> lit "field" -> k <> lit "seed" -> k <> lit "a" -> k <> lit "b" -> k <> lit "order" -> member root k = member (go ++ mo) k).
  { intros k N1 N2 N3 N4 N5. unfold root.
    rewrite member_app, member_none by (now apply FN). rewrite member_app, member_none by (now apply seed_in).
    do 3 (rewrite member_app, member_none by (now apply notin_one)). reflexivity. }
  assert (Rg : read_list read_group (member root (lit "subgroups")) = Some g).
  { rewrite SK by discriminate. rewrite member_app.
    assert (MM : member mo (lit "subgroups") = None) by (apply member_none, MN; discriminate). rewrite MM.
    unfold go. destruct g as [|g0 g]; [reflexivity|].
    assert (M : forall v, member [(lit "subgroups", v)] (lit "subgroups") = Some v) by reflexivity. rewrite M.
    cbn [read_list]. rewrite (all_map _ _ (fun p => p)), map_id; [reflexivity|].
    intros x I. rewrite Forall_forall in G. apply read_group_ok; apply (G x I). }
  assert (Rm : read_meta (member root (lit "meta")) = Some m).
  { rewrite SK by discriminate. rewrite member_app, member_none by (apply GN; discriminate).
    rewrite <- (read_meta_ok m). unfold mo. destruct (meta_doc dec m); [reflexivity|].
    assert (M : forall v, member [(lit "meta", v)] (lit "meta") = Some v) by reflexivity. rewrite M. reflexivity. }
  assert (E : doc hexw hexp dec (Pub f s a b o g m) = JObj root).
  { unfold doc, root, go, mo. cbn [pub_f pub_seed pub_a pub_b pub_order pub_groups pub_meta].
    destruct g, (meta_doc dec m); reflexivity. }
  rewrite E. unfold read_curve, number. rewrite Rf, Rs, Ra, Rb, Ro, Rg, Rm, (read_field_ok f F).
  destruct OK as (W & _ & _). rewrite (W a A), (W b B), (W o O). destruct s; reflexivity.
Qed.

(** the names of every object in the document are distinct *)
Lemma nodup_one name t rest : ~ In (lit name) (map fst rest) -> NoDup (map fst rest) -> NoDup (map fst (one name t ++ rest)).
Proof. intros N D. cbn. now constructor. Qed.
Lemma nodup_opt {A} name (o : option A) f rest : ~ In (lit name) (map fst rest) -> NoDup (map fst rest) ->
  NoDup (map fst (opt o (fun x => one name (f x)) ++ rest)).
Proof. intros N D. destruct o; [now apply nodup_one|exact D]. Qed.
Lemma all_one name t rest : all_distinct rest -> all_distinct (one name t ++ rest).
Proof. intros D. split; [exact I|exact D]. Qed.
Lemma all_opt {A} name (o : option A) f rest : all_distinct rest -> all_distinct (opt o (fun x => one name (f x)) ++ rest).
Proof. intros D. destruct o; [split; [exact I|exact D]|exact D]. Qed.
Lemma meta_distinct m : distinct (JObj (meta_doc dec m)).
Proof.
  apply distinct_obj. unfold meta_doc. rewrite <- (app_nil_r (opt (m_conductor m) _)).
  split; [do 6 (apply nodup_opt; [notin|]); constructor|do 6 apply all_opt; exact I].
Qed.
Lemma point_distinct p rest : (forall k, k <> lit "points" -> ~ In k (map fst rest)) -> NoDup (map fst rest) -> all_distinct rest ->
  distinct (JObj (point_doc hexw hexp p ++ rest)).
Proof.
  intros N D A. apply distinct_obj. unfold point_doc. rewrite <- !app_assoc. split.
  - apply nodup_one; [|apply nodup_one; [|apply nodup_one; [|apply nodup_opt; [|exact D]]]];
      repeat first [apply notin_app | apply notin_opt; intros ? | apply notin_one; discriminate | apply N; discriminate].
  - do 3 apply all_one. apply all_opt. exact A.
Qed.
Lemma group_distinct g : distinct (group_doc hexw hexp g).
Proof.
  rewrite group_doc_eq. destruct g as [p l]. cbn [fst snd]. apply point_distinct.
  - intros k N. destruct l; cbn; [tauto|]. intros [E|[]]. now apply N.
  - destruct l; cbn; repeat constructor. intros [].
  - destruct l as [|q l]; [exact I|]. split; [|exact I]. cbn [snd distinct].
    generalize (q :: l) as r. intros r. induction r as [|x r IH]; [exact I|]. split; [|exact IH].
    rewrite <- (app_nil_r (point_doc hexw hexp x)). apply point_distinct; [intros k _ []|constructor|exact I].
Qed.
Lemma doc_distinct p : distinct (doc hexw hexp dec p).
Proof.
  unfold doc. apply distinct_obj. split.
  - assert (T : forall go mo, (forall k, k <> lit "subgroups" -> ~ In k (map fst go)) -> (forall k, k <> lit "meta" -> ~ In k (map fst mo)) ->
      NoDup (map fst (go ++ mo)) ->
      NoDup (map fst ([(lit "field", JObj (field_doc hexw hexp (pub_f p)))] ++ opt (pub_seed p) (one "seed") ++ one "a" (hexw (pub_a p))
        ++ one "b" (hexw (pub_b p)) ++ one "order" (hexw (pub_order p)) ++ go ++ mo))).
    { intros go mo GN MN D.
      assert (N : forall k, k <> lit "subgroups" -> k <> lit "meta" -> ~ In k (map fst (go ++ mo))).
      { intros k N1 N2. apply notin_app; auto. }
      assert (E : NoDup (map fst (one "a" (hexw (pub_a p)) ++ one "b" (hexw (pub_b p)) ++ one "order" (hexw (pub_order p)) ++ go ++ mo))).
      { do 2 (apply nodup_one; [repeat (apply notin_app; [apply notin_one; discriminate|]); apply N; discriminate|]).
        apply nodup_one; [apply N; discriminate|exact D]. }
      assert (E' : NoDup (map fst (opt (pub_seed p) (one "seed") ++ one "a" (hexw (pub_a p)) ++ one "b" (hexw (pub_b p)) ++ one "order" (hexw (pub_order p)) ++ go ++ mo))).
      { destruct (pub_seed p); [|exact E]. apply nodup_one; [|exact E].
        repeat (apply notin_app; [apply notin_one; discriminate|]); apply N; discriminate. }
      constructor; [|exact E'].
      apply notin_app; [apply seed_in; discriminate|]. repeat (apply notin_app; [apply notin_one; discriminate|]); apply N; discriminate. }
    apply T.
    { intros k N. destruct (pub_groups p); cbn; [tauto|]. intros [E|[]]. now apply N. }
    { intros k N. destruct (meta_doc dec (pub_meta p)); cbn; [tauto|]. intros [E|[]]. now apply N. }
    destruct (pub_groups p); (destruct (meta_doc dec (pub_meta p)); cbn; repeat constructor; cbn; intuition discriminate).
  - split; [cbn [snd]|].
    + apply distinct_obj. destruct (pub_f p) as [q|l]; unfold field_doc.
      * split; repeat constructor; intros [].
      * split; [|repeat split; exact I]. rewrite <- (app_nil_r (one "e3" _)). do 4 (apply nodup_one; [notin|]). constructor.
    + assert (R : all_distinct (match pub_groups p with [] => [] | l => [(lit "subgroups", JArr (map (group_doc hexw hexp) l))] end
        ++ match meta_doc dec (pub_meta p) with [] => [] | l => [(lit "meta", JObj l)] end)).
      { apply all_app. split.
        - destruct (pub_groups p) as [|g l]; [exact I|]. split; [|exact I]. cbn [snd distinct].
          generalize (g :: l) as r. intros r. induction r as [|x r IH]; [exact I|]. split; [apply group_distinct|exact IH].
        - pose proof (meta_distinct (pub_meta p)) as M. destruct (meta_doc dec (pub_meta p)); [exact I|]. split; [exact M|exact I]. }
      destruct (pub_seed p); cbn [opt]; [apply all_one|]; do 3 apply all_one; exact R.
Qed.
End Reading.

Lemma printable_good metadata c : printable c -> good (published metadata c).
Proof.
  intros (F & S & A & B & O & G). unfold good, published. cbn [pub_f pub_a pub_b pub_order pub_groups].
  split; [|repeat split; try assumption].
  - destruct (c_field c) as [p|poly]; [exact F|].
    split; [rewrite app_length, map_length, repeat_length; lia|].
    apply Forall_app. split; apply Forall_forall; intros z I.
    + apply in_map_iff in I. destruct I as (k & <- & _). lia.
    + apply repeat_spec in I. lia.
  - assert (AF : forall p, affine p -> good_point (point_of p)).
    { intros p ((x & y & E & X & Y) & Q & C). unfold point_of, good_point. rewrite E. cbn [pp_x pp_y pp_order pp_cofactor]. auto. }
    apply Forall_map. eapply Forall_impl; [|exact G]. intros g (P & Q). cbn [fst snd]. split; [now apply AF|].
    apply Forall_map. unfold points_of. destruct (s_points g) as [l|]; [|constructor]. destruct Q as (_ & Q).
    induction Q as [|p l (q & -> & H) Q IH]; [constructor|]. cbn [flat_map app]. constructor; [now apply AF|exact IH].
Qed.

(** ** C68 *)
(** Whatever PARI's number formatting is, as long as it prints the numbers, and whatever the allocated
    memory holds: for a curve all of whose points have coordinates and whose document is not too long
    for an int, the printed text is JSON for one document only, the one with exactly the members listed
    in [doc], and reading that document gives back the curve: field, seed, coefficients, order,
    subgroups with their points, metadata. *)
Theorem C68_readback hexw hexp dec junk metadata c :
  prints hexw hexp dec -> printable c -> room (doc hexw hexp dec (published metadata c)) 0 < 2 ^ 31 - 1 ->
  exists t, output_sjson hexw hexp dec junk metadata c = Ok (Some t) /\
    json t (doc hexw hexp dec (published metadata c)) /\
    (forall d, json t d -> read_curve d = Some (published metadata c)).
Proof.
  intros OK P R. unfold output_sjson.
  destruct (document_ok hexw hexp dec OK metadata c P) as (o & E & D). rewrite E. cbn [bind]. rewrite D.
  destruct (C67_serialise junk _ (doc_distinct hexw hexp dec (published metadata c)) R) as (t & S & N & J & U).
  rewrite S. cbn [bind]. rewrite c_text_ok by exact N. cbn [bind].
  exists t. split; [reflexivity|]. split; [exact J|]. intros d K. rewrite (U d K).
  apply read_ok; [exact OK|]. now apply printable_good.
Qed.
Print Assumptions C68_readback.

(** Full statement: every curve the program can print is read back. Two kinds of curve are lost: a point
    at infinity has no second coordinate to print, and a NULL in the list of points is dereferenced. *)
Definition no_cmeta : cmeta := CMeta None None None None None None.
Definition pt (x y n : Z) (h : option Z) : point_t hpoint := mkPoint (Some (Mod x 23, Mod y 23)) n h.
Definition grp (l : list (option (point_t hpoint))) : subgroup_t hpoint := mkSub (pt 3 10 7 (Some 4)) (length l) (Some l).
Theorem C68_infinity_refuted : exists c, (forall hexw hexp dec junk metadata, output_sjson hexw hexp dec junk metadata c = UB) /\
  exists g q, c_gens c = [g] /\ s_points g = Some [Some q] /\ p_point q = None.
Proof.
  exists (CCurve (Prime 23) None (Mod 1 23) (Mod 1 23) 28 [grp [Some (mkPoint None 1 (Some 28))]] no_cmeta).
  split; [intros; reflexivity|]. eexists. eexists. split; [reflexivity|]. split; reflexivity.
Qed.
Theorem C68_null_refuted : exists c, (forall hexw hexp dec junk metadata, output_sjson hexw hexp dec junk metadata c = UB) /\
  exists g, c_gens c = [g] /\ s_points g = Some [None].
Proof.
  exists (CCurve (Prime 23) None (Mod 1 23) (Mod 1 23) 28 [grp [None]] no_cmeta).
  split; [intros; reflexivity|]. eexists. split; reflexivity.
Qed.

(** printers that print the number, and a curve *)
Definition hex_2 (n : Z) : list ascii := "0"%char :: "x"%char :: hex_text (S (Z.to_nat (Z.log2 n / 4))) n.
Fixpoint dec_text (n : nat) (v : Z) : list ascii :=
  match n with O => [] | S k => dec_text k (v / 10) ++ [ascii_of_nat (48 + Z.to_nat (v mod 10))] end.
Definition dec_2 (n : Z) : list ascii :=
  (if n <? 0 then ["-"%char] else []) ++ dec_text (S (Z.to_nat (Z.log2 (Z.abs n) / 3))) (Z.abs n).
Lemma hex_acc_app s : forall a t, hex_acc a (s ++ t) = match hex_acc a s with Some b => hex_acc b t | None => None end.
Proof. induction s as [|c s IH]; intros a t; [reflexivity|]. cbn [app hex_acc]. destruct (hexd c); [apply IH|reflexivity]. Qed.
Lemma dec_acc_app s : forall a t, dec_acc a (s ++ t) = match dec_acc a s with Some b => dec_acc b t | None => None end.
Proof. induction s as [|c s IH]; intros a t; [reflexivity|]. cbn [app dec_acc]. destruct (decd c); [apply IH|reflexivity]. Qed.
Lemma hexd_hexch d : 0 <= d < 16 -> hexd (hexch d) = Some (Z.to_nat d).
Proof.
  intros H. assert (C : forallb (fun k => match hexd (hexch (Z.of_nat k)) with Some j => (j =? k)%nat | None => false end) (seq 0 16) = true) by (vm_compute; reflexivity).
  rewrite forallb_forall in C. specialize (C (Z.to_nat d) ltac:(apply in_seq; lia)). rewrite Z2Nat.id in C by lia.
  destruct (hexd (hexch d)); [|discriminate]. apply Nat.eqb_eq in C. now subst.
Qed.
Lemma decd_ch d : 0 <= d < 10 -> decd (ascii_of_nat (48 + Z.to_nat d)) = Some d.
Proof.
  intros H. assert (C : forallb (fun k => match decd (ascii_of_nat (48 + k)) with Some j => j =? Z.of_nat k | None => false end) (seq 0 10) = true) by (vm_compute; reflexivity).
  rewrite forallb_forall in C. specialize (C (Z.to_nat d) ltac:(apply in_seq; lia)).
  destruct (decd _); [|discriminate]. apply Z.eqb_eq in C. subst. f_equal. lia.
Qed.
Lemma hex_text_reads k : forall v, 0 <= v < 16 ^ Z.of_nat k -> hex_acc 0 (hex_text k v) = Some v.
Proof.
  induction k as [|k IH]; intros v H; [cbn in *; f_equal; lia|].
  rewrite Nat2Z.inj_succ, Z.pow_succ_r in H by lia. cbn [hex_text].
  pose proof (Z.div_mod v 16 ltac:(lia)) as D. pose proof (Z.mod_pos_bound v 16 ltac:(lia)) as M.
  rewrite hex_acc_app, IH by (split; [apply Z.div_pos; lia|apply Z.div_lt_upper_bound; lia]).
  cbn [hex_acc]. rewrite hexd_hexch by exact M. f_equal. rewrite Z2Nat.id by lia. lia.
Qed.
Lemma dec_text_reads k : forall v, 0 <= v < 10 ^ Z.of_nat k -> dec_acc 0 (dec_text k v) = Some v.
Proof.
  induction k as [|k IH]; intros v H; [cbn in *; f_equal; lia|].
  rewrite Nat2Z.inj_succ, Z.pow_succ_r in H by lia. cbn [dec_text].
  pose proof (Z.div_mod v 10 ltac:(lia)) as D. pose proof (Z.mod_pos_bound v 10 ltac:(lia)) as M.
  rewrite dec_acc_app, IH by (split; [apply Z.div_pos; lia|apply Z.div_lt_upper_bound; lia]).
  cbn [dec_acc]. rewrite decd_ch by exact M. f_equal. lia.
Qed.
Lemma width w b v : 0 < w -> 2 ^ w <= b -> 0 <= v -> 0 <= v < b ^ Z.of_nat (S (Z.to_nat (Z.log2 v / w))).
Proof.
  intros W B V. split; [exact V|]. pose proof (Z.log2_nonneg v) as L.
  rewrite Nat2Z.inj_succ, Z2Nat.id by (apply Z.div_pos; lia).
  apply Z.lt_le_trans with ((2 ^ w) ^ Z.succ (Z.log2 v / w)).
  - rewrite <- Z.pow_mul_r by (try lia; pose proof (Z.div_pos (Z.log2 v) w L W); lia).
    destruct (Z.eq_dec v 0) as [->|N]; [apply Z.pow_pos_nonneg; [lia|]; change (Z.log2 0) with 0; rewrite Z.div_0_l by lia; lia|].
    apply Z.lt_le_trans with (2 ^ Z.succ (Z.log2 v)); [apply Z.log2_spec; lia|]. apply Z.pow_le_mono_r; [lia|].
    pose proof (Z.div_mod (Z.log2 v) w ltac:(lia)). pose proof (Z.mod_pos_bound (Z.log2 v) w ltac:(lia)).
    replace (w * Z.succ (Z.log2 v / w)) with (w * (Z.log2 v / w) + w) by ring. lia.
  - apply Z.pow_le_mono_l. split; [apply Z.pow_nonneg; lia|exact B].
Qed.
Lemma printers : prints hex_2 hex_2 dec_2.
Proof.
  assert (H : forall n, 0 <= n -> hex_num (hex_2 n) = Some n).
  { intros n N. unfold hex_2. cbn [hex_num Ascii.eqb Bool.eqb andb].
    pose proof (hex_text_reads (S (Z.to_nat (Z.log2 n / 4))) n ltac:(apply (width 4 16); lia)) as R.
    cbn [hex_text] in *. destruct (hex_text (Z.to_nat (Z.log2 n / 4)) (n / 16)); exact R. }
  split; [exact H|]. split; [exact H|]. intros n. unfold dec_2.
  pose proof (dec_text_reads (S (Z.to_nat (Z.log2 (Z.abs n) / 3))) (Z.abs n) ltac:(apply (width 3 10); lia)) as R.
  assert (NE : exists c t, dec_text (S (Z.to_nat (Z.log2 (Z.abs n) / 3))) (Z.abs n) = c :: t /\ decd c <> None).
  { destruct (dec_text (S (Z.to_nat (Z.log2 (Z.abs n) / 3))) (Z.abs n)) as [|c t] eqn:E.
    - exfalso. cbn [dec_text] in E. now apply app_eq_nil in E.
    - exists c, t. split; [reflexivity|]. intros X. cbn [dec_acc] in R. rewrite X in R. discriminate. }
  destruct NE as (c & t & E & NE). rewrite E in *. destruct (n <? 0) eqn:S.
  - apply Z.ltb_lt in S. cbn [app dec_num]. change (Ascii.eqb "-" "-") with true. cbn iota. rewrite R. f_equal. lia.
  - apply Z.ltb_ge in S. cbn [app dec_num]. destruct (Ascii.eqb c "-") eqn:M.
    + apply Ascii.eqb_eq in M. subst. now elim NE.
    + rewrite R. f_equal. lia.
Qed.

Definition ex68 : ccurve := CCurve (Binary [1; 1; 0; 1]) (Some (mkBits [165; 48]%N true 12 2)) (FF [1; 0; 1]) (Int 1) 14
  [mkSub (mkPoint (Some (FF [0; 1], FF [1; 1; 1])) 7 (Some 2)) 1 (Some [Some (mkPoint (Some (FF [], FF [1])) 7 None)])]
  (CMeta (Some 5) None None (Some (-5)) None None).
Example C68_example : prints hex_2 hex_2 dec_2 /\ printable ex68 /\ room (doc hex_2 hex_2 dec_2 (published true ex68)) 0 < 2 ^ 31 - 1 /\
  published true ex68 = Pub (PubBinary [3; 1; 0; 0]) (Some (lit "-0x0a53")) 5 1 14
    [(PubPoint 2 7 7 (Some 2), [PubPoint 0 1 7 None])] (CMeta (Some 5) None None (Some (-5)) None None) /\
  output_sjson hex_2 hex_2 dec_2 (fun _ => "?"%char) true ex68 =
  Ok (Some (removelast (concat (map (fun l => list_ascii_of_string l ++ ["010"%char])
    ["{"; "    ""field"": {"; "        ""m"": ""0x3"","; "        ""e1"": ""0x1"","; "        ""e2"": ""0x0"","; "        ""e3"": ""0x0"""; "    },";
     "    ""seed"": ""-0x0a53"","; "    ""a"": ""0x5"","; "    ""b"": ""0x1"","; "    ""order"": ""0xe"",";
     "    ""subgroups"": ["; "        {"; "            ""x"": ""0x2"","; "            ""y"": ""0x7"",";
     "            ""order"": ""0x7"","; "            ""cofactor"": ""0x2"","; "            ""points"": ["; "                {";
     "                    ""x"": ""0x0"","; "                    ""y"": ""0x1"","; "                    ""order"": ""0x7""";
     "                }"; "            ]"; "        }"; "    ],"; "    ""meta"": {"; "        ""j"": ""5"","; "        ""frobenius"": ""-5"""; "    }"; "}"]%string)))).
Proof.
  split; [exact printers|]. split.
  - split; [cbn; lia|]. split; [split; [|reflexivity]|].
    + split; [cbn; lia|]. split; [vm_compute; lia|]. repeat constructor.
    + split; [vm_compute; discriminate|]. split; [vm_compute; discriminate|]. split; [vm_compute; discriminate|].
      constructor; [|constructor]. split.
      * split; [eexists; eexists; split; [reflexivity|split; vm_compute; discriminate]|]. split; vm_compute; discriminate.
      * split; [reflexivity|]. constructor; [|constructor]. eexists. split; [reflexivity|].
        split; [eexists; eexists; split; [reflexivity|split; vm_compute; discriminate]|]. split; [vm_compute; discriminate|exact I].
  - split; [reflexivity|]. split; [vm_compute; reflexivity|]. vm_compute. reflexivity.
Qed.
