(** C58: the hexadecimal pattern filter. *)
From Coq Require Import Ascii String.
From Verif Require Import Base Bits_Model Bits_Spec Bits_Proofs Bits_Props Str_Model Str_Proofs Cli_Model Poly_Model Hex_Model.
Local Open Scope Z_scope.
Local Open Scope list_scope.

(** ** Specification *)
Definition contains (s p : str) : Prop := exists u v, s = u ++ p ++ v.

(** PARI prints 0x and at least as many hexadecimal digits as the number has *)
Definition prints_hex (fmt : Z -> str) : Prop :=
  forall n, 0 <= n -> exists k, fmt n = "0"%char :: "x"%char :: hex_text k n /\ n < 16 ^ Z.of_nat k.
(** the digits PARI prints *)
Definition digits (fmt : Z -> str) (n : Z) : str := skipn 2 (fmt n).

(** the numbers of a point *)
Definition coords (p : hpoint) : list Z := match p with Some (x, y) => [field_elementi x; field_elementi y] | None => [] end.
(** the numbers a curve consists of: field, coefficients, order, generators, points *)
Definition numbers (c : hcurve) : list Z :=
  (match h_field c with Prime p => [p] | Binary _ => [] end) ++
  [field_elementi (h_a c); field_elementi (h_b c); h_order c] ++
  flat_map (fun g => coords (hg_point g)) (h_gens c) ++
  flat_map (fun g => flat_map coords (hg_points g)) (h_gens c).
(** the texts of its parameters, with the seed *)
Definition parameter_text (fmt : Z -> str) (c : hcurve) (t : str) : Prop :=
  (exists b, h_seed c = Some b /\ t = hex_text (2 * ((bitlen b + 7) / 8))%nat (mag b)) \/
  (exists n, In n (numbers c) /\ t = digits fmt n).

(** ** Searching *)
Lemma starts_iff p s : starts p s = true <-> exists v, s = p ++ v.
Proof.
  revert s. induction p as [|a p IH]; intros s; cbn [starts]; [split; [intros _; now exists s|reflexivity]|]. destruct s as [|b s]; [split; [discriminate|intros [v H]; discriminate]|].
  rewrite andb_true_iff, Ascii.eqb_eq, IH. split; [intros [-> [v ->]]; now exists v|intros [v H]; injection H as -> ->; eauto].
Qed.
Lemma strstr_iff s p : strstr s p = true <-> contains s p.
Proof.
  induction s as [|c s IH]; cbn [strstr]; rewrite orb_true_iff, starts_iff.
  - split; [intros [[v ->]|]; [exists [], v; reflexivity|discriminate]|]. intros (u & v & H). left. destruct u; [|discriminate]. eauto.
  - rewrite IH. split.
    + intros [[v ->]|(u & v & ->)]; [exists [], v; reflexivity|exists (c :: u), v; reflexivity].
    + intros (u & v & H). destruct u as [|d u]; [left; eauto|right]. injection H as -> ->. now exists u, v.
Qed.

(** a character that is not in the pattern separates *)
Lemma contains_split u c v p : ~ In c p -> contains (u ++ c :: v) p <-> contains u p \/ contains v p.
Proof.
  intros N. split.
  - intros (x & y & H). revert x H. induction u as [|a u IH]; intros x H; cbn [app] in H.
    + destruct x as [|b x].
      * destruct p as [|b p]; [left; now exists [], []|]. injection H as -> _. exfalso. apply N. now left.
      * injection H as -> H. right. exists x, y. exact H.
    + destruct x as [|b x].
      * cbn [app] in H. left. exists []. cbn [app].
        assert (G : forall w, ~ In c p -> w ++ c :: v = p ++ y -> exists z, w = p ++ z).
        { clear. induction p as [|b p IH]; intros w N H; [now exists w|]. destruct w as [|d w]; cbn [app] in H; [injection H as -> _; exfalso; apply N; now left|].
          injection H as -> H. destruct (IH w) as [z ->]; [intros X; apply N; now right|exact H|]. now exists z. }
        destruct (G (a :: u) N H) as [z Hz]. now exists z.
      * injection H as -> H. destruct (IH x H) as [(x' & y' & ->)|R]; [left; now exists (b :: x'), y'|now right].
  - intros [(x & y & ->)|(x & y & ->)].
    + exists x, (y ++ c :: v). now rewrite <- !app_assoc.
    + exists (u ++ c :: x), y. now rewrite <- app_assoc.
Qed.
Lemma contains_app_l u v p : contains u p -> contains (u ++ v) p.
Proof. intros (x & y & ->). exists x, (y ++ v). now rewrite <- !app_assoc. Qed.
Lemma contains_app_r u v p : contains v p -> contains (u ++ v) p.
Proof. intros (x & y & ->). exists (u ++ x), y. now rewrite <- app_assoc. Qed.

(** a pattern that does not end with [c] is not found with the help of a [c] at the end *)
Lemma contains_snoc u c p d : p <> [] -> last p d <> c -> contains (u ++ [c]) p -> contains u p.
Proof.
  intros E N (x & y & H). destruct (exists_last E) as (p' & e & ->). rewrite last_last in N.
  destruct y as [|f y _] using rev_ind.
  - rewrite app_nil_r, app_assoc in H. apply app_inj_tail in H. destruct H as [_ H]. congruence.
  - rewrite !app_assoc in H. apply app_inj_tail in H. destruct H as [-> _]. exists x, y. now rewrite <- !app_assoc.
Qed.

(** joined texts *)
Lemma contains_joined l p : ~ In ","%char p -> l <> [] -> contains (joined [","%char] l) p <-> exists t, In t l /\ contains t p.
Proof.
  intros N. induction l as [|s l IH]; intros E; [congruence|]. destruct l as [|s2 l].
  - cbn [joined]. split; [intros H; exists s; split; [now left|exact H]|intros (t & [->|[]] & H); exact H].
  - change (joined [","%char] (s :: s2 :: l)) with (s ++ ","%char :: joined [","%char] (s2 :: l)). rewrite contains_split by exact N.
    rewrite IH by discriminate. split.
    + intros [H|(t & I & H)]; [exists s; split; [now left|exact H]|exists t; split; [now right|exact H]].
    + intros (t & [->|I] & H); [now left|right; eauto].
Qed.

(** ** The texts *)
Definition lowhex (c : ascii) : Prop := In c (list_ascii_of_string "0123456789abcdef").
Lemma hexch_low d : 0 <= d < 16 -> lowhex (hexch d).
Proof.
  intros H. unfold hexch, lowhex. assert (X : (Z.to_nat d < 16)%nat) by lia. revert X. generalize (Z.to_nat d). clear. intros n X.
  do 16 (destruct n as [|n]; [vm_compute; tauto|]). lia.
Qed.
Lemma hex_text_low k n : Forall lowhex (hex_text k n).
Proof.
  revert n. induction k as [|k IH]; intros n; cbn [hex_text]; [constructor|]. apply Forall_app. split; [apply IH|]. constructor; [|constructor].
  apply hexch_low. apply Z.mod_pos_bound. lia.
Qed.
Lemma low_nonul s : Forall lowhex s -> nonul s.
Proof. apply Forall_impl. intros c H ->. vm_compute in H. intuition discriminate. Qed.

Section Fmt.
Variable fmt : Z -> str.
Hypothesis F : prints_hex fmt.
Lemma fmt_text n : 0 <= n -> fmt n = "0"%char :: "x"%char :: digits fmt n /\ Forall lowhex (digits fmt n).
Proof. intros H. destruct (F n H) as (k & E & _). unfold digits. rewrite E. cbn [skipn]. split; [reflexivity|apply hex_text_low]. Qed.
Lemma fmt_nonul n : 0 <= n -> nonul (fmt n).
Proof. intros H. destruct (fmt_text n H) as [-> L]. repeat (constructor; [discriminate|]). now apply low_nonul. Qed.

Definition point_text (p : hpoint) : str := match p with Some (x, y) => fmt (field_elementi x) ++ ","%char :: fmt (field_elementi y) | None => [] end.
Definition good_point (p : hpoint) : Prop := p <> None /\ Forall (fun n => 0 <= n) (coords p).

Lemma c_text_ok t : nonul t -> c_text (t ++ [zero]) = Ok t.
Proof. intros N. unfold c_text. rewrite (find_nul_ok t [] N 0). cbn [bind]. f_equal. rewrite Nat.add_0_l, firstn_app, firstn_all, Nat.sub_diag, app_nil_r. reflexivity. Qed.
Lemma point_nonul p : good_point p -> nonul (point_text p).
Proof.
  intros [N G]. destruct p as [[x y]|]; [|congruence]. cbn [point_text coords] in *. inversion G as [|? ? Gx G2]; subst. inversion G2; subst.
  apply nonul_app. split; [now apply fmt_nonul|]. constructor; [discriminate|now apply fmt_nonul].
Qed.
Lemma hex_point_ok p : good_point p -> Z.of_nat (length (point_text p)) < max_alloc -> hex_point fmt p = Ok (point_text p).
Proof.
  intros G L. pose proof (point_nonul p G) as NN. destruct G as [N G]. destruct p as [[x y]|]; [|congruence]. cbn [point_text coords hex_point] in *.
  inversion G as [|? ? Gx G2]; subst. inversion G2; subst.
  rewrite (str_joinv_ok (Some [","%char]) [fmt (field_elementi x); fmt (field_elementi y)]).
  - cbn [bind sep_text joined app]. now apply c_text_ok.
  - discriminate.
  - cbn; lia.
  - repeat constructor. discriminate.
  - repeat constructor; now apply fmt_nonul.
  - exact L.
Qed.
Lemma each_ok {A B} (f : A -> res B) (g : A -> B) l : (forall x, In x l -> f x = Ok (g x)) -> each f l = Ok (map g l).
Proof.
  induction l as [|x l IH]; intros H; cbn [each map]; [reflexivity|]. rewrite H by now left. cbn [bind]. rewrite IH by (intros; apply H; now right). reflexivity.
Qed.

Lemma cat_all_ok l : forall a n, nonul a -> Forall nonul l -> (length (concat l) <= n)%nat ->
  cat_all (a ++ repeat zero (S n)) l = Ok ((a ++ concat l) ++ repeat zero (S (n - length (concat l)))).
Proof.
  induction l as [|s l IH]; intros a n Na Nl L; cbn [cat_all concat] in *.
  - now rewrite app_nil_r, Nat.sub_0_r.
  - inversion Nl; subst. rewrite app_length in L. rewrite strcat_ok by (auto; lia). cbn [bind]. rewrite IH; [|now apply nonul_app|assumption|lia].
    rewrite <- !app_assoc. do 4 f_equal. rewrite app_length. replace (n - length s - length (concat l))%nat with (n - (length s + length (concat l)))%nat by lia. reflexivity.
Qed.

Definition points_text (ps : list hpoint) : str := concat (map point_text ps).
Lemma fold_len l : forall t, 0 <= t -> t + Z.of_nat (length (concat l)) < 2 ^ 64 ->
  fold_left (fun total (s : str) => u64 (total + Z.of_nat (length s))) l t = t + Z.of_nat (length (concat l)).
Proof.
  induction l as [|s l IH]; intros t H H2; cbn [fold_left concat] in *; [cbn; lia|]. rewrite app_length in *.
  unfold u64. rewrite Z.mod_small by lia. rewrite IH by lia. lia.
Qed.
Lemma concat_in_len (l : list str) t : In t l -> (length t <= length (concat l))%nat.
Proof.
  induction l as [|s l IH]; intros H; [destruct H|]. destruct H as [->|H]; cbn [concat]; rewrite app_length; [lia|specialize (IH H); lia].
Qed.
Lemma hex_points_ok ps : Forall good_point ps -> Z.of_nat (length (points_text ps)) < max_alloc -> hex_points fmt ps = Ok (points_text ps).
Proof.
  intros G L. unfold hex_points. rewrite Forall_forall in G.
  rewrite (each_ok _ point_text).
  - cbn [bind]. unfold points_text in *. rewrite fold_len by (unfold max_alloc in L; lia). unfold try_calloc.
    replace (1 + Z.of_nat (length (concat (map point_text ps))) <=? max_alloc) with true by lia. cbn [bind].
    replace (Z.to_nat (1 + Z.of_nat (length (concat (map point_text ps))))) with (S (length (concat (map point_text ps)))) by lia.
    assert (Nn : Forall nonul (map point_text ps)) by (apply Forall_forall; intros t I; apply in_map_iff in I; destruct I as (p & <- & I); now apply point_nonul, G).
    pose proof (cat_all_ok (map point_text ps) [] (length (concat (map point_text ps))) ltac:(constructor) Nn (Nat.le_refl _)) as C. cbn [app] in C. rewrite C.
    cbn [bind app]. rewrite Nat.sub_diag. cbn [repeat]. apply c_text_ok. clear - Nn. induction Nn; cbn [concat]; [constructor|]. apply nonul_app; auto.
  - intros p I. apply hex_point_ok; [now apply G|]. pose proof (concat_in_len (map point_text ps) (point_text p) (in_map _ _ _ I)) as X. unfold points_text in L. lia.
Qed.

(** ** What a text contains *)
Lemma low_x p : Forall lowhex p -> ~ In "x"%char p.
Proof. intros H I. rewrite Forall_forall in H. specialize (H _ I). vm_compute in H. intuition discriminate. Qed.
Lemma low_comma p : Forall lowhex p -> ~ In ","%char p.
Proof. intros H I. rewrite Forall_forall in H. specialize (H _ I). vm_compute in H. intuition discriminate. Qed.
Lemma low_minus p : Forall lowhex p -> ~ In "-"%char p.
Proof. intros H I. rewrite Forall_forall in H. specialize (H _ I). vm_compute in H. intuition discriminate. Qed.

(** the lone digit 0 of a prefix *)
Definition zero_text : str := ["0"%char].
Lemma contains_fmt n p : 0 <= n -> Forall lowhex p -> contains (fmt n) p <-> contains zero_text p \/ contains (digits fmt n) p.
Proof. intros H L. destruct (fmt_text n H) as [E _]. rewrite E at 1. change ("0"%char :: "x"%char :: digits fmt n) with (zero_text ++ "x"%char :: digits fmt n). apply contains_split. now apply low_x. Qed.
Lemma contains_point q p : good_point q -> Forall lowhex p ->
  contains (point_text q) p <-> contains zero_text p \/ exists n, In n (coords q) /\ contains (digits fmt n) p.
Proof.
  intros [N G] L. destruct q as [[x y]|]; [|congruence]. cbn [point_text coords] in *. inversion G as [|? ? Gx G2]; subst. inversion G2 as [|? ? Gy _]; subst.
  rewrite contains_split by now apply low_comma. rewrite !contains_fmt by assumption. cbn [In]. split.
  - intros [[H|H]|[H|H]]; [now left| |now left|]; right; eexists; (split; [|exact H]); auto.
  - intros [H|(n & [<-|[<-|[]]] & H)]; auto.
Qed.

(** the concatenated points: a y coordinate is followed by the 0 of the next point *)
Definition y_of (q : hpoint) : str := match q with Some (_, y) => digits fmt (field_elementi y) | None => [] end.
Lemma contains_points ps p : Forall good_point ps -> Forall lowhex p -> p <> [] ->
  contains (points_text ps) p <->
    exists q, In q ps /\ (contains (point_text q) p \/ (exists l r q', ps = l ++ q :: q' :: r /\ contains (y_of q ++ zero_text) p)).
Proof.
  intros G L E. unfold points_text. induction G as [|q ps Gq G IH]; cbn [map concat].
  - split; [intros (u & v & H); destruct u, p; try discriminate; congruence|intros (q & [] & _)].
  - destruct ps as [|q' ps].
    + cbn [map concat]. rewrite app_nil_r. split; [intros H; exists q; split; [now left|now left]|].
      intros (q0 & [<-|[]] & [H|(l & r & q' & X & _)]); [exact H|]. destruct l as [|a [|b l]]; discriminate.
    + (* the text around the boundary *)
      destruct Gq as [Nq Cq]. destruct q as [[x y]|]; [|congruence]. cbn [coords] in Cq. inversion Cq as [|? ? Gx G2]; subst. inversion G2 as [|? ? Gy _]; subst.
      assert (Gq' : good_point q') by (inversion G; assumption).
      set (rest := concat (map point_text (q' :: ps))) in *.
      assert (R : exists z, rest = "0"%char :: "x"%char :: z).
      { unfold rest. cbn [map concat]. destruct Gq' as [N' C']. destruct q' as [[x' y']|]; [|congruence]. cbn [coords] in C'. inversion C' as [|? ? Gx' _]; subst.
        cbn [point_text]. destruct (fmt_text _ Gx') as [-> _]. cbn [app]. eauto. }
      assert (B : contains (point_text (Some (x, y)) ++ rest) p <->
                  contains (point_text (Some (x, y))) p \/ contains (digits fmt (field_elementi y) ++ zero_text) p \/ contains rest p).
      { destruct R as (z & R). rewrite R. cbn [point_text]. destruct (fmt_text _ Gy) as [Ey _]. rewrite Ey.
        assert (A1 : (fmt (field_elementi x) ++ ","%char :: "0"%char :: "x"%char :: digits fmt (field_elementi y)) ++ "0"%char :: "x"%char :: z =
                     fmt (field_elementi x) ++ ","%char :: (zero_text ++ "x"%char :: ((digits fmt (field_elementi y) ++ zero_text) ++ "x"%char :: z))).
        { unfold zero_text. rewrite <- !app_assoc. cbn [app]. reflexivity. }
        rewrite A1. change ("0"%char :: "x"%char :: digits fmt (field_elementi y)) with (zero_text ++ "x"%char :: digits fmt (field_elementi y)).
        change ("0"%char :: "x"%char :: z) with (zero_text ++ "x"%char :: z).
        repeat (rewrite contains_split by (first [now apply low_comma | now apply low_x])).
        split; [|]; intros H; repeat match goal with H : _ \/ _ |- _ => destruct H end; auto 8.
        all: try (right; left; now apply contains_app_l). right. right. left. now apply contains_app_l. }
      rewrite B, IH. split.
      * intros [H|[H|(q0 & I & [H|(l & r & q2 & X & H)])]].
        -- exists (Some (x, y)). split; [now left|now left].
        -- exists (Some (x, y)). split; [now left|]. right. exists [], ps, q'. split; [reflexivity|exact H].
        -- exists q0. split; [now right|now left].
        -- exists q0. split; [now right|]. right. exists (Some (x, y) :: l), r, q2. split; [now rewrite X|exact H].
      * intros (q0 & I & [H|(l & r & q2 & X & H)]).
        -- destruct I as [<-|I]; [now left|]. right. right. exists q0. auto.
        -- destruct l as [|a l]; cbn [app] in X; injection X as X1 X2.
           ++ subst q0. right. left. exact H.
           ++ right. right. exists q0. split; [rewrite X2; apply in_app_iff; right; now left|]. right. exists l, r, q2. auto.
Qed.

(** ** The whole filter *)
Definition sane (c : hcurve) : Prop :=
  match h_seed c with Some b => WF b | None => True end /\ Forall (fun n => 0 <= n) (numbers c) /\ h_gens c <> [] /\
  Forall (fun g => hg_point g <> None /\ Forall (fun q => q <> None) (hg_points g)) (h_gens c) /\
  Z.of_nat (length (h_gens c)) < 2 ^ 63 /\
  Z.of_nat (length (joined [","%char] (map (fun g => point_text (hg_point g)) (h_gens c)))) < max_alloc /\
  Z.of_nat (length (joined [","%char] (map (fun g => points_text (hg_points g)) (h_gens c)))) < max_alloc.

Definition seed_text (c : hcurve) : option str :=
  match h_seed c with Some b => Some ((if bsign b then ["-"%char] else []) ++ hex_text (2 * ((bitlen b + 7) / 8))%nat (mag b)) | None => None end.
Definition field_text (c : hcurve) : option str := match h_field c with Prime p => Some (fmt p) | Binary _ => None end.
Definition texts (c : hcurve) : list (option str) :=
  [seed_text c; field_text c; Some (fmt (field_elementi (h_a c))); Some (fmt (field_elementi (h_b c))); Some (fmt (h_order c));
   Some (joined [","%char] (map (fun g => point_text (hg_point g)) (h_gens c)));
   Some (joined [","%char] (map (fun g => points_text (hg_points g)) (h_gens c)))].

Lemma joined_in_len l t : In t l -> (length t <= length (joined [","%char] l))%nat.
Proof.
  induction l as [|s l IH]; intros H; [destruct H|]. destruct l as [|s2 l]; [destruct H as [->|[]]; reflexivity|].
  change (joined [","%char] (s :: s2 :: l)) with (s ++ ","%char :: joined [","%char] (s2 :: l)). rewrite app_length. cbn [length].
  destruct H as [->|H]; [lia|specialize (IH H); lia].
Qed.
Lemma joined_nonul l : Forall nonul l -> nonul (joined [","%char] l).
Proof.
  induction 1 as [|s l H G IH]; [constructor|]. destruct l as [|s2 l]; [exact H|].
  change (joined [","%char] (s :: s2 :: l)) with (s ++ ","%char :: joined [","%char] (s2 :: l)). apply nonul_app. split; [exact H|]. constructor; [discriminate|exact IH].
Qed.
Lemma points_nonul ps : Forall good_point ps -> nonul (points_text ps).
Proof. unfold points_text. induction 1 as [|q ps H G IH]; cbn [map concat]; [constructor|]. apply nonul_app. split; [now apply point_nonul|exact IH]. Qed.

Lemma sane_points c : sane c -> Forall (fun g => good_point (hg_point g) /\ Forall good_point (hg_points g)) (h_gens c).
Proof.
  intros (_ & N & _ & G & _). unfold numbers in N. rewrite !Forall_app in N. destruct N as (_ & _ & N1 & N2).
  apply Forall_forall. intros g I. rewrite Forall_forall in G, N1, N2. destruct (G g I) as [P Q]. split; [split; [exact P|]|].
  - apply Forall_forall. intros n In_. apply N1. apply in_flat_map. eauto.
  - apply Forall_forall. intros q Iq. rewrite Forall_forall in Q. split; [now apply Q|]. apply Forall_forall. intros n In_. apply N2. apply in_flat_map. exists g. split; [exact I|]. apply in_flat_map. eauto.
Qed.

Lemma check_ok search c : sane c ->
  hex_check_param fmt search c OFFSET_POINTS =
  Ok (if existsb (fun p => match p with Some s => strstr s (map tolower search) | None => false end) (texts c) then 1 else -6).
Proof.
  intros S. pose proof (sane_points c S) as P. destruct S as (W & N & E & _ & B & L1 & L2). unfold hex_check_param.
  change (OFFSET_SEED <=? OFFSET_POINTS) with true. change (OFFSET_FIELD <=? OFFSET_POINTS) with true. change (OFFSET_A <=? OFFSET_POINTS) with true.
  change (OFFSET_B <=? OFFSET_POINTS) with true. change (OFFSET_ORDER <=? OFFSET_POINTS) with true. change (OFFSET_GENERATORS <=? OFFSET_POINTS) with true.
  change (OFFSET_POINTS <=? OFFSET_POINTS) with true. unfold when.
  assert (S0 : match h_seed c with Some b => do s <- bits_to_hex b; Ok (Some s) | None => Ok None end = Ok (seed_text c)).
  { unfold seed_text. destruct (h_seed c) as [b|]; [|reflexivity]. rewrite C01_to_hex by exact W. reflexivity. }
  rewrite S0. cbn [bind].
  assert (S1 : match h_field c with Prime p => Ok (Some (fmt p)) | Binary _ => Ok None end = Ok (field_text c)) by (unfold field_text; now destruct (h_field c)).
  rewrite S1. cbn [bind]. rewrite Forall_forall in P.
  rewrite (each_ok _ (fun g => point_text (hg_point g))).
  2:{ intros g I. apply hex_point_ok; [now apply P|]. pose proof (joined_in_len _ _ (in_map (fun g => point_text (hg_point g)) _ _ I)). cbn beta in *. lia. }
  cbn [bind]. rewrite (str_join_ok (Some [","%char]) (map Some (map (fun g => point_text (hg_point g)) (h_gens c)))).
  2:{ destruct (h_gens c); [congruence|discriminate]. }
  2:{ repeat constructor. discriminate. }
  2:{ rewrite map_text_some. apply Forall_forall. intros t I. apply in_map_iff in I. destruct I as (g & <- & I). apply point_nonul. now apply P. }
  2:{ rewrite map_text_some. exact L1. }
  2:{ rewrite !map_length. exact B. }
  rewrite map_text_some. cbn [bind sep_text].
  rewrite c_text_ok by (apply joined_nonul, Forall_forall; intros t I; apply in_map_iff in I; destruct I as (g & <- & I); apply point_nonul; now apply P).
  cbn [bind]. rewrite (each_ok _ (fun g => points_text (hg_points g))).
  2:{ intros g I. apply hex_points_ok; [now apply P|]. pose proof (joined_in_len _ _ (in_map (fun g => points_text (hg_points g)) _ _ I)). cbn beta in *. lia. }
  cbn [bind]. rewrite (str_join_ok (Some [","%char]) (map Some (map (fun g => points_text (hg_points g)) (h_gens c)))).
  2:{ destruct (h_gens c); [congruence|discriminate]. }
  2:{ repeat constructor. discriminate. }
  2:{ rewrite map_text_some. apply Forall_forall. intros t I. apply in_map_iff in I. destruct I as (g & <- & I). apply points_nonul. now apply P. }
  2:{ rewrite map_text_some. exact L2. }
  2:{ rewrite !map_length. exact B. }
  rewrite map_text_some. cbn [bind sep_text].
  rewrite c_text_ok by (apply joined_nonul, Forall_forall; intros t I; apply in_map_iff in I; destruct I as (g & <- & I); apply points_nonul; now apply P).
  cbn [bind]. reflexivity.
Qed.
End Fmt.

(** the pattern as accepted by the command line: hexadecimal digits *)
Lemma tolower_low c : is_hex c -> lowhex (tolower c).
Proof. intros H. vm_compute in H. intuition (subst; vm_compute; tauto). Qed.
Lemma pattern_low s : Forall is_hex s -> Forall lowhex (map tolower s).
Proof. induction 1; cbn [map]; constructor; [now apply tolower_low|assumption]. Qed.

Lemma numbers_nonneg c n : Forall (fun n => 0 <= n) (numbers c) -> In n (numbers c) -> 0 <= n.
Proof. intros H I. rewrite Forall_forall in H. now apply H. Qed.

(** which numbers are where *)
Lemma numbers_cases c n : In n (numbers c) <->
  (exists p, h_field c = Prime p /\ n = p) \/ n = field_elementi (h_a c) \/ n = field_elementi (h_b c) \/ n = h_order c \/
  (exists g, In g (h_gens c) /\ In n (coords (hg_point g))) \/ (exists g q, In g (h_gens c) /\ In q (hg_points g) /\ In n (coords q)).
Proof.
  unfold numbers. rewrite !in_app_iff, !in_flat_map. cbn [In].
  assert (A : In n (match h_field c with Prime p => [p] | Binary _ => [] end) <-> exists p, h_field c = Prime p /\ n = p).
  { destruct (h_field c) as [p|p]; cbn [In]; split.
    - intros [->|[]]. eauto.
    - intros (q & [= ->] & ->). now left.
    - intros [].
    - intros (q & X & _). discriminate. }
  assert (B : (exists g, In g (h_gens c) /\ In n (flat_map coords (hg_points g))) <-> exists g q, In g (h_gens c) /\ In q (hg_points g) /\ In n (coords q)).
  { split; [intros (g & I & J); apply in_flat_map in J; destruct J as (q & J & K); eauto 6|intros (g & q & I & J & K); exists g; split; [exact I|apply in_flat_map; eauto]]. }
  rewrite A, B. intuition.
Qed.

(** a text of the filter contains the pattern iff a parameter does, up to the spurious 0 *)
Lemma texts_found fmt c p : prints_hex fmt -> sane fmt c -> Forall lowhex p -> p <> [] ->
  (forall t, parameter_text fmt c t -> contains t p -> exists s, In (Some s) (texts fmt c) /\ contains s p) /\
  (last p "0"%char <> "0"%char -> forall s, In (Some s) (texts fmt c) -> contains s p -> exists t, parameter_text fmt c t /\ contains t p).
Proof.
  intros F S L E. pose proof (sane_points fmt c S) as P. rewrite Forall_forall in P. destruct S as (W & N & G & _).
  assert (LC := low_comma p L). assert (Gm : forall A (f : hgen -> A), map f (h_gens c) <> []) by (intros A f; destruct (h_gens c); [congruence|discriminate]).
  split.
  - intros t [(b & Hb & ->)|(n & I & ->)] H.
    + eexists. split; [left; unfold seed_text; rewrite Hb; reflexivity|]. now apply contains_app_r.
    + assert (N0 := numbers_nonneg c n N I). assert (Hn : contains (fmt n) p) by (apply contains_fmt; auto).
      apply numbers_cases in I. destruct I as [(q & Hq & ->)|[->|[->|[->|[(g & I & J)|(g & q & I & J & K)]]]]].
      * exists (fmt q). split; [right; left; unfold field_text; now rewrite Hq|exact Hn].
      * eexists. split; [do 2 right; left; reflexivity|exact Hn].
      * eexists. split; [do 3 right; left; reflexivity|exact Hn].
      * eexists. split; [do 4 right; left; reflexivity|exact Hn].
      * eexists. split; [do 5 right; left; reflexivity|]. apply contains_joined; [exact LC|apply Gm|]. exists (point_text fmt (hg_point g)). split; [now apply (in_map (fun g => point_text fmt (hg_point g)))|].
        apply contains_point; [exact F|now apply P|exact L|]. right. eauto.
      * eexists. split; [do 6 right; left; reflexivity|]. apply contains_joined; [exact LC|apply Gm|]. exists (points_text fmt (hg_points g)). split; [now apply (in_map (fun g => points_text fmt (hg_points g)))|].
        apply contains_points; [exact F|now apply P|exact L|exact E|]. exists q. split; [exact J|]. left. apply contains_point; [exact F|destruct (P g I) as [_ Q]; rewrite Forall_forall in Q; now apply Q|exact L|]. right. eauto.
  - intros Lz.
    assert (Z0 : ~ contains zero_text p).
    { intros H. apply (contains_snoc [] "0"%char p "0"%char E Lz) in H. destruct H as (u & v & H). destruct u, p; try discriminate; congruence. }
    assert (Y0 : forall y, contains (y ++ zero_text) p -> contains y p) by (intros y; exact (contains_snoc y "0"%char p "0"%char E Lz)).
    assert (K : forall n, In n (numbers c) -> contains (fmt n) p -> exists t, parameter_text fmt c t /\ contains t p).
    { intros n I H. apply contains_fmt in H; [|exact F|now apply (numbers_nonneg c)|exact L]. destruct H as [H|H]; [contradiction|].
      exists (digits fmt n). split; [right; eauto|exact H]. }
    assert (Q : forall q n, In n (coords q) -> In n (numbers c) -> contains (digits fmt n) p -> exists t, parameter_text fmt c t /\ contains t p).
    { intros q n _ I H. exists (digits fmt n). split; [right; eauto|exact H]. }
    intros s I H. unfold texts in I. destruct I as [I|[I|[I|[I|[I|[I|[I|[]]]]]]]].
    + unfold seed_text in I. destruct (h_seed c) as [b|] eqn:Hb; [|discriminate]. exists (hex_text (2 * ((bitlen b + 7) / 8)) (mag b)). split; [left; exists b; split; [exact Hb|reflexivity]|].
      revert I. generalize (hex_text (2 * ((bitlen b + 7) / 8)) (mag b)). intros h I. injection I as <-.
      destruct (bsign b); [|exact H]. change (["-"%char] ++ h) with ([] ++ "-"%char :: h) in H.
      apply contains_split in H; [|now apply low_minus]. destruct H as [(u & v & H)|H]; [destruct u, p; try discriminate; congruence|exact H].
    + unfold field_text in I. destruct (h_field c) as [q|] eqn:Hq; [|discriminate]. injection I as <-. apply (K q); [|exact H]. apply numbers_cases. left. eauto.
    + injection I as <-. apply (K (field_elementi (h_a c))); [|exact H]. apply numbers_cases. tauto.
    + injection I as <-. apply (K (field_elementi (h_b c))); [|exact H]. apply numbers_cases. tauto.
    + injection I as <-. apply (K (h_order c)); [|exact H]. apply numbers_cases. tauto.
    + injection I as <-. apply contains_joined in H; [|exact LC|apply Gm]. destruct H as (t & I & H). apply in_map_iff in I. destruct I as (g & <- & I).
      apply contains_point in H; [|exact F|now apply P|exact L]. destruct H as [H|(n & J & H)]; [contradiction|]. apply (Q (hg_point g) n J); [|exact H]. apply numbers_cases. do 4 right. left. eauto.
    + injection I as <-. apply contains_joined in H; [|exact LC|apply Gm]. destruct H as (t & I & H). apply in_map_iff in I. destruct I as (g & <- & I).
      apply contains_points in H; [|exact F|now apply P|exact L|exact E]. destruct H as (q & J & H).
      assert (Gq : good_point q) by (destruct (P g I) as [_ X]; rewrite Forall_forall in X; now apply X).
      destruct H as [H|(l & r & q' & _ & H)].
      * apply contains_point in H; [|exact F|exact Gq|exact L]. destruct H as [H|(n & M & H)]; [contradiction|]. apply (Q q n M); [|exact H]. apply numbers_cases. do 5 right. eauto.
      * apply Y0 in H. destruct Gq as [Nq _]. destruct q as [[x y]|]; [|congruence]. cbn [y_of] in H. apply (Q (Some (x, y)) (field_elementi y)); [right; now left| |exact H].
        apply numbers_cases. do 5 right. exists g, (Some (x, y)). repeat split; auto. right. now left.
Qed.

Lemma accept_iff fmt search c : prints_hex fmt -> sane fmt c ->
  (hex_check_param fmt search c OFFSET_POINTS = Ok 1 <-> exists s, In (Some s) (texts fmt c) /\ contains s (map tolower search)) /\
  (hex_check_param fmt search c OFFSET_POINTS = Ok 1 \/ hex_check_param fmt search c OFFSET_POINTS = Ok (OFFSET_FIELD - OFFSET_POINTS)).
Proof.
  intros F S. rewrite (check_ok fmt F search c S). destruct (existsb _ _) eqn:X.
  - split; [|now left]. split; [intros _|reflexivity]. apply existsb_exists in X. destruct X as ([s|] & I & H); [|discriminate]. exists s. split; [exact I|now apply strstr_iff].
  - split; [|now right]. split; [discriminate|]. intros (s & I & H). exfalso. apply Bool.not_true_iff_false in X. apply X. apply existsb_exists. exists (Some s). split; [exact I|now apply strstr_iff].
Qed.

(** ** C58 *)
(** No curve with the pattern in one of its parameters is lost (prime fields; over binary fields the
    parameters looked at are the coefficients, the order and the points). *)
Theorem C58_found fmt search c : prints_hex fmt -> sane fmt c -> Forall is_hex search ->
  (exists t, parameter_text fmt c t /\ contains t (map tolower search)) -> hex_check_param fmt search c OFFSET_POINTS = Ok 1.
Proof.
  intros F S H (t & T & C). apply (accept_iff fmt search c F S). destruct search as [|a search].
  - eexists. split; [do 2 right; left; reflexivity|]. exists [], (fmt (field_elementi (h_a c))). reflexivity.
  - apply (texts_found fmt c (map tolower (a :: search)) F S (pattern_low _ H) ltac:(discriminate)) with (t := t); assumption.
Qed.

(** Full statement: the filter accepts exactly the curves with the pattern in a parameter.
    Missing: patterns that end with 0 [C58_prefix_refuted, C58_boundary_refuted] and the parameters of
    binary fields [C58_binary_refuted]. *)
Theorem C58_exact_partial fmt search c : prints_hex fmt -> sane fmt c -> Forall is_hex search -> search <> [] -> last search "0"%char <> "0"%char ->
  (hex_check_param fmt search c OFFSET_POINTS = Ok 1 <-> exists t, parameter_text fmt c t /\ contains t (map tolower search)) /\
  (hex_check_param fmt search c OFFSET_POINTS <> Ok 1 -> hex_check_param fmt search c OFFSET_POINTS = Ok (OFFSET_FIELD - OFFSET_POINTS)).
Proof.
  intros F S H E L. destruct (accept_iff fmt search c F S) as [A [B|B]].
  2: split; [|intros; exact B].
  1: split; [|congruence].
  all: split; [|now apply C58_found].
  all: intros X; apply A in X; destruct X as (s & I & X); apply (texts_found fmt c (map tolower search) F S (pattern_low _ H)) with (s := s); auto.
  all: try (destruct search; [congruence|discriminate]).
  all: destruct (exists_last E) as (u & d & ->); rewrite map_app; cbn [map]; rewrite last_last in *; intros Y; apply L.
  all: apply Forall_app in H; destruct H as [_ H]; inversion H as [|? ? Hd _]; subst; clear - Hd Y; vm_compute in Hd; revert Y; intuition (subst; vm_compute in *; congruence).
Qed.

(** a printer and a curve *)
Definition fmt2 (n : Z) : str := "0"%char :: "x"%char :: hex_text (Z.to_nat (Z.max 2 (Z.log2 n / 4 + 1))) n.
Lemma fmt2_ok : prints_hex fmt2.
Proof.
  intros n H. exists (Z.to_nat (Z.max 2 (Z.log2 n / 4 + 1))). split; [reflexivity|].
  pose proof (Z.log2_nonneg n) as L0. rewrite Z2Nat.id by lia.
  destruct (Z.eq_dec n 0) as [->|N]; [apply Z.pow_pos_nonneg; lia|].
  apply Z.lt_le_trans with (2 ^ (Z.succ (Z.log2 n))); [apply Z.log2_spec; lia|].
  change 16 with (2 ^ 4). rewrite <- Z.pow_mul_r by lia. apply Z.pow_le_mono_r; [lia|]. pose proof (Z.div_mod (Z.log2 n) 4 ltac:(lia)). pose proof (Z.mod_pos_bound (Z.log2 n) 4 ltac:(lia)). lia.
Qed.
Definition crv (f : field) (gens : list hgen) : hcurve := HCurve None f (Int 0x11) (Int 0x22) 0x33 gens.
Definition el (n : Z) : element := Mod n 0xfb.
Definition ex_curve : hcurve := crv (Prime 0xfb) [HGen (Some (el 0x77, el 0x88)) [Some (el 0x44, el 0xab); Some (el 0x55, el 0x66)]].
Lemma ex_sane f : (match f with Prime p => 0 <= p | Binary _ => True end) -> sane fmt2 (crv f [HGen (Some (el 0x77, el 0x88)) [Some (el 0x44, el 0xab); Some (el 0x55, el 0x66)]]).
Proof.
  intros Hf. split; [exact I|]. split.
  - unfold numbers. apply Forall_app. split; [destruct f; repeat constructor; assumption|]. repeat (constructor; [vm_compute; discriminate|]). constructor.
  - split; [discriminate|]. split; [repeat (constructor; try discriminate)|]. split; [vm_compute; reflexivity|]. split; vm_compute; reflexivity.
Qed.
Definition lit (s : string) : str := String.list_ascii_of_string s.
Example C58_ex : prints_hex fmt2 /\ sane fmt2 ex_curve /\ Forall is_hex (lit "aB") /\
  hex_check_param fmt2 (lit "aB") ex_curve OFFSET_POINTS = Ok 1 /\ hex_check_param fmt2 (lit "ac") ex_curve OFFSET_POINTS = Ok (-6).
Proof.
  split; [exact fmt2_ok|]. split; [apply ex_sane; cbn; lia|]. split; [repeat (constructor; [vm_compute; tauto|]); constructor|]. split; vm_compute; reflexivity.
Qed.

Lemma not_contains s p : strstr s p = false -> ~ contains s p.
Proof. intros H X. apply strstr_iff in X. congruence. Qed.
Ltac no_param := intros t [(b & X & _)|(n & I & ->)]; [discriminate|]; vm_compute in I; repeat (destruct I as [<-|I]; [apply not_contains; vm_compute; reflexivity|]); destruct I.

(** The pattern 0 is found in the 0x that every number is printed with. *)
Theorem C58_prefix_refuted : exists search, Forall is_hex search /\ search <> [] /\ sane fmt2 ex_curve /\
  hex_check_param fmt2 search ex_curve OFFSET_POINTS = Ok 1 /\ forall t, parameter_text fmt2 ex_curve t -> ~ contains t (map tolower search).
Proof.
  exists (lit "0"). split; [repeat (constructor; [vm_compute; tauto|]); constructor|]. split; [discriminate|]. split; [apply ex_sane; cbn; lia|].
  split; [vm_compute; reflexivity|]. no_param.
Qed.
(** The points of a subgroup are put together without a separator: ab and 0x55 give ab0. *)
Theorem C58_boundary_refuted : exists search, Forall is_hex search /\ search <> lit "0" /\ sane fmt2 ex_curve /\
  hex_check_param fmt2 search ex_curve OFFSET_POINTS = Ok 1 /\ forall t, parameter_text fmt2 ex_curve t -> ~ contains t (map tolower search).
Proof.
  exists (lit "ab0"). split; [repeat (constructor; [vm_compute; tauto|]); constructor|]. split; [discriminate|]. split; [apply ex_sane; cbn; lia|].
  split; [vm_compute; reflexivity|]. no_param.
Qed.
(** The exponents of a binary field are not looked at: the field x^11 + x^2 + 1 does not match b. *)
Theorem C58_binary_refuted : exists poly m es, field_params (Binary poly) = Ok (m :: es) /\ contains (digits fmt2 m) (lit "b") /\
  let c := crv (Binary poly) [HGen (Some (el 0x77, el 0x88)) []] in
  hex_check_param fmt2 (lit "b") c OFFSET_POINTS = Ok (-6).
Proof.
  exists [1; 0; 1; 0; 0; 0; 0; 0; 0; 0; 0; 1]. eexists. eexists. split; [vm_compute; reflexivity|]. split; [|vm_compute; reflexivity].
  exists (lit "0"), []. vm_compute. reflexivity.
Qed.

Print Assumptions C58_found.
Print Assumptions C58_exact_partial.
Print Assumptions C58_prefix_refuted.
Print Assumptions C58_boundary_refuted.
Print Assumptions C58_binary_refuted.
