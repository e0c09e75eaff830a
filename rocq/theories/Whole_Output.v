(** From the facts of a search to what is said of the published numbers. *)
From Coq Require Import Ascii String Znumtheory.
From Verif Require Import Base Fp Ec Poly_Model Points_Model Str_Model Str_Proofs Hex_Model CurveText_Model CurveText_Spec Json_Spec.
From Verif Require Import Whole_Model Whole_Spec Whole_Stages.
Notation str := (list ascii).
From Verif Require Cli_Model Hex_Props RunText_Props Json_Proofs CurveText_Props Field_Props.
Local Open Scope Z_scope.
Local Open Scope list_scope.

(** ** The check of the output *)
Section Fits.
Variable hexw hexp dec : Z -> str.
Variable cfg : Cli_Model.config.
Ltac tt := repeat match goal with
  | H : (_ && _)%bool = true |- _ => apply andb_true_iff in H; destruct H
  | H : (_ <=? _) = true |- _ => apply Z.leb_le in H
  | H : (_ <? _) = true |- _ => apply Z.ltb_lt in H
  | H : (_ =? _)%nat = true |- _ => apply Nat.eqb_eq in H
  end.
Lemma fitsb_fits c : fitsb cfg hexw hexp dec c = true -> RunText_Props.fits hexw hexp dec (Cli_Model.c_metadata cfg) c.
Proof.
  unfold fitsb. cbv zeta. intros H.
  assert (A : forall q : point_t hpoint, (match p_point q with Some (x, y) => (0 <=? elem_int x) && (0 <=? elem_int y) | None => false end
    && (0 <=? p_order q) && match p_cofactor q with Some h => 0 <=? h | None => true end)%bool = true -> affine q).
  { intros q E. tt. destruct (p_point q) as [[x y]|] eqn:Eq; [|discriminate]. tt. split; [exists x, y; auto|]. split; [assumption|].
    destruct (p_cofactor q); cbn; tt; auto. }
  apply andb_true_iff in H. destruct H as (H & R). apply andb_true_iff in H. destruct H as (H & G). tt. split; [|exact R].
  split; [destruct (CurveText_Model.c_field c); [tt; assumption|now apply Nat.leb_le]|].
  split; [destruct (CurveText_Model.c_seed c) as [sd|]; [|exact I]; cbn [opt_all]; tt; split; [|assumption]; split; [now apply Nat.leb_le|]; split; [now apply Nat.leb_le|];
    apply Forall_forall; intros x Ix; match goal with X : forallb _ _ = true |- _ => rewrite forallb_forall in X; specialize (X x Ix) end; now apply N.ltb_lt|]. split; [assumption|]. split; [assumption|]. split; [assumption|].
  apply Forall_forall. intros g Ig. rewrite forallb_forall in G. specialize (G g Ig). apply andb_true_iff in G. destruct G as (G1 & G2).
  split; [exact (A _ G1)|]. unfold hpoint in *. destruct (s_points g) as [l|]; [|now apply Nat.eqb_eq]. apply andb_true_iff in G2. destruct G2 as (G2 & G3).
  split; [now apply Nat.eqb_eq|]. apply Forall_forall. intros o Io.
  rewrite forallb_forall in G3. specialize (G3 o Io). cbv beta in G3. destruct o as [q|]; [|discriminate]. exists q. split; [reflexivity|exact (A _ G3)].
Qed.
End Fits.

(** the numbers of elements *)
Lemma at_two_value c : at_two c = Field_Props.value2 c.
Proof. induction c as [|d c IH]; [reflexivity|]. cbn [at_two Field_Props.value2]. now rewrite IH. Qed.
Lemma at_two_digits x : 0 <= x -> at_two (gtopoly (digits2 x)) = x.
Proof.
  intros B. rewrite at_two_value. destruct x as [|q|q]; [reflexivity| |lia]. unfold gtopoly, digits2. rewrite Field_Props.pos_digits_low, app_nil_r.
  rewrite Field_Props.drop_zeros_head by (auto using Field_Props.low_ne, Field_Props.low_last). rewrite rev_involutive. apply Field_Props.low_value.
Qed.
Lemma elem_int_elem f x : elem_int (elem f x) = x.
Proof. destruct f as [p|c]; [reflexivity|]. unfold elem. destruct (Z.ltb_spec x 0) as [L|L]; [reflexivity|]. now apply at_two_digits. Qed.

(** ** The points *)
Section Points.
Variable cfg : Cli_Model.config.
Variable p : field.
Variables a b : Z.
Notation n := (points p a b).
Definition pubpt (q : point_t pt) : pub_point := point_of (hpt p q).
Definition given (q : point_t pt) : Prop := p_point q <> None.
Lemma affine_given q : affine (hpt p q) -> given q.
Proof. intros ((x & y & E & _) & _) N. unfold hpt in E. cbn in E. rewrite N in E. discriminate. Qed.
Lemma pub_xy q : given q -> xy_of (pubpt q) = p_point q.
Proof. intros G. unfold pubpt, hpt, point_of. cbn. unfold given in G. destruct (p_point q) as [[x y]|]; [cbn; now rewrite ?CurveText_Props.elem_int_ok, ?elem_int_elem|congruence]. Qed.
Lemma pub_order q : given q -> pp_order (pubpt q) = p_order q.
Proof. intros G. unfold pubpt, hpt, point_of. cbn. unfold given in G. destruct (p_point q) as [[x y]|]; [cbn; now rewrite ?CurveText_Props.elem_int_ok, ?elem_int_elem|congruence]. Qed.
Lemma pub_cofactor q : given q -> pp_cofactor (pubpt q) = p_cofactor q.
Proof. intros G. unfold pubpt, hpt, point_of. cbn. unfold given in G. destruct (p_point q) as [[x y]|]; [cbn; now rewrite ?CurveText_Props.elem_int_ok, ?elem_int_elem|congruence]. Qed.
Lemma pub_true q : given q -> rtrue p a b q -> true_point p a b (pubpt q).
Proof. intros G (A & B). split; rewrite pub_xy by exact G; [exact A|]. now rewrite pub_order. Qed.
Lemma map_given {X} (f : pub_point -> X) (g : point_t pt -> X) l : Forall given l -> (forall q, given q -> f (pubpt q) = g q) -> map f (map pubpt l) = map g l.
Proof. intros G E. rewrite map_map. apply map_ext_in. intros q I. rewrite Forall_forall in G. auto. Qed.
Lemma pub_all (A : point_t pt -> Prop) (B : pub_point -> Prop) l : Forall given l -> (forall q, given q -> A q -> B (pubpt q)) -> Forall A l -> Forall B (map pubpt l).
Proof. intros G H F. apply Forall_map. rewrite Forall_forall in *. auto. Qed.

Lemma pub_whole gs : Forall given gs -> rwhole p a b gs -> whole_gens p a b n (map pubpt gs).
Proof.
  intros G (A & B & C & D). split; [apply (pub_all _ _ _ G pub_true A)|]. split.
  - apply (pub_all _ _ _ G) with (2 := B). intros q Gq (c & E & M). exists c. now rewrite pub_cofactor, pub_order.
  - split; [rewrite (map_given xy_of p_point) by (auto using pub_xy); exact C|now rewrite map_length].
Qed.
Lemma pub_gens gs : Forall given gs -> rgens cfg p a b gs -> gens_wanted cfg p a b n (map pubpt gs).
Proof.
  intros G H. unfold rgens in H. unfold gens_wanted. destruct (Cli_Model.c_unique cfg).
  - destruct H as (H & L). split; [now apply pub_whole|now rewrite map_length].
  - destruct (Cli_Model.c_cofactor cfg); [|now apply pub_whole]. destruct H as (g & rest & -> & W & T & E & R).
    inversion G as [|? ? Gg Gr]; subst. exists (pubpt g), (map pubpt rest). split; [reflexivity|]. split; [now apply pub_whole|].
    split; [now apply pub_true|]. rewrite pub_cofactor, pub_order, map_length by exact Gg. auto.
Qed.

Lemma points_of_h s : points_of (s_points (hsub p s)) = map (hpt p) (rpoints s).
Proof.
  unfold hsub, rpoints. cbn. destruct (s_points s) as [l|]; [|reflexivity]. cbn [points_of]. induction l as [|[q|] l IH]; cbn; [reflexivity| |exact IH].
  now f_equal.
Qed.
Lemma group_given s : printable_group (hsub p s) -> given (s_gen s) /\ Forall given (rpoints s).
Proof.
  intros (A & B). split; [now apply affine_given|]. unfold hsub in B. cbn in B. unfold rpoints. destruct (s_points s) as [l|]; [|constructor].
  destruct B as (_ & B). rewrite Forall_map in B. induction B as [|o l (q & E & Q) _ IH]; cbn; [constructor|]. destruct o as [o|]; [|discriminate].
  injection E as <-. constructor; [now apply affine_given|exact IH].
Qed.
Definition pubsub (s : subgroup_t pt) : pub_point * list pub_point := (pubpt (s_gen s), map pubpt (rpoints s)).
Lemma pub_points s : given (s_gen s) -> Forall given (rpoints s) -> rlisting cfg p a b s -> points_wanted cfg p a b (pubsub s).
Proof.
  intros G Gs (A & B & C & D & E). unfold points_wanted, pubsub. cbn [fst snd].
  rewrite (map_given pp_order p_order) by (auto using pub_order). rewrite pub_xy, pub_order by exact G. split.
  - apply (pub_all _ _ _ Gs) with (2 := A). intros q Gq (T & (k & K) & Cf). split; [now apply pub_true|]. rewrite pub_xy, pub_cofactor by exact Gq. eauto.
  - split; [intros X; now rewrite (B X)|]. auto.
Qed.
Lemma pub_amount gs : ramount cfg gs -> amount_wanted cfg (map pubsub gs).
Proof. intros H X. rewrite map_map. unfold pubsub. cbn [snd]. rewrite (map_ext _ (fun s => length (rpoints s))); [now apply H|]. intros s. now rewrite map_length. Qed.

(** the groups of the published curve *)
Lemma pub_groups_h gs : map (fun g => (point_of (s_gen g), map point_of (points_of (s_points g)))) (map (hsub p) gs) = map pubsub gs.
Proof. rewrite map_map. apply map_ext. intros s. rewrite points_of_h, map_map. reflexivity. Qed.

(** ** The filter *)
Lemma sub_points_given s : printable_group (hsub p s) -> sub_points s = Ok (map p_point (rpoints s)).
Proof.
  intros (_ & B). unfold hsub in B. cbn in B. unfold sub_points, rpoints. destruct (s_points s) as [l|].
  - destruct B as (N & B). rewrite map_length in N. destruct (Nat.eqb_spec (s_npoints s) 0) as [Z0|NZ]; [destruct l; [reflexivity|cbn in N; lia]|].
    cbn [need bind]. rewrite N, Nat.ltb_irrefl, firstn_all. clear - B. rewrite Forall_map in B. induction B as [|o l (q & E & Q) _ IH]; [reflexivity|].
    destruct o as [o|]; [|discriminate]. cbn [mapm need bind flat_map app map]. rewrite IH. reflexivity.
  - rewrite B. reflexivity.
Qed.
Definition hgen_pub (s : subgroup_t pt) : hgen := HGen (hp p (p_point (s_gen s))) (map (hp p) (map p_point (rpoints s))).
Lemma hgens_given gs : Forall (fun s => printable_group (hsub p s)) gs -> mapm (hgen_of p) gs = Ok (map hgen_pub gs).
Proof.
  induction 1 as [|s gs S _ IH]; [reflexivity|]. cbn [mapm map]. unfold hgen_of at 1. rewrite (sub_points_given s S). cbn [bind]. rewrite IH. reflexivity.
Qed.
Lemma coords_given q : given q -> Hex_Props.coords (hp p (p_point q)) = [pp_x (pubpt q); pp_y (pubpt q)].
Proof. intros G. unfold pubpt, hpt, point_of. cbn. unfold given in G. destruct (p_point q) as [[x y]|]; [cbn; now rewrite ?CurveText_Props.elem_int_ok, ?elem_int_elem|congruence]. Qed.
Lemma numbers_given sd x y gs : Forall (fun s => given (s_gen s) /\ Forall given (rpoints s)) gs -> elem_int x = a -> elem_int y = b ->
  Hex_Props.numbers (HCurve sd p x y n (map hgen_pub gs)) = numbers p a b n (map pubsub gs).
Proof.
  intros G Ex Ey. unfold Hex_Props.numbers, numbers. cbn [h_field h_a h_b h_order h_gens app].
  rewrite !CurveText_Props.elem_int_ok, Ex, Ey. f_equal. do 3 f_equal. f_equal.
  - induction G as [|s gs (S & _) _ IH]; [reflexivity|]. cbn [map flat_map]. rewrite IH. cbn [hgen_pub hg_point pubsub fst]. now rewrite coords_given.
  - induction G as [|s gs (_ & S) _ IH]; [reflexivity|]. cbn [map flat_map]. rewrite IH. cbn [hgen_pub hg_points pubsub snd]. f_equal.
    clear - S. induction S as [|q l Q _ IH]; [reflexivity|]. cbn [map flat_map]. now rewrite IH, coords_given.
Qed.
Lemma affine_pub q : affine (hpt p q) -> 0 <= pp_x (pubpt q) /\ 0 <= pp_y (pubpt q).
Proof. intros ((x & y & E & X & Y) & _). unfold pubpt, point_of. rewrite E. cbn. auto. Qed.
Lemma numbers_pos gs : match p with Prime p => 0 <= p | Binary _ => True end -> 0 <= a -> 0 <= b -> 0 <= n -> Forall (fun s => printable_group (hsub p s)) gs -> Forall (fun m => 0 <= m) (numbers p a b n (map pubsub gs)).
Proof.
  intros A B C D G. unfold numbers. apply Forall_app. split; [clear - A; destruct p; auto|]. cbn [app]. repeat (constructor; [assumption|]). rewrite !flat_map_concat_map, !map_map. apply Forall_app. split.
  - induction G as [|s gs (S & _) _ IH]; [constructor|]. cbn [map concat pubsub fst app]. destruct (affine_pub _ S). auto.
  - induction G as [|s gs (_ & S) _ IH]; [constructor|]. cbn [map concat]. apply Forall_app. split; [|exact IH]. clear IH. cbn [pubsub snd].
    unfold hsub in S. cbn in S. unfold rpoints. destruct (s_points s) as [l|]; [|constructor]. destruct S as (_ & S). rewrite Forall_map in S.
    induction S as [|o l (q & E & Q) _ IH]; [constructor|]. destruct o as [o|]; [|discriminate]. injection E as <-. cbn [flat_map map app]. destruct (affine_pub _ Q). auto.
Qed.
End Points.

(** lengths of texts *)
Section Lengths.
Variable hexw hexp dec : Z -> str.
Variable p : field.
Notation zl s := (Z.of_nat (length s)).
Definition weight (q : pub_point) : Z := zl (hexw (pp_x q)) + zl (hexw (pp_y q)) + 2.
Lemma room_pos v d : 0 <= d -> 0 <= room v d.
Proof. intros D. pose proof (Json_Proofs.text_length v (Z.to_nat d)) as H. rewrite Z2Nat.id in H by exact D. lia. Qed.
Lemma sum_cons x l : sum_of (x :: l) = x + sum_of l.
Proof. reflexivity. Qed.
Lemma sum_pos {A} (f : A -> Z) l : (forall x, 0 <= f x) -> 0 <= sum_of (map f l).
Proof. intros H. induction l as [|x l IH]; [cbn; lia|]. cbn [map]. rewrite sum_cons. specialize (H x). lia. Qed.
Lemma sum_app l1 l2 : sum_of (l1 ++ l2) = sum_of l1 + sum_of l2.
Proof. induction l1 as [|x l IH]; [reflexivity|]. cbn [app]. rewrite !sum_cons, IH. lia. Qed.
Lemma sum_le {A} (f g : A -> Z) l : (forall x, In x l -> f x <= g x) -> sum_of (map f l) <= sum_of (map g l).
Proof. induction l as [|x l IH]; intros H; [cbn; lia|]. cbn [map]. rewrite !sum_cons. pose proof (H x (or_introl eq_refl)). specialize (IH (fun y I => H y (or_intror I))). lia. Qed.
Lemma member_pos d (x : list ascii * jval) : 0 <= d -> 0 <= 4 * d + 4 + quoted_room (fst x) + room (snd x) d.
Proof. intros D. pose proof (room_pos (snd x) d D). unfold quoted_room. lia. Qed.
(** the members of an object, where they are looked at *)
Definition members (d : Z) (m : list (list ascii * jval)) : Z := sum_of (map (fun x => 4 * d + 4 + quoted_room (fst x) + room (snd x) d) m).
Lemma members_app d m1 m2 : members d (m1 ++ m2) = members d m1 + members d m2.
Proof. unfold members. now rewrite map_app, sum_app. Qed.
Lemma members_pos d m : 0 <= d -> 0 <= members d m.
Proof. intros D. apply sum_pos. intros x. now apply member_pos. Qed.
Lemma point_weight d q : 0 <= d -> weight q <= members d (point_doc hexw hexp q).
Proof.
  intros D. unfold point_doc. rewrite !members_app. pose proof (members_pos d (one "order" (hexp (pp_order q))) D).
  pose proof (members_pos d (opt (pp_cofactor q) (fun c => one "cofactor" (hexp c))) D).
  assert (E : forall nm t, members d (one nm t) >= zl t + 1) by (intros nm t; unfold members, one, sum_of, quoted_room; cbn [map fold_right fst snd room]; unfold quoted_room; lia).
  pose proof (E "x"%string (hexw (pp_x q))). pose proof (E "y"%string (hexw (pp_y q))). unfold weight. lia.
Qed.
Definition group_weight (g : pub_point * list pub_point) : Z := weight (fst g) + sum_of (map weight (snd g)) + 1.
Lemma group_room d g : 0 <= d -> group_weight g <= room (group_doc hexw hexp g) d.
Proof.
  intros D. unfold group_doc. cbn [room]. fold (members (d + 1)).
  change (sum_of (map _ ?m)) with (members (d + 1) m). rewrite members_app. pose proof (point_weight (d + 1) (fst g) ltac:(lia)).
  assert (X : sum_of (map weight (snd g)) <= members (d + 1) (match snd g with [] => [] | l => [(Cli_Model.lit "points"%string, JArr (map (fun q => JObj (point_doc hexw hexp q)) l))] end)).
  { destruct (snd g) as [|q l]; [unfold members, sum_of; cbn; lia|]. remember (q :: l) as l' eqn:El. clear El.
    unfold members. cbn [map]. unfold sum_of at 2. cbn [fold_right fst snd room]. fold (sum_of).
    rewrite map_map. pose proof (sum_le weight (fun q => 4 * (d + 1 + 1) + 2 + room (JObj (point_doc hexw hexp q)) (d + 1 + 1)) l') as S.
    unfold quoted_room. enough (forall x, In x l' -> weight x <= 4 * (d + 1 + 1) + 2 + room (JObj (point_doc hexw hexp x)) (d + 1 + 1)) by (specialize (S H0); lia).
    intros x _. cbn [room]. change (sum_of (map _ ?m)) with (members (d + 1 + 1 + 1) m). pose proof (point_weight (d + 1 + 1 + 1) x ltac:(lia)). lia. }
  unfold group_weight. lia.
Qed.
Lemma doc_weight c : sum_of (map group_weight (pub_groups c)) <= room (doc hexw hexp dec c) 0.
Proof.
  unfold doc. cbn [room]. change (sum_of (map _ ?m)) with (members (0 + 1) m) at 2. rewrite !members_app.
  repeat match goal with |- context [members ?d ?m] => lazymatch m with match pub_groups _ with _ => _ end => fail | _ => generalize (members_pos d m ltac:(lia)); generalize (members d m); intros end end.
  enough (sum_of (map group_weight (pub_groups c)) <= members (0 + 1) (match pub_groups c with [] => [] | l => [(Cli_Model.lit "subgroups"%string, JArr (map (group_doc hexw hexp) l))] end)) by lia.
  destruct (pub_groups c) as [|g l]; [unfold members, sum_of; cbn; lia|]. remember (g :: l) as l' eqn:El. clear El.
  unfold members. cbn [map]. unfold sum_of at 2. cbn [fold_right fst snd room]. rewrite map_map.
  pose proof (sum_le group_weight (fun g => 4 * (0 + 1 + 1) + 2 + room (group_doc hexw hexp g) (0 + 1 + 1)) l') as S.
  unfold quoted_room. enough (Y : forall x, In x l' -> group_weight x <= 4 * (0 + 1 + 1) + 2 + room (group_doc hexw hexp x) (0 + 1 + 1)) by (specialize (S Y); lia).
  intros x _. pose proof (group_room (0 + 1 + 1) x ltac:(lia)). lia.
Qed.

Lemma joined_le {A} (f : A -> str) (w : A -> Z) l : (forall x, In x l -> zl (f x) + 1 <= w x) -> zl (joined [","%char] (map f l)) <= sum_of (map w l).
Proof.
  induction l as [|x l IH]; intros H; [cbn; lia|]. specialize (IH (fun y I => H y (or_intror I))). pose proof (H x (or_introl eq_refl)).
  destruct l as [|y l]; [cbn in *; lia|]. change (joined [","%char] (map f (x :: y :: l))) with (f x ++ ","%char :: joined [","%char] (map f (y :: l))).
  rewrite app_length. cbn [length]. change (sum_of (map w (x :: y :: l))) with (w x + sum_of (map w (y :: l))). lia.
Qed.
Lemma point_text_weight q : given q -> zl (Hex_Props.point_text hexw (hp p (p_point q))) + 1 = weight (pubpt p q).
Proof.
  intros G. unfold pubpt, hpt, point_of, weight. cbn. unfold given in G. destruct (p_point q) as [[x y]|]; [|congruence].
  cbn [hp Hex_Props.point_text pp_x pp_y]. rewrite !CurveText_Props.elem_int_ok, app_length. cbn [length]. lia.
Qed.
Lemma points_text_weight l : Forall given l -> zl (Hex_Props.points_text hexw (map (hp p) (map p_point l))) <= sum_of (map weight (map (pubpt p) l)).
Proof.
  unfold Hex_Props.points_text. induction 1 as [|q l Q _ IH]; [cbn; lia|]. cbn [map concat]. rewrite app_length. unfold sum_of in *. cbn [fold_right].
  pose proof (point_text_weight q Q). lia.
Qed.
Lemma hex_lengths gs : Forall (fun s => given (s_gen s) /\ Forall given (rpoints s)) gs ->
  zl (joined [","%char] (map (fun g => Hex_Props.point_text hexw (hg_point g)) (map (hgen_pub p) gs))) <= sum_of (map group_weight (map (pubsub p) gs)) /\
  zl (joined [","%char] (map (fun g => Hex_Props.points_text hexw (hg_points g)) (map (hgen_pub p) gs))) <= sum_of (map group_weight (map (pubsub p) gs)) /\
  zl gs <= sum_of (map group_weight (map (pubsub p) gs)).
Proof.
  intros G. rewrite Forall_forall in G. rewrite !map_map. cbn [hgen_pub hg_point hg_points].
  assert (WP : forall l, 0 <= sum_of (map weight l)) by (intros; apply sum_pos; intros x; unfold weight; lia).
  split; [|split].
  - apply joined_le. intros s I. destruct (G s I) as (A & B). pose proof (point_text_weight (s_gen s) A). unfold group_weight, pubsub. cbn [fst snd].
    specialize (WP (map (pubpt p) (rpoints s))). lia.
  - apply joined_le. intros s I. destruct (G s I) as (A & B). pose proof (points_text_weight (rpoints s) B). unfold group_weight, pubsub. cbn [fst snd].
    unfold weight at 1. lia.
  - clear G. induction gs as [|s gs IH]; [cbn; lia|]. cbn [length map]. change (sum_of (?x :: ?l)) with (x + sum_of l).
    assert (1 <= group_weight (pubsub p s)) by (unfold group_weight, pubsub; cbn [fst snd]; specialize (WP (map (pubpt p) (rpoints s))); unfold weight at 1; lia). lia.
Qed.
End Lengths.
