(** The number of points of y^2 + x y = x^3 + a x^2 + 1 (a = 0 or 1) over GF(2)[z] modulo an irreducible polynomial of any
    degree: the definitions of Ec_F2m are counted, the count is the one of the Lucas sequence in Koblitz_Props. *)
From Coq Require Import Lia.
From Verif Require Import Base GF2 Fp Ec_F2m Kb_Zeta Koblitz_Props.
From Verif Require Kb_Field Ec_Group2.
Local Open Scope Z_scope.

Lemma pairs_count {A B} (p : A * B -> bool) l l' : Z.of_nat (length (filter p (list_prod l l'))) = zsum (fun x => zsum (fun y => if p (x, y) then 1 else 0) l') l.
Proof.
  induction l as [|x l IH]; [reflexivity|]. cbn [list_prod]. rewrite filter_app, app_length, Nat2Z.inj_add, IH, zsum_cons. f_equal. clear IH.
  induction l' as [|y l' IH]; [reflexivity|]. cbn [map filter]. rewrite zsum_cons, <- IH. destruct (p (x, y)); cbn [length]; lia.
Qed.

Section Count.
Variable d : N.
Hypothesis ID : irreducible d.
Notation el := (Ec_F2m.el d).
Notation fz := (fzero d ID). Notation fo := (fone d ID). Notation fp := (fplus d). Notation fm := (fmult d ID).
Definition here (x : Z) : list el := match Bool.bool_dec (bres d x) true with left H => [exist _ x H] | right _ => [] end.
Definition all : list el := flat_map here (elements (bsize d)).
Lemma all_v : map (v d) all = elements (bsize d).
Proof.
  assert (G : forall l, (forall x, In x l -> bres d x = true) -> map (v d) (flat_map here l) = l).
  { induction l as [|x l IH]; intros H; [reflexivity|]. cbn [flat_map]. rewrite map_app, IH by (intros; apply H; now right). unfold here. destruct (Bool.bool_dec (bres d x) true) as [B|B]; [reflexivity|]. elim B. apply H. now left. }
  apply G. intros x. apply in_els.
Qed.
Lemma all_complete x : In x all.
Proof.
  assert (I : In (v d x) (map (v d) all)) by (rewrite all_v; apply in_els, (proj2_sig x)). apply in_map_iff in I. destruct I as (y & E & I). apply v_eq in E. now subst.
Qed.
Lemma all_nodup : NoDup all. Proof. apply (NoDup_map_inv (v d)). rewrite all_v. apply elements_nodup. Qed.
Lemma all_size : length all = (2 ^ deg d)%nat.
Proof. rewrite <- (map_length (v d)), all_v. unfold elements. rewrite map_length, seq_length. unfold bsize, deg. rewrite Z2Nat.inj_pow by lia. f_equal. lia. Qed.
Notation sq := (Kb_Field.sq el fm).
Lemma n_sq k x : peqm d (n d (sq k x)) (sqn k (n d x)).
Proof. induction k as [|k IH]; [apply peqm_refl|]. cbn [Kb_Field.sq sqn]. cbv zeta. eapply peqm_trans; [apply n_mult_cong|]. now apply peqm_mul. Qed.
Lemma sqn_padd k f g : sqn k (padd f g) = padd (sqn k f) (sqn k g).
Proof.
  induction k as [|k IH]; [reflexivity|]. cbn [sqn]. cbv zeta. rewrite IH. generalize (sqn k f) (sqn k g). intros u w.
  rewrite pmul_add_l, !pmul_add_r, (pmul_comm w u). unfold padd. rewrite <- !N.lxor_assoc. rewrite (N.lxor_assoc _ (pmul u w) (pmul u w)), N.lxor_nilpotent, N.lxor_0_r. reflexivity.
Qed.
Lemma sqn_pmul k f g : sqn k (pmul f g) = pmul (sqn k f) (sqn k g).
Proof. induction k as [|k IH]; [reflexivity|]. cbn [sqn]. cbv zeta. rewrite IH. rewrite <- !pmul_assoc. f_equal. rewrite !pmul_assoc. f_equal. apply pmul_comm. Qed.
Lemma sqn_1 k : sqn k 1 = 1%N. Proof. induction k as [|k IH]; [reflexivity|]. cbn [sqn]. cbv zeta. now rewrite IH. Qed.
Lemma sqn_0 k : sqn k 0 = 0%N. Proof. induction k as [|k IH]; [reflexivity|]. cbn [sqn]. cbv zeta. now rewrite IH. Qed.
Lemma fermat f : peqm d (sqn (deg d) f) f.
Proof.
  destruct f as [|f]; [rewrite sqn_0; apply peqm_refl|]. induction f as [f IH|f IH|].
  - replace (Npos (xI f)) with (padd 1 (pmul 2 (Npos f))) by reflexivity. rewrite sqn_padd, sqn_pmul, sqn_1. apply peqm_padd; [apply peqm_refl|]. apply peqm_mul; [apply fermat_x; exact ID|exact IH].
  - change (Npos (xO f)) with (pmul 2 (Npos f)). rewrite sqn_pmul. apply peqm_mul; [apply fermat_x; exact ID|exact IH].
  - rewrite sqn_1. apply peqm_refl.
Qed.
Lemma frob x : sq (deg d) x = x.
Proof. apply (cong_eq d ID). eapply peqm_trans; [apply n_sq|apply fermat]. Qed.
Variable a : bool.
Notation za := (if a then 1 else 0).
Notation onc := (Kb_Field.onc el fz fo fp fm (el_dec d) a).
Lemma on_iff x y : on_curve2 d za 1 (v d x, v d y) = onc x y.
Proof.
  apply bool_eq. unfold Kb_Field.onc. rewrite (Kb_Field.isz_iff el fz (el_dec d)). unfold on_curve2. rewrite Z.eqb_eq. 
  set (ea := if a then fo else fz). change (Kb_Field.bv el fz fo a) with ea. assert (EA : v d ea = za) by (unfold ea; destruct a; reflexivity). rewrite <- EA. change 1 with (v d fo) at 1.
  change (v d (fp (fm y y) (fm x y)) = v d (fp (fp (fm (fm x x) x) (fm (fm ea x) x)) fo) <-> fp (fp (fm y y) (fm x y)) (fp (fp (fm (fm x x) x) (fm (fm ea x) x)) fo) = fz).
  split.
  - intros E. apply v_eq in E. rewrite E. exact (Ropp_def (el_ring d ID) _).
  - intros E. f_equal. apply (Kb_Field.add_eq el fz fo fp fm fp (fun x => x) (finve d ID) (fdiv d ID) (el_field d ID) (two_zero d ID)). exact E.
Qed.
Theorem count_2 : points2 d za 1 = 2 ^ Z.of_nat (deg d) + 1 + sign (if Nat.odd (deg d) then a else false) * T_ (deg d).
Proof.
  unfold points2. rewrite pairs_count, <- all_v, zsum_map.
  rewrite (zsum_ext _ (fun x => zsum (fun y => if onc x y then 1 else 0) all)) by (intros x _; rewrite zsum_map; apply zsum_ext; intros y _; now rewrite on_iff).
  pose proof (Kb_Field.affine_count el fz fo fp fm fp (fun x => x) (finve d ID) (fdiv d ID) (el_field d ID) (el_dec d) (two_zero d ID) (deg d) all (irr_deg d ID) all_complete all_nodup all_size frob a) as H.
  rewrite H. lia.
Qed.
End Count.

(** ** The Lucas sequence *)
Lemma lucas_sum k : T_ (S k) = - fst (lucas_pair (-1) (S k)) /\ T_ (S (S k)) = - snd (lucas_pair (-1) (S k)).
Proof.
  induction k as [|k (IH1 & IH2)]; [rewrite T_1, T_2; now split|]. rewrite (T_rec (S k)) by lia. 
  change (lucas_pair (-1) (S (S k))) with (let '(v, w) := lucas_pair (-1) (S k) in (w, -1 * w - 2 * v)). destruct (lucas_pair (-1) (S k)) as (u, w). cbn [fst snd] in *. lia.
Qed.
Lemma lucas_neg k : fst (lucas_pair 1 k) = sign (Nat.odd k) * fst (lucas_pair (-1) k) /\ snd (lucas_pair 1 k) = - sign (Nat.odd k) * snd (lucas_pair (-1) k).
Proof.
  induction k as [|k (IH1 & IH2)]; [split; reflexivity|]. cbn [lucas_pair]. destruct (lucas_pair 1 k) as (u, w), (lucas_pair (-1) k) as (u', w'). cbn [fst snd] in *. subst u w.
  rewrite Nat.odd_succ, <- Nat.negb_odd. destruct (Nat.odd k); cbn [negb sign]; lia.
Qed.
Theorem koblitz_count d a : irreducible d -> a = 0 \/ a = 1 -> koblitz_points (Z.of_N (N.log2 d)) a (points2 d a 1).
Proof.
  intros ID A. apply points_fun. pose proof (irr_deg d ID) as D. pose proof (count_2 d ID (a =? 1)) as C.
  replace (if a =? 1 then 1 else 0) with a in C by (destruct A as [->| ->]; reflexivity). rewrite C.
  replace (Z.of_N (N.log2 d)) with (Z.of_nat (deg d)) by (unfold deg; lia). rewrite Nat2Z.id. destruct (deg d) as [|k]; [lia|]. destruct (lucas_sum k) as (-> & _).
  destruct A as [->| ->].
  - change (0 =? 1) with false. change (trace1 0) with (-1). destruct (Nat.odd (S k)); cbn [sign]; lia.
  - change (1 =? 1) with true. change (trace1 1) with 1. rewrite (proj1 (lucas_neg (S k))). destruct (Nat.odd (S k)); cbn [sign]; lia.
Qed.
