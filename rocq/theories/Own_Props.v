(** C59: curves are freed exactly once; copies are new and hold the same parameters. *)
From Coq Require Import Permutation.
From Verif Require Import Base Own_Model Own_Spec Own_Free Own_Copy.
Local Open Scope Z_scope.

Lemma curve_cache : forall c i v cs, In (i, CGen false v cs) (cells_curve c) ->
  cs = [] \/ Some i = addr ae_id (ac_curve c).
Proof.
  intros c i v cs I. unfold cells_curve in I. destruct I as [I|I]; [discriminate|].
  assert (Q : forall l1 l2, plain l1 -> In (i, CGen false v cs) (l1 ++ l2) -> cs = [] \/ In (i, CGen false v cs) l2).
  { intros l1 l2 P J. apply in_app_or in J. destruct J; eauto. }
  apply Q in I; [|auto 10 with plain]. destruct I as [I|I]; auto.
  apply Q in I; [|auto 10 with plain]. destruct I as [I|I]; auto.
  apply in_app_or in I. destruct I as [I|I].
  - destruct (ac_curve c) as [e|]; simpl in I; [|tauto]. destruct I as [I|I].
    + right. simpl. congruence.
    + left. revert I. apply plain_flat. auto with plain.
  - left. revert I. cut (plain (ocells cells_gen (ac_field c) ++ ocells cells_gen (ac_a c) ++ ocells cells_gen (ac_b c)
      ++ ocells cells_gen (ac_order c) ++ flat_map (ocells cells_gen) (ac_meta c))); [eauto|auto 20 with plain].
Qed.

(** Freeing a curve, in whatever stage of completion, releases every block it owns and nothing
    else, touches nothing that is not its own but for the cache of its t_ELL, and leaves NULL in the
    pointer. In the model freeing a block twice, or using one after it was freed, is [UB]; the
    outcome is [Ok]. *)
Theorem C59_free : forall h c, holds h (cells_curve c) -> ok_curve c -> NoDup (owned (cells_curve c)) ->
  exists h', curve_free (Some (ac_id c)) h = Ok (None, h') /\
    next h' = next h /\
    (forall i, In i (owned (cells_curve c)) -> cells h' i = None) /\
    (forall i, ~ In i (owned (cells_curve c)) -> Some i <> addr ae_id (ac_curve c) -> cells h' i = cells h i) /\
    (forall e, ac_curve c = Some e -> ag_clone (ae_gen e) = false ->
       cells h' (ae_id e) = Some (CGen false (ag_v (ae_gen e)) [])).
Proof.
  intros h c Hh OK ND.
  destruct (curve_free_frees c OK h Hh ND) as (h' & E & N & A & B & C).
  exists h'. split; auto. split; auto. split; auto. split.
  - intros i I D. destruct (in_dec Nat.eq_dec i (map fst (cells_curve c))) as [J|J]; auto.
    apply stack_or_owned in J. destruct J as [J|(v & cs & J)]; [tauto|].
    destruct (curve_cache _ _ _ _ J) as [->|X]; [|congruence]. rewrite (B _ _ _ J), (Hh _ _ J). auto.
  - intros e Ee Cl. apply (B _ _ (map ag_id (ae_cache e))).
    unfold cells_curve. right. rewrite Ee. apply in_or_app. right. apply in_or_app. right. apply in_or_app. left.
    left. rewrite Cl. auto.
Qed.
Print Assumptions C59_free.

(** the pointer may be NULL *)
Theorem C59_free_null : forall h, curve_free None h = Ok (None, h).
Proof. reflexivity. Qed.

Lemma NoDup_owned : forall l, NoDup (map fst l) -> NoDup (owned l).
Proof.
  unfold owned. induction l as [|[i c] l IH]; simpl; intros N; [constructor|]. inversion N; subst.
  destruct (negb _); simpl; auto. constructor; auto. intro I. apply H1. apply in_map_iff in I.
  destruct I as (p & E & I). apply filter_In in I. apply in_map_iff. exists p. tauto.
Qed.

Lemma owned_ell : forall e, ag_clone (ae_gen e) = true -> In (ae_id e) (owned (cells_ell e)).
Proof. intros e C. apply owned_in. eexists. split; [left; reflexivity|]. rewrite C. auto. Qed.

Lemma copy_generic : forall cp b' seedcp h c, is_cp cp b' ->
  (forall p, seedcp p = mbind seed_new (fun r => seed_copy p r)) ->
  fresh_above h -> holds h (cells_curve c) -> ok_curve c -> full_curve c ->
  exists c' h', curve_new_with cp seedcp (Some (ac_id c)) h = Ok (Some (ac_id c'), h') /\
    val_curve c' = val_curve c /\ extends h h' /\
    holds h' (cells_curve c') /\ ok_curve c' /\ NoDup (map fst (cells_curve c')) /\
    (forall i d, In (i, d) (cells_curve c') -> (next h <= i)%nat).
Proof.
  intros cp b' seedcp h c CP SC F Hh OK FU.
  destruct (curve_makes cp b' seedcp c _ CP SC OK FU (incl_refl _) h F Hh)
    as (a & l & h' & E & X & (N1 & N2 & N3) & (c' & -> & P & V & OK' & _)).
  exists c', h'. split; auto. split; auto. split; auto. split; [|split; auto].
  - intros i d I. apply N1. eapply Permutation_in; [apply Permutation_sym|]; eauto.
  - split.
    + eapply Permutation_NoDup; [apply Permutation_map|]; eauto.
    + intros i d I. apply (N3 i d). eapply Permutation_in; [apply Permutation_sym|]; eauto.
Qed.

(** Copying a curve (curve_new_copy) gives a curve with the same seed bits, field, coefficients,
    curve, order, generators and points. Every block of the copy is new -- it was not in use before
    -- and no two are the same; every block there was before is as it was.

    Missing from the full statement: the metadata, and the type of the seed with what belongs to it
    ([C59_copy_refuted]); arrays with NULL in them ([C59_copy_null_refuted]). *)
Theorem C59_copy_partial : forall h c,
  fresh_above h -> holds h (cells_curve c) -> ok_curve c -> full_curve c ->
  exists c' h', curve_new_copy (Some (ac_id c)) h = Ok (Some (ac_id c'), h') /\
    val_curve c' = val_curve c /\
    holds h' (cells_curve c') /\ ok_curve c' /\ NoDup (map fst (cells_curve c')) /\
    (forall i d, In (i, d) (cells_curve c') -> cells h i = None) /\
    (forall i d, cells h i = Some d -> cells h' i = Some d).
Proof.
  intros h c F Hh OK FU.
  destruct (copy_generic gcopy false seed_new_copy h c gcopy_cp (fun p => eq_refl) F Hh OK FU)
    as (c' & h' & E & V & (X1 & X2 & X3) & Hh' & OK' & ND & FR).
  exists c', h'. split; auto. split; auto. split; auto. split; auto. split; auto. split.
  - intros i d I. apply FR in I. destruct (cells h i) as [d'|] eqn:C; auto. apply F in C. lia.
  - intros i d C. rewrite X2; auto. eapply F; eauto.
Qed.
Print Assumptions C59_copy_partial.

(** The same of curve_new_clone. *)
Theorem C59_clone_partial : forall h c,
  fresh_above h -> holds h (cells_curve c) -> ok_curve c -> full_curve c ->
  exists c' h', curve_new_clone (Some (ac_id c)) h = Ok (Some (ac_id c'), h') /\
    val_curve c' = val_curve c /\
    holds h' (cells_curve c') /\ ok_curve c' /\ NoDup (map fst (cells_curve c')) /\
    (forall i d, In (i, d) (cells_curve c') -> cells h i = None) /\
    (forall i d, cells h i = Some d -> cells h' i = Some d).
Proof.
  intros h c F Hh OK FU.
  destruct (copy_generic gclone true seed_new_clone h c gclone_cp (fun p => eq_refl) F Hh OK FU)
    as (c' & h' & E & V & (X1 & X2 & X3) & Hh' & OK' & ND & FR).
  exists c', h'. split; auto. split; auto. split; auto. split; auto. split; auto. split.
  - intros i d I. apply FR in I. destruct (cells h i) as [d'|] eqn:C; auto. apply F in C. lia.
  - intros i d C. rewrite X2; auto. eapply F; eauto.
Qed.
Print Assumptions C59_clone_partial.

(** Copy, free the original: the copy is intact. Free the copy too: nothing owned by either is left,
    and what was neither's is as it was. *)
Theorem C59_copy_free : forall h c,
  fresh_above h -> holds h (cells_curve c) -> ok_curve c -> full_curve c -> NoDup (owned (cells_curve c)) ->
  exists c' h1 h2 h3,
    curve_new_copy (Some (ac_id c)) h = Ok (Some (ac_id c'), h1) /\
    curve_free (Some (ac_id c)) h1 = Ok (None, h2) /\ holds h2 (cells_curve c') /\
    curve_free (Some (ac_id c')) h2 = Ok (None, h3) /\
    (forall i, In i (owned (cells_curve c)) \/ In i (owned (cells_curve c')) -> cells h3 i = None) /\
    (forall i d, cells h i = Some d -> ~ In i (owned (cells_curve c)) -> Some i <> addr ae_id (ac_curve c) ->
       cells h3 i = Some d).
Proof.
  intros h c F Hh OK FU ND.
  destruct (C59_copy_partial h c F Hh OK FU) as (c' & h1 & E1 & V & H1 & OK' & ND' & FR & KEEP).
  assert (Hc : holds h1 (cells_curve c)) by (intros i d I; apply KEEP, Hh; auto).
  destruct (C59_free h1 c Hc OK ND) as (h2 & E2 & N2 & A2 & B2 & C2).
  assert (DJ : forall i d, In (i, d) (cells_curve c') -> ~ In i (map fst (cells_curve c))).
  { intros i d I J. apply in_fst in J. destruct J as (d' & J).
    assert (X := Hh _ _ J). rewrite (FR _ _ I) in X. discriminate. }
  assert (H2 : holds h2 (cells_curve c')).
  { intros i d I. rewrite B2; auto.
    - intro J. apply (DJ _ _ I), owned_fst. auto.
    - intro J. apply (DJ _ _ I). destruct (ac_curve c) as [e|] eqn:Ee; [|discriminate].
      simpl in J. assert (i = ae_id e) by congruence. subst i. apply in_map_iff.
      exists (ae_id e, CGen (ag_clone (ae_gen e)) (ag_v (ae_gen e)) (map ag_id (ae_cache e))). split; auto.
      unfold cells_curve. right. rewrite Ee. apply in_or_app. right. apply in_or_app. right. apply in_or_app.
      left. left. auto. }
  destruct (C59_free h2 c' H2 OK' (NoDup_owned _ ND')) as (h3 & E3 & N3 & A3 & B3 & C3).
  exists c', h1, h2, h3. split; auto. split; auto. split; auto. split; auto.
  assert (EL : forall i, Some i = addr ae_id (ac_curve c') -> In i (map fst (cells_curve c'))).
  { intros i J. destruct (ac_curve c') as [e|] eqn:Ee; [|discriminate]. simpl in J.
    assert (i = ae_id e) by congruence. subst i. apply in_map_iff.
    exists (ae_id e, CGen (ag_clone (ae_gen e)) (ag_v (ae_gen e)) (map ag_id (ae_cache e))). split; auto.
    unfold cells_curve. right. rewrite Ee. apply in_or_app. right. apply in_or_app. right. apply in_or_app.
    left. left. auto. }
  split.
  - intros i [I|I]; auto. rewrite B3; auto.
    + intro J. apply owned_fst in J. apply in_fst in J. destruct J as (d & J).
      apply (DJ _ _ J), owned_fst. auto.
    + intro J. apply EL in J. apply in_fst in J. destruct J as (d & J). apply (DJ _ _ J), owned_fst. auto.
  - intros i d C I J.
    assert (NI : ~ In i (map fst (cells_curve c'))).
    { intro K. apply in_fst in K. destruct K as (d' & K). apply FR in K. congruence. }
    rewrite B3; [rewrite B2; auto|intro K; apply NI, owned_fst; auto|intro K; apply NI, EL; auto].
Qed.
Print Assumptions C59_copy_free.

(** Memory goes from holding exactly [L] of something to holding exactly [L'] of it: what was owned
    and is owned no longer is gone, and nothing else changed. *)
Definition shrinks (L L' : blocks) (h h' : heap) : Prop :=
  holds h' L' /\ NoDup (owned L') /\ incl (owned L') (owned L) /\
  (forall k, In k (owned L) -> ~ In k (owned L') -> cells h' k = None) /\
  (forall k, ~ In k (owned L) -> cells h' k = cells h k).

Lemma shrinks_trans : forall L1 L2 L3 h1 h2 h3, shrinks L1 L2 h1 h2 -> shrinks L2 L3 h2 h3 -> shrinks L1 L3 h1 h3.
Proof.
  intros L1 L2 L3 h1 h2 h3 (A1 & A2 & A3 & A4 & A5) (B1 & B2 & B3 & B4 & B5).
  split; auto. split; auto. split; [eapply incl_tran; eauto|]. split.
  - intros k I J. destruct (in_dec Nat.eq_dec k (owned L2)) as [K|K]; auto. rewrite B5; auto.
  - intros k I. rewrite B5; auto.
Qed.

Lemma shrinks_perm : forall L1 L2 L1' L2' h h', Permutation L1 L1' -> Permutation L2 L2' ->
  shrinks L1 L2 h h' -> shrinks L1' L2' h h'.
Proof.
  intros L1 L2 L1' L2' h h' P Q (A1 & A2 & A3 & A4 & A5).
  assert (P' := owned_perm _ _ P). assert (Q' := owned_perm _ _ Q). split; [|split; [|split; [|split]]].
  - intros i c I. apply A1. eapply Permutation_in; [apply Permutation_sym|]; eauto.
  - eapply Permutation_NoDup; eauto.
  - intros k I. eapply Permutation_in; eauto. apply A3. eapply Permutation_in; [apply Permutation_sym|]; eauto.
  - intros k I J. apply A4.
    + eapply Permutation_in; [apply Permutation_sym|]; eauto.
    + intro K. apply J. eapply Permutation_in; eauto.
  - intros k I. apply A5. intro K. apply I. eapply Permutation_in; eauto.
Qed.

Lemma after_plain : forall l h h', plain l -> holds h l -> after_free l h h' ->
  forall k, ~ In k (owned l) -> cells h' k = cells h k.
Proof.
  intros l h h' P Hh (_ & _ & B & C) k N. destruct (in_dec Nat.eq_dec k (map fst l)) as [J|J]; auto.
  apply stack_or_owned in J. destruct J as [J|(v & cs & J)]; [tauto|].
  rewrite (B _ _ _ J), (Hh _ _ J), (P _ _ _ J). auto.
Qed.

Lemma owned_cons : forall i c l, owned ((i, c) :: l) = if on_stack c then owned l else i :: owned l.
Proof. intros. unfold owned. simpl. destruct (on_stack c); auto. Qed.

(** free a part, then overwrite the block that pointed to it *)
Lemma unroll_step {A} : forall j c c' l1 l2 (m : M A) r h,
  plain l1 -> on_stack c = false -> on_stack c' = false ->
  holds h ((j, c) :: l1 ++ l2) -> NoDup (owned ((j, c) :: l1 ++ l2)) -> frees m r l1 ->
  exists h1 h2, m h = Ok (r, h1) /\ holds h1 ((j, c) :: l2) /\ store j c' h1 = Ok (tt, h2) /\
    shrinks ((j, c) :: l1 ++ l2) ((j, c') :: l2) h h2.
Proof.
  intros j c c' l1 l2 m r h P S S' Hh ND F.
  assert (Pm : Permutation ((j, c) :: l1 ++ l2) (l1 ++ (j, c) :: l2)) by apply Permutation_middle.
  assert (Hh2 : holds h (l1 ++ (j, c) :: l2)).
  { intros i d I. apply Hh. eapply Permutation_in; [apply Permutation_sym|]; eauto. }
  assert (ND2 : NoDup (owned (l1 ++ (j, c) :: l2))) by (eapply Permutation_NoDup; [apply owned_perm|]; eauto).
  assert (SEP := separate _ _ _ Hh2 ND2).
  apply holds_app in Hh2. destruct Hh2 as (Hl1 & Hl2).
  assert (ND1 : NoDup (owned l1)).
  { rewrite owned_app in ND2. revert ND2. generalize (owned l1) as x, (owned ((j, c) :: l2)) as y. clear.
    induction x; simpl; intros; [constructor|]. inversion ND2; subst. constructor; eauto.
    intro. apply H1, in_or_app. auto. }
  destruct (F h Hl1 ND1) as (h1 & E1 & AF).
  assert (AP := after_plain _ _ _ P Hl1 AF).
  assert (H1 : holds h1 ((j, c) :: l2)).
  { intros i d I. rewrite AP; auto. eapply SEP; eauto. }
  exists h1. assert (Cj : cells h1 j = Some c) by (apply H1; left; auto).
  exists (mkHeap (next h1) (set (cells h1) j (Some c'))).
  split; auto. split; auto. split; [unfold store; rewrite Cj; auto|].
  rewrite owned_cons, S in ND. inversion ND as [|? ? NJ ND']; subst.
  assert (NJ2 : forall i d, In (i, d) l2 -> i <> j).
  { intros i d I ->. apply NJ. rewrite owned_app. apply in_or_app. right. apply owned_in. exists d. split; auto.
    assert (X := Hl2 j d (or_intror I)). rewrite (Hl2 j c (or_introl eq_refl)) in X. congruence. }
  assert (ST : forall k, k <> j -> set (cells h1) j (Some c') k = cells h1 k).
  { intros k D. unfold set. apply Nat.eqb_neq in D. rewrite D. auto. }
  split; [|split; [|split; [|split]]].
  - apply holds_cons. simpl. split; [unfold set; rewrite Nat.eqb_refl; auto|].
    intros i d I. simpl. rewrite ST by eauto. apply H1. right. auto.
  - rewrite owned_cons, S'. constructor.
    + intro I. apply NJ. rewrite owned_app. apply in_or_app. auto.
    + rewrite owned_app in ND'. revert ND'. generalize (owned l1) as x. induction x; simpl; intros; auto.
      inversion ND'; auto.
  - rewrite !owned_cons, S, S', owned_app. intros k [I|I]; [left; auto|right; apply in_or_app; auto].
  - rewrite !owned_cons, S, S', owned_app. intros k [I|I] NK; [exfalso; apply NK; left; auto|].
    apply in_app_or in I. destruct I as [I|I]; [|exfalso; apply NK; right; auto]. simpl. rewrite ST.
    + destruct AF as (_ & A2 & _). auto.
    + intros ->. apply NJ. rewrite owned_app. apply in_or_app. auto.
  - rewrite owned_cons, S, owned_app. intros k NK. simpl. rewrite ST.
    + apply AP. intro. apply NK. right. apply in_or_app. auto.
    + intros ->. apply NK. left. auto.
Qed.

Definition no_seed (c : acurve) : acurve :=
  mkAC (ac_id c) None (ac_field c) (ac_a c) (ac_b c) (ac_curve c) (ac_order c) (ac_gens c) (ac_n c) (ac_meta c).
Definition no_gens (c : acurve) : acurve :=
  mkAC (ac_id c) (ac_seed c) (ac_field c) (ac_a c) (ac_b c) (ac_curve c) (ac_order c) None (ac_n c) (ac_meta c).
Definition no_curve (c : acurve) : acurve :=
  mkAC (ac_id c) (ac_seed c) (ac_field c) (ac_a c) (ac_b c) None (ac_order c) (ac_gens c) (ac_n c) (ac_meta c).
Definition no_points_sub (s : asub) : asub := mkAS (as_id s) (as_gen s) (as_n s) None.
Definition no_points (c : acurve) : acurve :=
  mkAC (ac_id c) (ac_seed c) (ac_field c) (ac_a c) (ac_b c) (ac_curve c) (ac_order c)
    (option_map (fun a => mkAA (aa_id a) (map (option_map no_points_sub) (aa_elems a))) (ac_gens c)) (ac_n c) (ac_meta c).

(** Unrolling the seed of a curve leaves the curve without a seed: all of the seed is gone, nothing
    else is, and the curve can still be freed ([ok_curve], [NoDup]). *)
Theorem C59_seed_unroll : forall h c, holds h (cells_curve c) -> ok_curve c -> NoDup (owned (cells_curve c)) ->
  exists h', seed_unroll (Some (ac_id c)) h = Ok (tt, h') /\ ok_curve (no_seed c) /\
    shrinks (cells_curve c) (cells_curve (no_seed c)) h h'.
Proof.
  intros h c Hh OK ND. unfold cells_curve in Hh, ND.
  destruct (unroll_step (ac_id c) (CCurve (curve_of c)) (CCurve (curve_of (no_seed c))) _ _ (seed_free (addr ad_id (ac_seed c))) None h
    (plain_opt _ _ plain_seed) eq_refl eq_refl Hh ND) as (h1 & h2 & E1 & H1 & E2 & SH).
  { apply seed_free_frees. apply OK. }
  exists h2. split; [|split; [destruct OK as (O1 & O2 & O3); split; simpl; auto|exact SH]].
  unfold seed_unroll, load_curve, load, put_curve. unfold mbind at 1 2. rewrite (Hh _ _ (in_eq _ _)).
  unfold ret at 1. unfold mbind at 1. cbn [curve_of c_seed]. rewrite E1.
  unfold mbind. rewrite (H1 _ _ (in_eq _ _)). exact E2.
Qed.
Print Assumptions C59_seed_unroll.

(** Unrolling the generators leaves the curve without generators (and points). The number of
    generators stays as it was, but is not looked at again. *)
Theorem C59_gens_unroll : forall h c, holds h (cells_curve c) -> ok_curve c -> NoDup (owned (cells_curve c)) ->
  exists h', gens_unroll (Some (ac_id c)) h = Ok (tt, h') /\ ok_curve (no_gens c) /\
    shrinks (cells_curve c) (cells_curve (no_gens c)) h h'.
Proof.
  intros h c Hh OK ND.
  destruct (ac_gens c) as [g|] eqn:Eg.
  - assert (Pm : Permutation (cells_curve c)
       ((ac_id c, CCurve (curve_of c)) :: ocells cells_subs (ac_gens c) ++ ocells cells_seed (ac_seed c) ++ ocells cells_ell (ac_curve c)
         ++ ocells cells_gen (ac_field c) ++ ocells cells_gen (ac_a c) ++ ocells cells_gen (ac_b c)
         ++ ocells cells_gen (ac_order c) ++ flat_map (ocells cells_gen) (ac_meta c))).
    { unfold cells_curve. constructor. rewrite !app_assoc. do 6 apply Permutation_app_tail. apply Permutation_app_comm. }
    assert (Hp : holds h ((ac_id c, CCurve (curve_of c)) :: ocells cells_subs (ac_gens c) ++ ocells cells_seed (ac_seed c) ++ ocells cells_ell (ac_curve c)
         ++ ocells cells_gen (ac_field c) ++ ocells cells_gen (ac_a c) ++ ocells cells_gen (ac_b c)
         ++ ocells cells_gen (ac_order c) ++ flat_map (ocells cells_gen) (ac_meta c))).
    { intros i d I. apply Hh. eapply Permutation_in; [apply Permutation_sym|]; eauto. }
    assert (Np := Permutation_NoDup (owned_perm _ _ Pm) ND).
    destruct (unroll_step (ac_id c) (CCurve (curve_of c)) (CCurve (curve_of (no_gens c))) _ _ (subs_free_deep (addr aa_id (ac_gens c)) (ac_n c)) None h
      (plain_opt _ _ plain_subs) eq_refl eq_refl Hp Np) as (h1 & h2 & E1 & H1 & E2 & SH).
    { apply subs_free_frees. apply OK. }
    exists h2. split; [|split; [destruct OK as (O1 & O2 & O3); split; simpl; auto|]].
    + unfold gens_unroll, load_curve, load, put_curve. unfold mbind at 1 2. rewrite (Hh _ _ (in_eq _ _)).
      unfold ret at 1. cbn [curve_of c_generators c_ngens]. rewrite Eg in *. cbn [addr option_map] in *.
      unfold mbind at 1. rewrite E1. unfold mbind. rewrite (H1 _ _ (in_eq _ _)). exact E2.
    + eapply shrinks_perm; [apply Permutation_sym; exact Pm| |exact SH]. apply Permutation_refl.
  - exists h. split; [|split].
    + unfold gens_unroll, load_curve, load. unfold mbind at 1 2. rewrite (Hh _ _ (in_eq _ _)).
      cbn [ret curve_of c_generators]. rewrite Eg. auto.
    + destruct OK as (O1 & O2 & O3); split; simpl; auto.
    + replace (no_gens c) with c by (destruct c; simpl in *; subst; auto).
      split; auto. split; auto. split; [apply incl_refl|]. split; tauto.
Qed.
Print Assumptions C59_gens_unroll.

Lemma obj_free_stack : forall e, ag_clone (ae_gen e) = false -> frees (obj_free (Some (ae_id e))) tt (cells_ell e).
Proof.
  intros e C h Hh ND. destruct (obj_free_frees e h Hh ND) as (h' & E & AF).
  unfold mbind at 1 in E.
  assert (Hi : cells h (ae_id e) = Some (CGen false (ag_v (ae_gen e)) (map ag_id (ae_cache e))))
    by (rewrite <- C; apply Hh; left; auto).
  destruct (obj_free (Some (ae_id e)) h) as [[[] h1]| | |] eqn:E1; try discriminate.
  assert (C1 : cells h1 (ae_id e) = Some (CGen false (ag_v (ae_gen e)) [])).
  { unfold obj_free in E1. unfold mbind at 1 in E1. rewrite (load_gen_eq _ _ _ _ _ Hi) in E1.
    unfold mbind in E1. destruct (drop_all (map ag_id (ae_cache e)) h) as [[[] h2]| | |]; try discriminate.
    unfold store in E1. destruct (cells h2 (ae_id e)); [|discriminate].
    assert (X : h1 = mkHeap (next h2) (set (cells h2) (ae_id e) (Some (CGen false (ag_v (ae_gen e)) [])))) by congruence.
    rewrite X. simpl. unfold set. rewrite Nat.eqb_refl. auto. }
  rewrite (drop_eq _ _ _ _ _ C1) in E. unfold ret in E. exists h1. split; auto.
  assert (h' = h1) by congruence. subst. auto.
Qed.

(** Unrolling the t_ELL, which is on the stack, leaves the curve without it: what PARI had cached in
    it is released. *)
Theorem C59_curve_unroll : forall h c, holds h (cells_curve c) -> ok_curve c -> NoDup (owned (cells_curve c)) ->
  ok_opt (fun e => ag_clone (ae_gen e) = false) (ac_curve c) ->
  exists h', curve_unroll (Some (ac_id c)) h = Ok (tt, h') /\ ok_curve (no_curve c) /\
    holds h' (cells_curve (no_curve c)) /\ NoDup (owned (cells_curve (no_curve c))) /\
    (forall k, In k (owned (cells_curve c)) -> ~ In k (owned (cells_curve (no_curve c))) -> cells h' k = None) /\
    (forall k, ~ In k (owned (cells_curve c)) -> Some k <> addr ae_id (ac_curve c) -> cells h' k = cells h k).
Proof.
  intros h c Hh OK ND CL.
  assert (OK' : ok_curve (no_curve c)) by (destruct OK as (O1 & O2 & O3); split; simpl; auto).
  destruct (ac_curve c) as [e|] eqn:Ee.
  - simpl in CL.
    set (rest := ocells cells_seed (ac_seed c) ++ ocells cells_subs (ac_gens c)
         ++ ocells cells_gen (ac_field c) ++ ocells cells_gen (ac_a c) ++ ocells cells_gen (ac_b c)
         ++ ocells cells_gen (ac_order c) ++ flat_map (ocells cells_gen) (ac_meta c)).
    assert (PR : plain rest) by (unfold rest; auto 20 with plain).
    assert (Pm : Permutation (cells_curve c) (cells_ell e ++ (ac_id c, CCurve (curve_of c)) :: rest)).
    { etransitivity; [|apply Permutation_middle]. unfold cells_curve, rest. rewrite Ee. constructor. cbn [ocells].
      rewrite !app_assoc. do 5 apply Permutation_app_tail. rewrite Permutation_app_comm. rewrite app_assoc. auto. }
    assert (Hp : holds h (cells_ell e ++ (ac_id c, CCurve (curve_of c)) :: rest)).
    { intros i d I. apply Hh. eapply Permutation_in; [apply Permutation_sym|]; eauto. }
    assert (Np := Permutation_NoDup (owned_perm _ _ Pm) ND).
    assert (SEP := separate _ _ _ Hp Np).
    assert (Hp0 := Hp). apply holds_app in Hp. destruct Hp as (He & Hr).
    assert (Ne : NoDup (owned (cells_ell e))).
    { rewrite owned_app in Np. revert Np. generalize (owned (cells_ell e)) as x, (owned ((ac_id c, CCurve (curve_of c)) :: rest)) as y. clear.
      induction x; simpl; intros; [constructor|]. inversion Np; subst. constructor; eauto. intro. apply H1, in_or_app. auto. }
    assert (Nr : NoDup (owned ((ac_id c, CCurve (curve_of c)) :: rest))).
    { rewrite owned_app in Np. revert Np. generalize (owned (cells_ell e)) as x, (owned ((ac_id c, CCurve (curve_of c)) :: rest)) as y. clear.
      induction x; simpl; intros; auto. inversion Np; auto. }
    destruct (obj_free_stack e CL h He Ne) as (h1 & E1 & N1 & A1 & B1 & C1).
    assert (H1 : holds h1 ((ac_id c, CCurve (curve_of c)) :: rest)).
    { intros i d I. destruct (in_dec Nat.eq_dec i (map fst (cells_ell e))) as [J|J].
      - apply stack_or_owned in J. destruct J as [J|(v & cs & J)]; [destruct (SEP i d I J)|].
        rewrite (B1 _ _ _ J). assert (X := He _ _ J). rewrite (Hr _ _ I) in X. assert (d = CGen false v cs) by congruence. subst d.
        destruct I as [I|I]; [discriminate|]. rewrite (PR _ _ _ I). auto.
      - rewrite C1; auto. }
    set (h2 := mkHeap (next h1) (set (cells h1) (ac_id c) (Some (CCurve (curve_of (no_curve c)))))).
    rewrite owned_cons in Nr. cbn [on_stack] in Nr. inversion Nr as [|? ? NJ NR']; subst.
    assert (O' : cells_curve (no_curve c) = (ac_id c, CCurve (curve_of (no_curve c))) :: rest) by reflexivity.
    assert (ST : forall k, k <> ac_id c -> cells h2 k = cells h1 k).
    { intros k D. unfold h2, set. simpl. apply Nat.eqb_neq in D. rewrite D. auto. }
    exists h2. split; [|split; auto; split; [|split; [|split]]].
    + unfold curve_unroll, load_curve, load, put_curve. unfold mbind at 1 2. rewrite (Hh _ _ (in_eq _ _)).
      unfold ret at 1. cbn [curve_of c_curve]. rewrite Ee. cbn [addr option_map].
      unfold mbind at 1. rewrite E1. unfold mbind. rewrite (H1 _ _ (in_eq _ _)).
      unfold ret, store. rewrite (H1 _ _ (in_eq _ _)). reflexivity.
    + rewrite O'. apply holds_cons. split; [unfold h2, set; simpl; rewrite Nat.eqb_refl; auto|].
      intros i d I. rewrite ST; [apply H1; right; auto|]. intros ->. apply NJ. apply owned_in. exists d. split; auto.
      assert (X := Hr _ _ (or_intror I)). rewrite (Hr _ _ (in_eq _ _)) in X.
      assert (d = CCurve (curve_of c)) by congruence. subst. auto.
    + rewrite O', owned_cons. cbn [on_stack]. constructor; auto.
    + intros k I J. rewrite O', owned_cons in J. cbn [on_stack] in J.
      eapply Permutation_in in I; [|apply owned_perm; exact Pm]. rewrite owned_app in I. apply in_app_or in I.
      destruct I as [I|I]; [|rewrite owned_cons in I; tauto].
      rewrite ST; auto. intros ->. apply J. left. auto.
    + intros k I J. rewrite ST.
      * destruct (in_dec Nat.eq_dec k (map fst (cells_ell e))) as [K|K]; [|apply C1; auto].
        assert (NK : ~ In k (owned (cells_ell e))).
        { intro Q. apply I. eapply Permutation_in; [apply Permutation_sym, owned_perm; exact Pm|].
          rewrite owned_app. apply in_or_app. auto. }
        apply stack_or_owned in K. destruct K as [K|(v & cs & K)]; [tauto|].
        rewrite (B1 _ _ _ K), (He _ _ K). destruct K as [K|K].
        -- exfalso. apply J. simpl. f_equal. congruence.
        -- rewrite (plain_flat cells_gen (ae_cache e) plain_gen _ _ _ K). auto.
      * intros ->. apply I. eapply Permutation_in; [apply Permutation_sym, owned_perm; exact Pm|].
        rewrite owned_app. apply in_or_app. right. left. auto.
  - exists h. replace (no_curve c) with c by (destruct c; simpl in *; subst; auto).
    split; [|split; auto; split; auto; split; auto; split; tauto].
    unfold curve_unroll, load_curve, load. unfold mbind at 1 2. rewrite (Hh _ _ (in_eq _ _)).
    unfold ret at 1. cbn [curve_of c_curve]. rewrite Ee. auto.
Qed.
Print Assumptions C59_curve_unroll.

Lemma points_loop : forall i cc a rest es pre h,
  c_generators cc = Some a ->
  let L es := (i, CCurve cc) :: (a, CArr (map (addr as_id) (pre ++ es))) :: flat_map (ocells cells_sub) (pre ++ es) ++ rest in
  holds h (L es) -> NoDup (owned (L es)) ->
  Forall (fun o => match o with None => False | Some s => ok_sub s end) es ->
  exists h', points_unroll_loop (length es) (length pre) (Some i) h = Ok (tt, h') /\
    shrinks (L es) (L (map (option_map no_points_sub) es)) h h'.
Proof.
  intros i cc a rest. induction es as [|e es IH]; intros pre h G L Hh ND F.
  - exists h. split; auto. split; auto. split; auto. split; [apply incl_refl|]. split; tauto.
  - inversion F as [|? ? Fe Fs]; subst. destruct e as [s|]; [|contradiction].
    assert (MP : forall x xs, map (addr as_id) (pre ++ x :: xs) = map (addr as_id) pre ++ addr as_id x :: map (addr as_id) xs)
      by (intros; rewrite map_app; auto).
    set (l2 := (i, CCurve cc) :: (a, CArr (map (addr as_id) (pre ++ Some s :: es)))
               :: flat_map (ocells cells_sub) pre ++ ocells cells_point (as_gen s) ++ flat_map (ocells cells_sub) es ++ rest).
    assert (Pm : forall q, Permutation
       ((i, CCurve cc) :: (a, CArr (map (addr as_id) (pre ++ Some s :: es))) ::
          flat_map (ocells cells_sub) (pre ++ Some (mkAS (as_id s) (as_gen s) (as_n s) q) :: es) ++ rest)
       ((as_id s, CSub (mkSub (addr ap_id (as_gen s)) (as_n s) (addr aa_id q))) :: ocells cells_points q ++ l2)).
    { intros q. unfold l2. rewrite flat_map_app. cbn [flat_map ocells]. unfold cells_sub at 2.
      cbn [as_id as_gen as_n as_points].
      match goal with |- Permutation (?A :: ?B :: (?X ++ (?C :: ?Y ++ ?Z) ++ ?W) ++ ?R) (?C' :: ?Y ++ ?A :: ?B :: ?X ++ ?Z ++ ?W ++ ?R) =>
        generalize X Y Z W A B C; intros X1 Y1 Z1 W1 A1 B1 C1 end.
      rewrite <- !app_assoc. cbn [app]. rewrite <- !app_assoc.
      etransitivity; [|apply perm_skip; apply Permutation_middle].
      etransitivity; [|apply perm_swap]. constructor.
      etransitivity; [|apply perm_skip; apply Permutation_middle].
      etransitivity; [|apply perm_swap]. constructor.
      etransitivity; [apply Permutation_sym, Permutation_middle|]. constructor.
      rewrite !app_assoc. do 3 apply Permutation_app_tail. apply Permutation_app_comm. }
    assert (Es : s = mkAS (as_id s) (as_gen s) (as_n s) (as_points s)) by (destruct s; auto).
    assert (Pm1 := Pm (as_points s)). rewrite <- Es in Pm1.
    assert (Pm2 := Pm None).
    assert (Hp := Hh). unfold L in Hp, ND.
    assert (Hp' : holds h ((as_id s, CSub (mkSub (addr ap_id (as_gen s)) (as_n s) (addr aa_id (as_points s)))) :: ocells cells_points (as_points s) ++ l2)).
    { intros k d I. apply Hh. eapply Permutation_in; [apply Permutation_sym; exact Pm1|auto]. }
    assert (Np := Permutation_NoDup (owned_perm _ _ Pm1) ND).
    destruct (unroll_step (as_id s) (CSub (mkSub (addr ap_id (as_gen s)) (as_n s) (addr aa_id (as_points s))))
      (CSub (mkSub (addr ap_id (as_gen s)) (as_n s) None)) (ocells cells_points (as_points s)) l2
      (points_free_deep (addr aa_id (as_points s)) (as_n s)) None h
      (plain_opt _ _ plain_points) eq_refl eq_refl Hp' Np (points_free_frees _ _ Fe)) as (h1 & h2 & E1 & H1 & E2 & SH).
    cbn [length points_unroll_loop].
    assert (Ci : forall h0, holds h0 l2 -> load_curve (Some i) h0 = Ok (cc, h0)).
    { intros h0 H0. cbn. unfold mbind, load. rewrite (H0 i (CCurve cc)); auto. left. auto. }
    assert (Ca : forall h0, holds h0 l2 -> load_arr (Some a) h0 = Ok (map (addr as_id) (pre ++ Some s :: es), h0)).
    { intros h0 H0. cbn. unfold mbind, load. rewrite (H0 a (CArr (map (addr as_id) (pre ++ Some s :: es)))); auto. right. left. auto. }
    assert (Hl2 : holds h l2) by (apply holds_cons in Hp'; destruct Hp' as (_ & Q); apply holds_app in Q; tauto).
    assert (Sub : forall h0, cells h0 (as_id s) = Some (CSub (mkSub (addr ap_id (as_gen s)) (as_n s) (addr aa_id (as_points s)))) ->
      load_sub (Some (as_id s)) h0 = Ok (mkSub (addr ap_id (as_gen s)) (as_n s) (addr aa_id (as_points s)), h0)).
    { intros h0 H0. cbn. unfold mbind, load. rewrite H0. auto. }
    assert (IH' := IH (pre ++ [Some (no_points_sub s)]) h2 G).
    cbv zeta beta in IH'. rewrite <- !app_assoc in IH'. cbn [app] in IH'.
    rewrite app_length in IH'. cbn [length] in IH'. rewrite Nat.add_1_r in IH'.
    assert (SH' : shrinks (L (Some s :: es)) (L (Some (no_points_sub s) :: es)) h h2).
    { unfold L. eapply shrinks_perm; [apply Permutation_sym; exact Pm1| |exact SH].
      etransitivity; [apply Permutation_sym; exact Pm2|]. unfold no_points_sub. rewrite !MP. apply Permutation_refl. }
    destruct IH' as (h' & E' & S').
    + apply SH'.
    + apply SH'.
    + auto.
    + exists h'. split.
      * unfold mbind at 1. rewrite (Ci h Hl2). unfold mbind at 1. rewrite G, (Ca h Hl2).
        rewrite map_app, nth_error_app2 by (rewrite map_length; auto). rewrite map_length, Nat.sub_diag.
        cbn [map nth_error addr option_map].
        unfold mbind at 1. rewrite (Sub h (Hp' _ _ (in_eq _ _))). cbn [g_points g_npoints].
        unfold mbind at 1. rewrite E1. unfold mbind at 1. rewrite (Sub h1 (H1 _ _ (in_eq _ _))). cbn [g_generator g_npoints].
        unfold mbind. rewrite E2. exact E'.
      * eapply shrinks_trans; [exact SH'|].
        assert (X : (fun es0 : list (option asub) => (i, CCurve cc) :: (a, CArr (map (addr as_id) (pre ++ es0)))
           :: flat_map (ocells cells_sub) (pre ++ es0) ++ rest) = L) by auto.
        cbn [map option_map]. unfold L. exact S'.
Qed.

(** Unrolling the points leaves the curve without points. *)
Theorem C59_points_unroll : forall h c, holds h (cells_curve c) -> ok_curve c -> NoDup (owned (cells_curve c)) ->
  ok_opt (full (fun _ => True)) (ac_gens c) ->
  exists h', points_unroll (Some (ac_id c)) h = Ok (tt, h') /\ ok_curve (no_points c) /\
    shrinks (cells_curve c) (cells_curve (no_points c)) h h'.
Proof.
  intros h c Hh OK ND FU. destruct (ac_gens c) as [[a es]|] eqn:Eg.
  - set (rest := ocells cells_seed (ac_seed c) ++ ocells cells_ell (ac_curve c)
         ++ ocells cells_gen (ac_field c) ++ ocells cells_gen (ac_a c) ++ ocells cells_gen (ac_b c)
         ++ ocells cells_gen (ac_order c) ++ flat_map (ocells cells_gen) (ac_meta c)).
    assert (Pm : forall c' es', ac_gens c' = Some (mkAA a es') -> ac_id c' = ac_id c -> curve_of c' = curve_of c ->
      ac_seed c' = ac_seed c -> ac_curve c' = ac_curve c -> ac_field c' = ac_field c -> ac_a c' = ac_a c ->
      ac_b c' = ac_b c -> ac_order c' = ac_order c -> ac_meta c' = ac_meta c ->
      Permutation (cells_curve c') ((ac_id c, CCurve (curve_of c)) :: (a, CArr (map (addr as_id) es')) :: flat_map (ocells cells_sub) es' ++ rest)).
    { intros c' es' E8 E9 E0 E1 E2 E3 E4 E5 E6 E7. unfold cells_curve, rest. rewrite E8, E9, E0, E1, E2, E3, E4, E5, E6, E7.
      constructor. cbn [ocells]. unfold cells_subs, cells_arr. cbn [aa_id aa_elems].
      etransitivity; [apply Permutation_app_swap_app|]. apply Permutation_refl. }
    assert (P1 := Pm c es Eg eq_refl eq_refl eq_refl eq_refl eq_refl eq_refl eq_refl eq_refl eq_refl).
    assert (P2 : Permutation (cells_curve (no_points c)) ((ac_id c, CCurve (curve_of c)) :: (a, CArr (map (addr as_id) (map (option_map no_points_sub) es)))
       :: flat_map (ocells cells_sub) (map (option_map no_points_sub) es) ++ rest)).
    { apply Pm; try reflexivity; unfold no_points, curve_of; cbn [ac_gens ac_seed ac_field ac_a ac_b ac_curve ac_order ac_n ac_meta]; rewrite Eg; reflexivity. }
    destruct OK as (O1 & O2 & O3). rewrite Eg in O2. simpl in O2, FU. destruct O2 as (On & O2).
    destruct (points_loop (ac_id c) (curve_of c) a rest es [] h) as (h' & E & SH).
    + unfold curve_of. simpl. rewrite Eg. auto.
    + intros k d I. apply Hh. eapply Permutation_in; [apply Permutation_sym; exact P1|auto].
    + eapply Permutation_NoDup; [apply owned_perm; exact P1|auto].
    + unfold full in FU. simpl in FU. rewrite Forall_forall in *. intros o I. specialize (FU o I). specialize (O2 o I).
      destruct o; simpl in *; auto.
    + exists h'. split; [|split].
      * unfold points_unroll, load_curve, load. unfold mbind at 1 2. rewrite (Hh _ _ (in_eq _ _)).
        unfold ret at 1. cbn [curve_of c_generators c_ngens]. rewrite Eg. cbn [addr option_map]. rewrite On. exact E.
      * split; [auto|]. split; [|auto]. unfold no_points. cbn [ac_gens ac_n]. rewrite Eg. simpl. rewrite map_length. split; auto.
        apply Forall_forall. intros o I. apply in_map_iff in I. destruct I as (o' & <- & I). destruct o'; simpl; auto.
        unfold ok_sub. simpl. auto.
      * eapply shrinks_perm; [apply Permutation_sym; exact P1|apply Permutation_sym; exact P2|exact SH].
  - exists h. replace (no_points c) with c by (destruct c; unfold no_points; simpl in *; subst; auto). split; [|split; auto].
    + unfold points_unroll, load_curve, load. unfold mbind at 1 2. rewrite (Hh _ _ (in_eq _ _)).
      unfold ret at 1. cbn [curve_of c_generators]. rewrite Eg. auto.
    + split; auto. split; auto. split; [apply incl_refl|]. split; tauto.
Qed.
Print Assumptions C59_points_unroll.

(** A curve with a seed of the Brainpool kind, two generators, points, a cached clone in its t_ELL,
    a coefficient that is a clone, and metadata. *)
Definition ex_curve : acurve :=
  mkAC 0
    (Some (mkAD 1 (Some (mkAB 2 (Some (3%nat, [18; 52])) false 16 2)) (Some (4%nat, repeat 7 20)) SBrainpool
             (ABrain true 5 6 (Some (mkAB 5 (Some (6%nat, [255])) false 8 1)) None (Some (mkAG 7 false 77)))))
    (Some (mkAG 8 false 23)) (Some (mkAG 9 true 1)) (Some (mkAG 10 false 1))
    (Some (mkAE (mkAG 11 false 1000) [mkAG 12 true 28; mkAG 13 false 0])) (Some (mkAG 14 false 28))
    (Some (mkAA 15 [Some (mkAS 16 (Some (mkAP 17 (Some (mkAG 18 false 300)) (Some (mkAG 19 false 28)) None)) 2
                            (Some (mkAA 20 [Some (mkAP 21 (Some (mkAG 22 false 301)) (Some (mkAG 23 true 7)) None); 
                                            Some (mkAP 24 None None None)])));
                    Some (mkAS 25 None 3 None)])) 2
    [Some (mkAG 26 false 1728); None; None; Some (mkAG 27 false (-4)); None; None].
Definition heap_of (l : blocks) : heap :=
  mkHeap 30 (fun i => match find (fun p => Nat.eqb (fst p) i) l with Some p => Some (snd p) | None => None end).
Definition ex_heap : heap := heap_of ((28%nat, CBytes [1]) :: cells_curve ex_curve).

Lemma ex_holds : holds ex_heap (cells_curve ex_curve).
Proof.
  assert (H : Forall (fun p => cells ex_heap (fst p) = Some (snd p)) (cells_curve ex_curve))
    by (repeat (apply Forall_cons; [reflexivity|]); apply Forall_nil).
  intros i c I. rewrite Forall_forall in H. exact (H _ I).
Qed.
Lemma ex_fresh : fresh_above ex_heap.
Proof.
  intros i c H. change (next ex_heap) with 30%nat.
  destruct (Nat.lt_ge_cases i 30) as [L|L]; auto. exfalso.
  unfold ex_heap, heap_of in H. cbn [cells] in H.
  destruct (find _ _) as [p|] eqn:E; [|discriminate]. apply find_some in E. destruct E as (I & E).
  apply Nat.eqb_eq in E. subst i.
  assert (Q : forallb (fun q => (fst q <? 30)%nat) ((28%nat, CBytes [1]) :: cells_curve ex_curve) = true) by (vm_compute; auto).
  rewrite forallb_forall in Q. apply Q in I. apply Nat.ltb_lt in I. lia.
Qed.
Lemma ex_ok : ok_curve ex_curve.
Proof. unfold ok_curve, ok_seed, ok_bits, ok_sub. simpl. unfold ok_bits, stack_gen. simpl. repeat (split || constructor || simpl). Qed.
Lemma ex_full : full_curve ex_curve.
Proof. unfold full_curve, full, full_sub. simpl. repeat constructor. Qed.
Lemma ex_nodup : NoDup (owned (cells_curve ex_curve)).
Proof. vm_compute. repeat (constructor; [simpl; intuition discriminate|]). constructor. Qed.

Definition in_use (l : list nat) (h : heap) : list nat :=
  filter (fun i => match cells h i with Some _ => true | None => false end) l.

(** freeing it leaves the objects on the stack and the buffer that is not its own *)
Example C59_free_ex :
  match curve_free (Some 0%nat) ex_heap with
  | Ok (p, h') => p = None /\ in_use (seq 0 40) h' = [7; 8; 10; 11; 13; 14; 18; 19; 22; 26; 27; 28]%nat
  | _ => False
  end.
Proof. vm_compute. auto. Qed.
(** a curve freed through a second pointer *)
Example C59_double_ex :
  match curve_free (Some 0%nat) ex_heap with Ok (_, h') => curve_free (Some 0%nat) h' = UB | _ => False end.
Proof. vm_compute. auto. Qed.
Example C59_copy_ex : exists c' h', curve_new_copy (Some (ac_id ex_curve)) ex_heap = Ok (Some (ac_id c'), h') /\
    val_curve c' = val_curve ex_curve /\ holds h' (cells_curve c').
Proof.
  destruct (C59_copy_partial ex_heap ex_curve ex_fresh ex_holds ex_ok ex_full) as (c' & h' & H). exists c', h'. tauto.
Qed.
Example C59_clone_ex : exists c' h', curve_new_clone (Some (ac_id ex_curve)) ex_heap = Ok (Some (ac_id c'), h') /\
    val_curve c' = val_curve ex_curve /\ holds h' (cells_curve c').
Proof.
  destruct (C59_clone_partial ex_heap ex_curve ex_fresh ex_holds ex_ok ex_full) as (c' & h' & H). exists c', h'. tauto.
Qed.
Example C59_copy_free_ex :
  match curve_new_copy (Some 0%nat) ex_heap with
  | Ok (p, h1) => match curve_free (Some 0%nat) h1 with
                  | Ok (_, h2) => match curve_free p h2 with
                                  | Ok (_, h3) => in_use (seq 0 30) h3 = [7; 8; 10; 11; 13; 14; 18; 19; 22; 26; 27; 28]%nat
                                                  /\ forallb (fun i => match cells h3 i with None | Some (CGen false _ _) => true | _ => false end) (seq 30 50) = true
                                  | _ => False end
                  | _ => False end
  | _ => False end.
Proof. vm_compute. auto. Qed.
Example C59_seed_unroll_ex :
  match seed_unroll (Some 0%nat) ex_heap with
  | Ok (_, h') => in_use (seq 0 12) h' = [0; 7; 8; 9; 10; 11]%nat | _ => False end.
Proof. vm_compute. auto. Qed.
Example C59_curve_unroll_ex :
  match curve_unroll (Some 0%nat) ex_heap with
  | Ok (_, h') => in_use (seq 8 8) h' = [8; 9; 10; 11; 13; 14; 15]%nat | _ => False end.
Proof. vm_compute. auto. Qed.
Example C59_gens_unroll_ex :
  match gens_unroll (Some 0%nat) ex_heap with
  | Ok (_, h') => in_use (seq 14 14) h' = [14; 18; 19; 22; 26; 27]%nat | _ => False end.
Proof. vm_compute. auto. Qed.
Example C59_points_unroll_ex :
  match points_unroll (Some 0%nat) ex_heap with
  | Ok (_, h') => in_use (seq 14 14) h' = [14; 15; 16; 17; 18; 19; 22; 25; 26; 27]%nat | _ => False end.
Proof. vm_compute. auto. Qed.
(** everything unrolled, then freed *)
Example C59_unroll_free_ex :
  match points_unroll (Some 0%nat) ex_heap with
  | Ok (_, h) => match gens_unroll (Some 0%nat) h with
    | Ok (_, h) => match curve_unroll (Some 0%nat) h with
      | Ok (_, h) => match seed_unroll (Some 0%nat) h with
        | Ok (_, h) => match curve_free (Some 0%nat) h with
          | Ok (p, h) => p = None /\ in_use (seq 0 40) h = [7; 8; 10; 11; 13; 14; 18; 19; 22; 26; 27; 28]%nat
          | _ => False end
        | _ => False end
      | _ => False end
    | _ => False end
  | _ => False end.
Proof. vm_compute. auto. Qed.

(** A copy has no metadata, and its seed has no type and nothing of what goes with the type. *)
Theorem C59_copy_refuted : exists h c,
  fresh_above h /\ holds h (cells_curve c) /\ ok_curve c /\ full_curve c /\ NoDup (owned (cells_curve c)) /\
  match curve_new_copy (Some (ac_id c)) h with
  | Ok (Some i, h') =>
      match cells h (ac_id c), cells h' i with
      | Some (CCurve cc), Some (CCurve cc') =>
          m_j (c_meta cc) <> None /\ m_j (c_meta cc') = None /\
          match c_seed cc, c_seed cc' with
          | Some s, Some s' =>
              match cells h s, cells h' s' with
              | Some (CSeed sd), Some (CSeed sd') =>
                  s_type sd = SBrainpool /\ s_part sd <> UZero /\ s_type sd' = SNone /\ s_part sd' = UZero
              | _, _ => False
              end
          | _, _ => False
          end
      | _, _ => False
      end
  | _ => False
  end.
Proof.
  exists ex_heap, ex_curve. split; [exact ex_fresh|]. split; [exact ex_holds|]. split; [exact ex_ok|].
  split; [exact ex_full|]. split; [exact ex_nodup|]. vm_compute. repeat split; discriminate.
Qed.
Print Assumptions C59_copy_refuted.

(** An array with NULL in it can be freed, but not copied. *)
Definition null_curve : acurve :=
  mkAC 0 None None None None None None (Some (mkAA 1 [None])) 1 [].
Theorem C59_copy_null_refuted : exists h c,
  fresh_above h /\ holds h (cells_curve c) /\ ok_curve c /\ NoDup (owned (cells_curve c)) /\
  curve_new_copy (Some (ac_id c)) h = UB.
Proof.
  exists (heap_of (cells_curve null_curve)), null_curve. split; [|split; [|split; [|split]]].
  - intros i c H. change (next _) with 30%nat. destruct (Nat.lt_ge_cases i 30) as [L|L]; auto. exfalso.
    do 2 (destruct i as [|i]; [lia|]). discriminate.
  - intros i c [E|[E|[]]]; assert (X := f_equal fst E); assert (Y := f_equal snd E); simpl in X, Y; subst; reflexivity.
  - repeat (split || constructor).
  - vm_compute. repeat (constructor; [simpl; intuition discriminate|]). constructor.
  - vm_compute. reflexivity.
Qed.
Print Assumptions C59_copy_null_refuted.

(** Turning a curve into its twist loses what PARI had cached in the old t_ELL, and coefficients
    that are clones: twist_rand overwrites the pointers and nothing ever frees these blocks. *)
Theorem C59_twist_refuted : exists h c,
  holds h (cells_curve c) /\ ok_curve c /\ NoDup (owned (cells_curve c)) /\
  match twist_rand 1001 2 3 20 (Some (ac_id c)) h with
  | Ok (_, h1) =>
      match curve_free (Some (ac_id c)) h1 with
      | Ok (_, h2) => exists k, In k (owned (cells_curve c)) /\ cells h2 k <> None
      | _ => False
      end
  | _ => False
  end.
Proof.
  exists ex_heap, ex_curve. split; [exact ex_holds|]. split; [exact ex_ok|]. split; [exact ex_nodup|].
  vm_compute. exists 12%nat. split; [auto 20|discriminate].
Qed.
Print Assumptions C59_twist_refuted.
