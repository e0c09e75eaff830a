(** Proofs about copying: what is made is new, and equal to what was copied. *)
From Coq Require Import Permutation.
From Verif Require Import Base Own_Model Own_Spec Own_Free.
Local Open Scope Z_scope.

Definition news (h h' : heap) (l : blocks) : Prop :=
  holds h' l /\ NoDup (map fst l) /\ forall i c, In (i, c) l -> (next h <= i < next h')%nat.

(** [m] run where the blocks [src] are, makes new blocks [l] only *)
Definition makes {A} (m : M A) (src : blocks) (P : A -> blocks -> Prop) : Prop :=
  forall h, fresh_above h -> holds h src ->
  exists a l h', m h = Ok (a, h') /\ extends h h' /\ news h h' l /\ P a l.

(** the same while a new block [i], now holding [c], is being filled in *)
Definition builds {A} (i : nat) (c : cell) (m : M A) (src : blocks) (P : A -> blocks -> Prop) : Prop :=
  forall h, fresh_above h -> (i < next h)%nat -> holds h src -> (forall j d, In (j, d) src -> (j < i)%nat) ->
  cells h i = Some c ->
  exists a l h', m h = Ok (a, h') /\ (next h <= next h')%nat /\ fresh_above h' /\
    (forall j, (j < next h)%nat -> j <> i -> cells h' j = cells h j) /\
    holds h' l /\ NoDup (map fst l) /\ (forall j d, In (j, d) l -> j = i \/ (next h <= j < next h')%nat) /\ P a l.

Lemma NoDup_app_intro {A} : forall (l1 l2 : list A), NoDup l1 -> NoDup l2 ->
  (forall x, In x l1 -> In x l2 -> False) -> NoDup (l1 ++ l2).
Proof.
  induction l1; simpl; intros; auto. inversion H; subst. constructor.
  - intro I. apply in_app_or in I. destruct I; auto. eapply H1; eauto.
  - apply IHl1; auto. intros. eapply H1; eauto.
Qed.

Lemma in_fst : forall (l : blocks) i, In i (map fst l) -> exists c, In (i, c) l.
Proof. intros l i I. apply in_map_iff in I. destruct I as ([j c] & <- & I). eauto. Qed.

Lemma extends_refl : forall h, fresh_above h -> extends h h.
Proof. intros. split; auto. Qed.

Lemma makes_ret {A} : forall (a : A) src (P : A -> blocks -> Prop), P a [] -> makes (ret a) src P.
Proof.
  intros a src P H h F Hh. exists a, [], h. split; auto. split; [apply extends_refl; auto|].
  split; auto. split; [intros ? ? []|]. split; [constructor|]. intros ? ? [].
Qed.

Lemma makes_weaken {A} : forall (m : M A) src (P P' : A -> blocks -> Prop),
  (forall a l, P a l -> P' a l) -> makes m src P -> makes m src P'.
Proof. intros m src P P' W H h F Hh. destruct (H h F Hh) as (a & l & h' & E & X & N & Q). exists a, l, h'. auto. Qed.

Lemma builds_weaken {A} : forall i c (m : M A) src (P P' : A -> blocks -> Prop),
  (forall a l, P a l -> P' a l) -> builds i c m src P -> builds i c m src P'.
Proof.
  intros i c m src P P' W H h F L Hh B C. destruct (H h F L Hh B C) as (a & l & h' & E & X1 & X2 & X3 & X4 & X5 & X6 & Q).
  exists a, l, h'. auto 10.
Qed.

Lemma makes_incl {A} : forall (m : M A) l l' P, incl l l' -> makes m l P -> makes m l' P.
Proof. intros m l l' P I H h F Hh. apply H; auto. eapply holds_incl; eauto. Qed.

Lemma makes_new : forall c src (P : nat -> blocks -> Prop), (forall i, P i [(i, c)]) -> makes (new c) src P.
Proof.
  intros c src P H h F Hh. unfold new. exists (next h), [(next h, c)]. eexists. split; [reflexivity|].
  assert (X : forall i, (i < next h)%nat -> set (cells h) (next h) (Some c) i = cells h i).
  { intros i L. unfold set. destruct (i =? next h)%nat eqn:E; auto. apply Nat.eqb_eq in E. lia. }
  split; [split; [simpl; lia|split; auto]|].
  - intros i d. simpl. unfold set. destruct (i =? next h)%nat eqn:E.
    + apply Nat.eqb_eq in E. lia.
    + intros C. apply F in C. lia.
  - split; auto. split.
    + apply holds_cons. split; [|intros ? ? []]. simpl. unfold set. rewrite Nat.eqb_refl. auto.
    + split; [simpl; repeat constructor; auto|]. intros i d [E|[]]. assert (i = next h) by congruence. simpl. lia.
Qed.

Lemma makes_bind {A B} : forall (m : M A) (k : A -> M B) src (P1 : A -> blocks -> Prop) P,
  makes m src P1 ->
  (forall a l1, P1 a l1 -> makes (k a) src (fun b l2 => P b (l1 ++ l2))) ->
  makes (mbind m k) src P.
Proof.
  intros m k src P1 P H K h F Hh.
  destruct (H h F Hh) as (a & l1 & h1 & E1 & (X1 & X2 & X3) & (N1 & N2 & N3) & Q1).
  destruct (K a l1 Q1 h1 X3) as (b & l2 & h2 & E2 & (Y1 & Y2 & Y3) & (O1 & O2 & O3) & Q2).
  { intros j d I. rewrite X2; auto. eapply F; eauto. }
  exists b, (l1 ++ l2), h2. unfold mbind. rewrite E1. split; auto. split.
  - split; [lia|split; auto]. intros. rewrite Y2 by lia. auto.
  - split; auto. split; [|split].
    + apply holds_app. split; auto. intros j d I. rewrite Y2 by (apply N3 in I; lia). auto.
    + rewrite map_app. apply NoDup_app_intro; auto. intros x I1 I2.
      apply in_fst in I1. apply in_fst in I2. destruct I1 as (? & I1), I2 as (? & I2).
      apply N3 in I1. apply O3 in I2. lia.
    + intros j d I. apply in_app_or in I. destruct I as [I|I]; [apply N3 in I|apply O3 in I]; lia.
Qed.

Lemma makes_read {A B} : forall (m : M A) (k : A -> M B) s src P,
  (forall h, holds h src -> m h = Ok (s, h)) -> makes (k s) src P -> makes (mbind m k) src P.
Proof. intros m k s src P E H h F Hh. unfold mbind. rewrite E by auto. auto. Qed.

Lemma builds_start {B} : forall c (k : nat -> M B) src P,
  (forall i, builds i c (k i) src P) -> makes (mbind (new c) k) src P.
Proof.
  intros c k src P H h F Hh. unfold mbind, new.
  set (h1 := mkHeap (S (next h)) (set (cells h) (next h) (Some c))).
  assert (X : forall i, (i < next h)%nat -> cells h1 i = cells h i).
  { intros i L. unfold h1, set. simpl. destruct (i =? next h)%nat eqn:E; auto. apply Nat.eqb_eq in E. lia. }
  destruct (H (next h) h1) as (a & l & h' & E & X1 & X2 & X3 & X4 & X5 & X6 & Q).
  - intros i d. unfold h1, set. simpl. destruct (i =? next h)%nat eqn:E.
    + apply Nat.eqb_eq in E. lia.
    + intros C. apply F in C. lia.
  - simpl. lia.
  - intros i d I. rewrite X; auto. eapply F; eauto.
  - intros i d I. eapply F. apply Hh. eauto.
  - unfold h1, set. simpl. rewrite Nat.eqb_refl. auto.
  - exists a, l, h'. simpl in *. split; auto. split.
    + split; [lia|split; auto]. intros i L. rewrite X3 by lia. auto.
    + split; auto. split; auto. split; auto. intros i d I. apply X6 in I. lia.
Qed.

Lemma builds_read {A B} : forall i c (m : M A) s (k : A -> M B) src P,
  (forall h, holds h src -> m h = Ok (s, h)) -> builds i c (k s) src P -> builds i c (mbind m k) src P.
Proof. intros i c m s k src P E H h F L Hh Bd C. unfold mbind. rewrite E by auto. auto. Qed.

Lemma builds_own {A B} : forall i c (m : M A) s (k : A -> M B) src P,
  (forall h, cells h i = Some c -> m h = Ok (s, h)) -> builds i c (k s) src P -> builds i c (mbind m k) src P.
Proof. intros i c m s k src P E H h F L Hh Bd C. unfold mbind. rewrite E by auto. auto. Qed.

Lemma builds_store {B} : forall i c c' (k : unit -> M B) src P,
  builds i c' (k tt) src P -> builds i c (mbind (store i c') k) src P.
Proof.
  intros i c c' k src P H h F L Hh Bd C. unfold mbind, store. rewrite C.
  set (h1 := mkHeap (next h) (set (cells h) i (Some c'))).
  assert (X : forall j, j <> i -> cells h1 j = cells h j).
  { intros j D. unfold h1, set. simpl. apply Nat.eqb_neq in D. rewrite D. auto. }
  destruct (H h1) as (a & l & h' & E & X1 & X2 & X3 & X4 & X5 & X6 & Q).
  - intros j d. unfold h1, set. simpl. destruct (j =? i)%nat eqn:E.
    + apply Nat.eqb_eq in E. lia.
    + intros D. apply F in D. lia.
  - auto.
  - intros j d I. rewrite X; auto. apply Bd in I. lia.
  - auto.
  - unfold h1, set. simpl. rewrite Nat.eqb_refl. auto.
  - exists a, l, h'. split; auto. split; auto. split; auto. split; auto.
    intros j L' D. rewrite X3; auto.
Qed.

Lemma builds_ret {A} : forall i c (a : A) src (P : A -> blocks -> Prop), P a [(i, c)] -> builds i c (ret a) src P.
Proof.
  intros i c a src P H h F L Hh Bd C. exists a, [(i, c)], h. split; auto. split; auto. split; auto. split; auto.
  split; [apply holds_cons; split; auto; intros ? ? []|]. split; [simpl; repeat constructor; auto|].
  split; auto. intros j d [E|[]]. left. congruence.
Qed.

Lemma builds_part {A B} : forall i c (m : M A) (k : A -> M B) src (P1 : A -> blocks -> Prop) P,
  makes m src P1 ->
  (forall a l1, P1 a l1 -> builds i c (k a) src (fun b l2 => P b (l1 ++ l2))) ->
  builds i c (mbind m k) src P.
Proof.
  intros i c m k src P1 P H K h F L Hh Bd C.
  destruct (H h F Hh) as (a & l1 & h1 & E1 & (X1 & X2 & X3) & (N1 & N2 & N3) & Q1).
  destruct (K a l1 Q1 h1 X3) as (b & l2 & h2 & E2 & Y1 & Y2 & Y3 & Y4 & Y5 & Y6 & Q2).
  - lia.
  - intros j d I. rewrite X2; auto. eapply F; eauto.
  - auto.
  - rewrite X2; auto.
  - exists b, (l1 ++ l2), h2. unfold mbind. rewrite E1. split; auto. split; [lia|]. split; auto. split.
    + intros j L' D. rewrite Y3 by lia. auto.
    + split; [|split; [|split; auto]].
      * apply holds_app. split; auto. intros j d I. assert (I' := N3 _ _ I). rewrite Y3 by lia. auto.
      * rewrite map_app. apply NoDup_app_intro; auto. intros x I1 I2.
        apply in_fst in I1. apply in_fst in I2. destruct I1 as (? & I1), I2 as (? & I2).
        apply N3 in I1. apply Y6 in I2. lia.
      * intros j d I. apply in_app_or in I. destruct I as [I|I]; [apply N3 in I|apply Y6 in I]; lia.
Qed.

Lemma builds_ext {A} : forall i c (m m' : M A) src P, (forall h, m h = m' h) -> builds i c m src P -> builds i c m' src P.
Proof. intros i c m m' src P E H h. rewrite <- E. apply H. Qed.
Lemma builds_assoc {A B C} : forall i c (m : M A) (k : A -> M B) (f : B -> M C) src P,
  builds i c (mbind m (fun x => mbind (k x) f)) src P -> builds i c (mbind (mbind m k) f) src P.
Proof. intros. eapply builds_ext; [|exact H]. intros. symmetry. apply mbind_assoc. Qed.
Lemma makes_ext {A} : forall (m m' : M A) src P, (forall h, m h = m' h) -> makes m src P -> makes m' src P.
Proof. intros m m' src P E H h. rewrite <- E. apply H. Qed.
Lemma makes_assoc {A B C} : forall (m : M A) (k : A -> M B) (f : B -> M C) src P,
  makes (mbind m (fun x => mbind (k x) f)) src P -> makes (mbind (mbind m k) f) src P.
Proof. intros. eapply makes_ext; [|exact H]. intros. symmetry. apply mbind_assoc. Qed.

(** "[a] points to a new thing with property [Q]" *)
Definition copied {T} (id : T -> nat) (f : T -> blocks) (Q : T -> Prop) : ptr -> blocks -> Prop :=
  fun a l => exists x, a = Some (id x) /\ Permutation l (f x) /\ Q x.
Definition ocopied {T} (id : T -> nat) (f : T -> blocks) (Q : option T -> Prop) : ptr -> blocks -> Prop :=
  fun a l => exists o, a = addr id o /\ Permutation l (ocells f o) /\ Q o.

(** gcopy or gclone *)
Definition is_cp (cp : ptr -> M ptr) (b' : bool) : Prop :=
  forall i b v cs h, cells h i = Some (CGen b v cs) ->
  cp (Some i) h = mbind (new (CGen b' v [])) (fun j => ret (Some j)) h.

Lemma gcopy_cp : is_cp gcopy false.
Proof. intros i b v cs h H. unfold gcopy. unfold mbind at 1. rewrite (load_gen_eq _ _ _ _ _ H). auto. Qed.
Lemma gclone_cp : is_cp gclone true.
Proof. intros i b v cs h H. unfold gclone. unfold mbind at 1. rewrite (load_gen_eq _ _ _ _ _ H). auto. Qed.

Section Copy.
  Context (cp : ptr -> M ptr) (b' : bool) (CP : is_cp cp b').

  Lemma cp_makes : forall i b v cs src, In (i, CGen b v cs) src ->
    makes (cp (Some i)) src (copied ag_id cells_gen (fun g => ag_v g = v /\ ag_clone g = b')).
  Proof.
    intros i b v cs src I h F Hh. rewrite (CP i b v cs h) by auto.
    revert h F Hh. change (makes (mbind (new (CGen b' v [])) (fun j => ret (Some j))) src
      (copied ag_id cells_gen (fun g => ag_v g = v /\ ag_clone g = b'))).
    eapply makes_bind with (P1 := fun j l => l = [(j, CGen b' v [])]); [apply makes_new; auto|].
    intros j l ->. apply makes_ret. exists (mkAG j b' v). auto.
  Qed.

  Lemma opt_gen : forall (o : option agen) src, incl (ocells cells_gen o) src ->
    makes (opt cp (addr ag_id o) None) src (ocopied ag_id cells_gen (fun o' => val_gen o' = val_gen o)).
  Proof.
    intros [[i b v]|] src I.
    - eapply makes_weaken; [|eapply cp_makes with (b := b) (v := v) (cs := []); apply I; left; auto].
      intros a l (g & -> & P & E & _). exists (Some g). split; auto. split; auto. simpl. congruence.
    - apply makes_ret. exists None. simpl. auto.
  Qed.

  Lemma opt_ell : forall (o : option aell) src, incl (ocells cells_ell o) src ->
    makes (opt cp (addr ae_id o) None) src
      (ocopied ae_id cells_ell (fun o' => val_ell o' = val_ell o)).
  Proof.
    intros [[[i b v] cs]|] src I.
    - eapply makes_weaken; [|eapply cp_makes with (b := b) (v := v) (cs := map ag_id cs); apply I; left; auto].
      intros a l (g & -> & P & E & _). exists (Some (mkAE g [])). split; auto. split; auto. simpl. congruence.
    - apply makes_ret. exists None. simpl. auto.
  Qed.

  Ltac rd_src I := let h := fresh in let H := fresh in
    intros h H; cbn; unfold mbind, load; rewrite (H _ _ I); reflexivity.

  Definition vq {T V} (v : T -> V) (x : T) : T -> Prop := fun y => v y = v x.

  Lemma point_makes : forall p src, incl (cells_point p) src ->
    makes (point_new_with cp (Some (ap_id p))) src (copied ap_id cells_point (fun q => val_point q = val_point p)).
  Proof.
    intros [i x y z] src I. unfold cells_point in I. cbn [ap_id ap_point ap_order ap_cofactor] in *.
    unfold point_new_with. apply builds_start. intros j.
    eapply builds_read; [rd_src (I _ (in_eq _ _))|]. cbn [p_point p_order p_cofactor].
    eapply builds_part; [apply opt_gen; intros q Hq; apply I; right; apply in_or_app; auto|].
    intros a1 l1 (o1 & -> & P1 & V1). apply builds_store.
    eapply builds_part; [apply opt_gen; intros q Hq; apply I; right; apply in_or_app; right; apply in_or_app; auto|].
    intros a2 l2 (o2 & -> & P2 & V2). apply builds_store.
    eapply builds_part; [apply opt_gen; intros q Hq; apply I; right; apply in_or_app; right; apply in_or_app; auto|].
    intros a3 l3 (o3 & -> & P3 & V3). apply builds_store.
    apply builds_ret. exists (mkAP j o1 o2 o3). split; auto. split.
    - unfold cells_point. cbn [ap_id ap_point ap_order ap_cofactor]. rewrite P1, P2, P3.
      rewrite !app_assoc. rewrite Permutation_app_comm. simpl. rewrite <- app_assoc. auto.
    - unfold val_point. simpl. congruence.
  Qed.

  (** the elements of an array, each copied *)
  Lemma arr_loop_builds {T B} : forall (id : T -> nat) (f : T -> blocks) (Q : T -> T -> Prop) (ce : ptr -> M ptr)
    sid a src (k : unit -> M B) es pre0 pre P,
    In (sid, CArr (map (addr id) (pre0 ++ es))) src -> length pre0 = length pre ->
    Forall (fun o => match o with None => False | Some x => makes (ce (Some (id x))) src (copied id f (Q x)) end) es ->
    (forall es' l, Forall2 (fun o o' => match o, o' with Some x, Some y => Q x y | _, _ => False end) es es' ->
       Permutation l (flat_map (ocells f) es') ->
       builds a (CArr (pre ++ map (addr id) es')) (k tt) src (fun r l' => P r (l ++ l'))) ->
    builds a (CArr (pre ++ repeat None (length es))) (mbind (arr_copy ce (length es) (length pre) (Some sid) a) k) src P.
  Proof.
    intros id f Q ce sid a src k. induction es as [|e es IH]; intros pre0 pre P I L F K.
    - simpl. apply (K [] []); constructor.
    - inversion F as [|? ? Fe Fs]; subst. destruct e as [x|]; [|contradiction].
      cbn [length arr_copy]. apply builds_assoc.
      eapply builds_read; [rd_src I|]. cbv beta.
      rewrite map_app, nth_error_app2 by (rewrite map_length; lia).
      rewrite map_length, L, Nat.sub_diag. cbn [map nth_error addr option_map].
      apply builds_assoc. eapply builds_part; [exact Fe|].
      intros q l1 (y & -> & P1 & Q1). cbv beta. apply builds_assoc.
      eapply builds_own with (s := pre ++ repeat None (length (Some x :: es))).
      { intros h C. cbn. unfold mbind, load. rewrite C. auto. }
      cbv beta. rewrite app_length. simpl repeat.
      replace (length pre <? length pre + _)%nat with true
        by (symmetry; apply Nat.ltb_lt; simpl; rewrite repeat_length; lia).
      rewrite upd_mid. apply builds_assoc, builds_store.
      assert (IH' := IH (pre0 ++ [Some x]) (pre ++ [Some (id y)]) (fun r l' => P r (l1 ++ l'))).
      rewrite !app_length in IH'. simpl in IH'. rewrite !Nat.add_1_r in IH'. rewrite <- !app_assoc in IH'. simpl in IH'.
      apply IH'; auto; clear IH'.
      intros es' l V Pl.
      assert (KK := K (Some y :: es') (l1 ++ l)). rewrite <- app_assoc. simpl.
      eapply builds_weaken; [|apply KK].
      + intros r l'. cbn beta. rewrite <- app_assoc. auto.
      + constructor; auto.
      + simpl. rewrite P1, Pl. auto.
  Qed.

  Lemma arr_makes {T} : forall (id : T -> nat) (f : T -> blocks) (Q : T -> T -> Prop) (ce : ptr -> M ptr) arr src,
    incl (cells_arr id f arr) src ->
    Forall (fun o => match o with None => False | Some x => makes (ce (Some (id x))) src (copied id f (Q x)) end) (aa_elems arr) ->
    makes (arr_new_with ce (Some (aa_id arr)) (length (aa_elems arr))) src
      (copied aa_id (cells_arr id f)
        (fun arr' => Forall2 (fun o o' => match o, o' with Some x, Some y => Q x y | _, _ => False end)
                       (aa_elems arr) (aa_elems arr'))).
  Proof.
    intros id f Q ce [sid es] src I F. cbn [aa_id aa_elems] in *.
    unfold arr_new_with. apply builds_start. intros a.
    apply (arr_loop_builds id f Q ce sid a src _ es [] []); auto.
    { apply I. left. auto. }
    intros es' l V P. simpl. apply builds_ret. exists (mkAA a es'). split; auto. split; auto.
    unfold cells_arr. simpl. rewrite P. rewrite Permutation_app_comm. auto.
  Qed.

  Lemma val_arr_eq {T V} : forall (v : T -> V) (arr arr' : aarr T),
    Forall2 (fun o o' => match o, o' with Some x, Some y => v y = v x | _, _ => False end) (aa_elems arr) (aa_elems arr') ->
    val_arr v arr' = val_arr v arr /\ length (aa_elems arr') = length (aa_elems arr) /\ full (fun _ => True) arr'.
  Proof.
    intros v [i es] [j es'] H. simpl in *. unfold val_arr, full. simpl. induction H; simpl; auto.
    destruct IHForall2 as (E1 & E2 & E3). destruct x, y; try contradiction. simpl. repeat split; auto; congruence.
  Qed.

  Lemma sub_makes : forall s src, ok_sub s -> full_sub s -> incl (cells_sub s) src ->
    makes (sub_new_with cp (Some (as_id s))) src
      (copied as_id cells_sub (fun q => val_sub q = val_sub s /\ ok_sub q /\ full_sub q)).
  Proof.
    intros [i g n ps] src OK FU I. unfold ok_sub, full_sub, cells_sub in *. cbn [as_id as_gen as_n as_points] in *.
    unfold sub_new_with. apply builds_start. intros j.
    eapply builds_read; [rd_src (I _ (in_eq _ _))|]. cbn [g_generator g_npoints g_points].
    eapply builds_part with (P1 := ocopied ap_id cells_point (fun o => option_map val_point o = option_map val_point g)).
    { destruct g as [p|]; simpl.
      - eapply makes_weaken; [|apply point_makes; intros q Hq; apply I; right; apply in_or_app; auto].
        intros a l (q & -> & P & V). exists (Some q). split; auto. split; auto. simpl. congruence.
      - apply makes_ret. exists None. simpl. auto. }
    intros a1 l1 (o1 & -> & P1 & V1). apply builds_store.
    destruct ps as [ps|]; cbn [addr option_map ok_opt] in *.
    - subst n. apply builds_assoc. eapply builds_part.
      { eapply (arr_makes ap_id cells_point (fun x y => val_point y = val_point x)).
        - intros q Hq. apply I. right. apply in_or_app. left. exact Hq.
        - unfold full in FU. apply Forall_forall. intros o Ho. rewrite Forall_forall in FU. assert (FO := FU o Ho).
          destruct o as [p|]; auto. apply point_makes. intros q Hq. apply I. right. apply in_or_app. left.
          right. apply in_flat_map. exists (Some p). auto. }
      intros a2 l2 (arr & -> & P2 & V2). apply builds_store. apply builds_ret.
      destruct (val_arr_eq _ _ _ V2) as (E1 & E2 & E3).
      exists (mkAS j o1 (length (aa_elems ps)) (Some arr)). split; auto. split.
      + unfold cells_sub. cbn [as_id as_gen as_n as_points addr option_map ocells]. rewrite P1, P2.
        rewrite app_assoc. rewrite Permutation_app_comm. simpl. rewrite Permutation_app_comm. auto.
      + unfold val_sub. simpl. split; [congruence|]. split; auto.
    - apply builds_ret. exists (mkAS j o1 0 None). split; auto. split.
      + unfold cells_sub. simpl. rewrite P1. rewrite Permutation_app_comm. auto.
      + unfold val_sub. simpl. split; [congruence|]. split; auto.
  Qed.

  Lemma bits_makes : forall b src, ok_bits b -> incl (cells_bits b) src ->
    makes (bits_copy (Some (ab_id b))) src (copied ab_id cells_bits (fun q => val_bits q = val_bits b /\ ok_bits q)).
  Proof.
    clear cp b' CP.
    intros [i bf sg bl al] src OK I. unfold ok_bits, cells_bits in *. cbn [ab_id ab_buf ab_sign ab_bitlen ab_allocated] in *.
    unfold bits_copy. eapply makes_read; [rd_src (I _ (in_eq _ _))|].
    cbn [b_bits b_sign b_bitlen b_allocated].
    eapply makes_bind with (P1 := ocopied fst cells_buf (fun o => match o with None => al = 0 | Some (_, l) => al = Z.of_nat (length l) end
      /\ match o with None => [] | Some (_, l) => l end = match bf with None => [] | Some (_, l) => l end)).
    - destruct (al =? 0) eqn:E.
      + apply Z.eqb_eq in E. subst al. apply makes_ret. exists None. split; auto. split; auto. split; auto.
        destruct bf as [[? [|]]|]; auto. simpl in OK. lia.
      + apply Z.eqb_neq in E. destruct bf as [[j l]|]; [|congruence].
        assert (Ib : In (j, CBytes l) src) by (apply I; right; left; auto).
        cbn [addr option_map fst]. eapply makes_read; [rd_src Ib|]. cbv beta.
        subst al. rewrite Z.ltb_irrefl, Nat2Z.id, firstn_all.
        eapply makes_bind with (P1 := fun a' l' => l' = [(a', CBytes l)]); [apply makes_new; auto|].
        intros a' l' ->. apply makes_ret. exists (Some (a', l)). auto.
    - intros a l1 (o & -> & P & V1 & V2).
      eapply makes_bind with (P1 := fun a' l' => l' = [(a', CBits (mkBits (addr fst o) sg bl al))]); [apply makes_new; auto|].
      intros a' l' ->. apply makes_ret. exists (mkAB a' o sg bl al). split; auto. split.
      + unfold cells_bits. simpl. rewrite P. rewrite Permutation_app_comm. auto.
      + unfold val_bits. simpl. split; auto. f_equal. auto.
  Qed.

  Lemma seed_makes : forall s src, ok_seed s -> incl (cells_seed s) src ->
    makes (mbind seed_new (fun r => seed_copy (Some (ad_id s)) r)) src
      (copied ad_id cells_seed (fun q => val_seed q = val_seed s /\ ok_seed q /\ ad_type q = SNone /\ ad_part q = AZero)).
  Proof.
    clear cp b' CP.
    intros [i bs hs t pt] src (O1 & O2 & _ & _) I. unfold cells_seed in *. cbn [ad_id ad_bits ad_hash ad_type ad_part] in *.
    unfold seed_new. apply makes_assoc. apply builds_start. intros j.
    change (builds j (CSeed (mkSeed None None SNone UZero)) (seed_copy (Some i) (Some j)) src
      (copied ad_id cells_seed (fun q => val_seed q = val_seed (mkAD i bs hs t pt) /\ ok_seed q /\ ad_type q = SNone /\ ad_part q = AZero))).
    unfold seed_copy. eapply builds_read; [rd_src (I _ (in_eq _ _))|]. cbn [s_seed s_hash20].
    assert (K : forall o l1, Permutation l1 (ocells cells_bits o) -> option_map val_bits o = option_map val_bits bs ->
      ok_opt ok_bits o ->
      builds j (CSeed (mkSeed (addr ab_id o) None SNone UZero))
        (let* _ := match addr fst hs with
                   | None => ret tt
                   | Some _ => let* l := load_bytes (addr fst hs) in
                        if (length l <? 20)%nat then ub
                        else let* i := new (CBytes (firstn 20 l)) in
                             let* d := load_seed (Some j) in
                             put_seed (Some j) (mkSeed (s_seed d) (Some i) (s_type d) (s_part d))
                   end in ret (Some j)) src
        (fun b l2 => copied ad_id cells_seed (fun q => val_seed q = val_seed (mkAD i bs hs t pt) /\ ok_seed q /\ ad_type q = SNone /\ ad_part q = AZero) b (l1 ++ l2))).
    { intros o l1 P V OKb. destruct hs as [[hj hl]|]; cbn [addr option_map fst ok_opt snd] in *.
      - apply builds_assoc. eapply builds_read.
        { intros h H. cbn. unfold mbind, load.
          rewrite (H hj (CBytes hl)); [reflexivity|]. apply I. right. apply in_or_app. right. left. auto. }
        cbv beta. rewrite O2. replace (20 <? 20)%nat with false by auto. rewrite <- O2, firstn_all.
        apply builds_assoc. eapply builds_part with (P1 := fun a' l' => l' = [(a', CBytes hl)]); [apply makes_new; auto|].
        intros a' l' ->. apply builds_assoc. eapply builds_own.
        { intros h C. cbn. unfold mbind, load. rewrite C. reflexivity. }
        cbv beta. cbn [s_seed s_type s_part put_seed]. apply builds_store. apply builds_ret.
        exists (mkAD j o (Some (a', hl)) SNone AZero). split; auto. split.
        + unfold cells_seed. simpl. rewrite P. symmetry. rewrite Permutation_cons_append, <- app_assoc. simpl. auto.
        + unfold val_seed, ok_seed. simpl. split; [congruence|]. auto 8.
      - apply builds_ret. exists (mkAD j o None SNone AZero). split; auto. split.
        + unfold cells_seed. simpl. rewrite P. rewrite Permutation_app_comm. simpl. rewrite app_nil_r. auto.
        + unfold val_seed, ok_seed. simpl. split; [congruence|]. auto 8. }
    destruct bs as [b|]; cbn [addr option_map].
    - apply builds_assoc. eapply builds_part.
      { apply bits_makes; [exact O1|]. intros q Hq. apply I. right. apply in_or_app. left. exact Hq. }
      intros a l (q & -> & P & V & OKq). apply builds_assoc. eapply builds_own.
      { intros h C. cbn. unfold mbind, load. rewrite C. reflexivity. }
      cbv beta. cbn [s_hash20 s_type s_part put_seed]. apply builds_store.
      apply (K (Some q)); simpl; auto. congruence.
    - apply (K None []); simpl; auto.
  Qed.
End Copy.

Lemma perm_curve {A} : forall (b1 b2 b3 b4 b5 b6 b7 : list A) x,
  Permutation (b1 ++ b2 ++ b3 ++ b4 ++ b5 ++ b6 ++ b7 ++ [x]) (x :: b1 ++ b7 ++ b5 ++ b2 ++ b3 ++ b4 ++ b6).
Proof.
  intros. rewrite !app_assoc. rewrite Permutation_app_comm. simpl. constructor. rewrite <- !app_assoc.
  apply Permutation_app_head. rewrite !app_assoc. rewrite Permutation_app_comm. rewrite <- !app_assoc.
  apply Permutation_app_head.
  replace (b2 ++ b3 ++ b4 ++ b5 ++ b6) with (((b2 ++ b3 ++ b4) ++ b5) ++ b6) by (rewrite <- !app_assoc; auto).
  replace (b5 ++ b2 ++ b3 ++ b4 ++ b6) with ((b5 ++ (b2 ++ b3 ++ b4)) ++ b6) by (rewrite <- !app_assoc; auto).
  apply Permutation_app_tail. apply Permutation_app_comm.
Qed.

Lemma curve_makes : forall cp b' seedcp c src, is_cp cp b' ->
  (forall p, seedcp p = mbind seed_new (fun r => seed_copy p r)) ->
  ok_curve c -> full_curve c -> incl (cells_curve c) src ->
  makes (curve_new_with cp seedcp (Some (ac_id c))) src
    (copied ac_id cells_curve (fun q => val_curve q = val_curve c /\ ok_curve q /\ full_curve q)).
Proof.
  intros cp b' seedcp [i sd f a b e o g n mt] src CP SC (O1 & O2 & _) FU I.
  unfold full_curve, cells_curve, curve_of in *. cbn [ac_id ac_seed ac_field ac_a ac_b ac_curve ac_order ac_gens ac_n ac_meta] in *.
  unfold curve_new_with. apply builds_start. intros j.
  assert (J : forall l l1 l2, l = l1 ++ l2 -> incl l src -> incl l1 src /\ incl l2 src).
  { intros l l1 l2 -> H. split; intros q Hq; apply H, in_or_app; auto. }
  assert (I0 := I). apply incl_cons_inv in I. destruct I as (Ih & I).
  apply (J _ _ _ eq_refl) in I. destruct I as (I1 & I).
  apply (J _ _ _ eq_refl) in I. destruct I as (I2 & I).
  apply (J _ _ _ eq_refl) in I. destruct I as (I3 & I).
  apply (J _ _ _ eq_refl) in I. destruct I as (I4 & I).
  apply (J _ _ _ eq_refl) in I. destruct I as (I5 & I).
  apply (J _ _ _ eq_refl) in I. destruct I as (I6 & I).
  apply (J _ _ _ eq_refl) in I. destruct I as (I7 & I).
  eapply builds_read.
  { intros h H. cbn. unfold mbind, load. rewrite (H _ _ Ih). reflexivity. }
  cbn [c_seed c_field c_a c_b c_curve c_order c_generators c_ngens].
  eapply builds_part with (P1 := ocopied ad_id cells_seed (fun q => option_map val_seed q = option_map val_seed sd /\ ok_opt ok_seed q)).
  { destruct sd as [s|]; simpl.
    - rewrite SC. eapply makes_weaken; [|apply seed_makes; auto].
      intros x l (q & -> & P & V & OK & _). exists (Some q). split; auto. split; auto. simpl. split; auto. congruence.
    - apply makes_ret. exists None. simpl. auto. }
  intros x1 l1 (sd' & -> & P1 & V1 & OK1). apply builds_store.
  eapply builds_part; [eapply opt_gen; eauto|]. intros x2 l2 (f' & -> & P2 & V2). apply builds_store.
  eapply builds_part; [eapply opt_gen; eauto|]. intros x3 l3 (a' & -> & P3 & V3). apply builds_store.
  eapply builds_part; [eapply opt_gen; eauto|]. intros x4 l4 (bb & -> & P4 & V4). apply builds_store.
  eapply builds_part; [eapply opt_ell; eauto|]. intros x5 l5 (e' & -> & P5 & V5). apply builds_store.
  eapply builds_part; [eapply opt_gen; eauto|]. intros x6 l6 (o' & -> & P6 & V6). apply builds_store.
  destruct g as [g|]; cbn [addr option_map ok_opt] in *.
  - destruct O2 as (-> & O2). apply builds_assoc. eapply builds_part.
    { eapply (arr_makes as_id cells_sub (fun x y => val_sub y = val_sub x /\ ok_sub y /\ full_sub y)); eauto.
      apply Forall_forall. intros s Hs. unfold full in FU. rewrite Forall_forall in FU, O2.
      assert (FS := FU s Hs). assert (OS := O2 s Hs). destruct s as [s|]; auto.
      eapply sub_makes; eauto. intros q Hq. apply I2. right. apply in_flat_map. exists (Some s). auto. }
    intros x7 l7 (g' & -> & P7 & V7). apply builds_store. apply builds_ret.
    assert (W : val_arr val_sub g' = val_arr val_sub g /\ length (aa_elems g') = length (aa_elems g)).
    { destruct (val_arr_eq val_sub g g') as (W1 & W2 & _); auto.
      clear - V7. induction V7; constructor; auto. destruct x, y; tauto. }
    assert (W' : Forall (ok_opt ok_sub) (aa_elems g') /\ full full_sub g').
    { clear - V7. unfold full. induction V7; split; constructor; try tauto; destruct x, y; simpl; tauto. }
    exists (mkAC j sd' f' a' bb e' o' (Some g') (length (aa_elems g)) []). split; auto. split.
    + unfold cells_curve, curve_of. cbn [ac_id ac_seed ac_field ac_a ac_b ac_curve ac_order ac_gens ac_n ac_meta flat_map addr option_map ocells].
      replace (meta_of []) with zero_meta by auto. rewrite app_nil_r.
      rewrite P1, P2, P3, P4, P5, P6, P7.
      apply perm_curve.
    + unfold val_curve, ok_curve, full_curve. cbn [ac_id ac_seed ac_field ac_a ac_b ac_curve ac_order ac_gens ac_n ac_meta option_map ok_opt].
      destruct W as (W1 & W2). rewrite V1, V2, V3, V4, V5, V6, W1. split; auto. split; [|tauto].
      split; auto. split; [split; [auto|tauto]|constructor].
  - apply builds_ret. exists (mkAC j sd' f' a' bb e' o' None 0 []). split; auto. split.
    + unfold cells_curve, curve_of. cbn [ac_id ac_seed ac_field ac_a ac_b ac_curve ac_order ac_gens ac_n ac_meta flat_map addr option_map ocells].
      replace (meta_of []) with zero_meta by auto. rewrite app_nil_r.
      rewrite P1, P2, P3, P4, P5, P6. apply (perm_curve _ _ _ _ _ _ []).
    + unfold val_curve, ok_curve, full_curve. cbn [ac_id ac_seed ac_field ac_a ac_b ac_curve ac_order ac_gens ac_n ac_meta option_map ok_opt].
      rewrite V1, V2, V3, V4, V5, V6. split; auto.
Qed.
