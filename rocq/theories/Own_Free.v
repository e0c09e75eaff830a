(** Proofs about release of memory: a small program logic for [Own_Model]. *)
From Coq Require Import Permutation.
From Verif Require Import Base Own_Model Own_Spec.
Local Open Scope Z_scope.

Lemma owned_in : forall l i, In i (owned l) <-> exists c, In (i, c) l /\ on_stack c = false.
Proof.
  intros. unfold owned. rewrite in_map_iff. split.
  - intros ([j c] & <- & H). apply filter_In in H. destruct H as (H & E). simpl in *.
    exists c. split; auto. destruct (on_stack c); simpl in *; congruence.
  - intros (c & H & E). exists (i, c). split; auto. apply filter_In. simpl. rewrite E. auto.
Qed.

Lemma owned_app : forall l1 l2, owned (l1 ++ l2) = owned l1 ++ owned l2.
Proof. intros. unfold owned. rewrite filter_app, map_app. auto. Qed.

Lemma owned_perm : forall l1 l2, Permutation l1 l2 -> Permutation (owned l1) (owned l2).
Proof.
  intros. unfold owned. apply Permutation_map. induction H; simpl.
  - constructor.
  - destruct (negb _); [constructor|]; auto.
  - destruct (negb _), (negb _); try constructor; auto using Permutation_refl.
  - eauto using Permutation_trans.
Qed.

Lemma holds_app : forall h l1 l2, holds h (l1 ++ l2) <-> holds h l1 /\ holds h l2.
Proof.
  intros. unfold holds. split.
  - intros H. split; intros; apply H, in_or_app; auto.
  - intros (H1 & H2) i c H. apply in_app_or in H. destruct H; auto.
Qed.

Lemma holds_cons : forall h i c l, holds h ((i, c) :: l) <-> cells h i = Some c /\ holds h l.
Proof.
  intros. unfold holds. simpl. split.
  - intros H. split; intros; apply H; auto.
  - intros (H1 & H2) j d [E|H]; auto. assert (i = j /\ c = d) as (<- & <-) by (split; congruence). auto.
Qed.

Lemma holds_incl : forall h l l', incl l l' -> holds h l' -> holds h l.
Proof. unfold holds, incl. auto. Qed.

(** an owned block of one part is no block of a separate part *)
Lemma separate : forall h l1 l2, holds h (l1 ++ l2) -> NoDup (owned (l1 ++ l2)) ->
  forall i c, In (i, c) l2 -> ~ In i (owned l1).
Proof.
  intros h l1 l2 H N i c I J. apply owned_in in J. destruct J as (d & J & E).
  assert (cells h i = Some c) by (apply H, in_or_app; auto).
  assert (cells h i = Some d) by (apply H, in_or_app; auto).
  assert (c = d) by congruence. subst d.
  rewrite owned_app in N.
  assert (A : In i (owned l1)) by (apply owned_in; eauto).
  assert (B : In i (owned l2)) by (apply owned_in; eauto).
  revert N A B. clear. induction (owned l1); simpl; intros; [tauto|].
  inversion N; subst. destruct A as [->|A]; auto. apply H1, in_or_app. auto.
Qed.

(** What releasing [l] leaves: the owned blocks are gone, an object on the stack has an empty cache,
    anything else is as it was. *)
Definition after_free (l : blocks) (h h' : heap) : Prop :=
  next h' = next h /\
  (forall i, In i (owned l) -> cells h' i = None) /\
  (forall i v cs, In (i, CGen false v cs) l -> cells h' i = Some (CGen false v [])) /\
  (forall i, ~ In i (map fst l) -> cells h' i = cells h i).

Lemma stack_or_owned : forall l i, In i (map fst l) ->
  In i (owned l) \/ exists v cs, In (i, CGen false v cs) l.
Proof.
  intros l i I. apply in_map_iff in I. destruct I as ([j c] & <- & I). simpl.
  destruct (on_stack c) eqn:E.
  - right. destruct c; try discriminate. destruct clone; try discriminate. eauto.
  - left. apply owned_in. eauto.
Qed.

Lemma owned_fst : forall l i, In i (owned l) -> In i (map fst l).
Proof. intros l i I. apply owned_in in I. destruct I as (c & I & _). apply in_map_iff. exists (i, c). auto. Qed.

Lemma stack_not_owned : forall h l i v cs, holds h l -> In (i, CGen false v cs) l -> ~ In i (owned l).
Proof.
  intros h l i v cs Hh I J. apply owned_in in J. destruct J as (c & J & S).
  apply Hh in I. apply Hh in J. assert (c = CGen false v cs) by congruence. subst. discriminate.
Qed.

Definition frees {A} (m : M A) (r : A) (l : blocks) : Prop :=
  forall h, holds h l -> NoDup (owned l) -> exists h', m h = Ok (r, h') /\ after_free l h h'.

Definition plain (l : blocks) : Prop := forall i v cs, In (i, CGen false v cs) l -> cs = [].

Lemma frees_ext {A} : forall (m m' : M A) r l, (forall h, m h = m' h) -> frees m r l -> frees m' r l.
Proof. intros m m' r l E H h. rewrite <- E. apply H. Qed.

Lemma frees_perm {A} : forall (m : M A) r l l', Permutation l l' -> frees m r l -> frees m r l'.
Proof.
  intros m r l l' P H h Hh N.
  assert (O := owned_perm _ _ P).
  destruct (H h) as (h' & E & N' & A0 & B0 & C0).
  - intros i c I. apply Hh. eapply Permutation_in; eauto.
  - eapply Permutation_NoDup; [|exact N]. apply Permutation_sym; auto.
  - exists h'. split; auto. split; auto. split; [|split].
    + intros i I. apply A0. eapply Permutation_in; [apply Permutation_sym|]; eauto.
    + intros i v cs I. eapply B0. eapply Permutation_in; [apply Permutation_sym|]; eauto.
    + intros i I. apply C0. intro J. apply I. eapply Permutation_in; [apply Permutation_map|]; eauto.
Qed.

Lemma mbind_assoc {A B C} : forall (m : M A) (k : A -> M B) (f : B -> M C) h,
  mbind (mbind m k) f h = mbind m (fun x => mbind (k x) f) h.
Proof. intros. unfold mbind. destruct (m h) as [[a h']| | |]; auto. Qed.

Lemma frees_assoc {A B C} : forall (m : M A) (k : A -> M B) (f : B -> M C) r l,
  frees (mbind m (fun x => mbind (k x) f)) r l -> frees (mbind (mbind m k) f) r l.
Proof. intros. eapply frees_ext; [|exact H]. intros. symmetry. apply mbind_assoc. Qed.

Lemma frees_ret {A} : forall (r : A), frees (ret r) r [].
Proof. intros r h _ _. exists h. split; auto. split; auto. split; [|split]; simpl; tauto. Qed.

Lemma frees_ret_bind {A B} : forall (a : A) (k : A -> M B) r l, frees (k a) r l -> frees (mbind (ret a) k) r l.
Proof. auto. Qed.

(** one part after another *)
Lemma frees_seq {A B} : forall (m : M A) a (k : A -> M B) r l1 l2,
  (plain l1 \/ plain l2) -> frees m a l1 -> frees (k a) r l2 -> frees (mbind m k) r (l1 ++ l2).
Proof.
  intros m a k r l1 l2 P H1 H2 h Hh N.
  assert (S1 := separate _ _ _ Hh N).
  assert (S2 : forall i c, In (i, c) l1 -> ~ In i (owned l2)).
  { assert (Hh' : holds h (l2 ++ l1)) by (apply holds_app in Hh; apply holds_app; tauto).
    apply (separate _ _ _ Hh'). rewrite owned_app in *. eapply Permutation_NoDup; [apply Permutation_app_comm|auto]. }
  assert (Hboth := Hh). apply holds_app in Hh. destruct Hh as (Hh1 & Hh2).
  destruct (H1 h Hh1) as (h1 & E1 & N1 & A1 & B1 & C1).
  { rewrite owned_app in N. revert N. generalize (owned l1) as x. generalize (owned l2) as y. clear.
    induction x; simpl; intros; [constructor|]. inversion N; subst. constructor; auto.
    intro. apply H1, in_or_app. auto. }
  destruct (H2 h1) as (h2 & E2 & N2 & A2 & B2 & C2).
  { intros i c I. destruct (in_dec Nat.eq_dec i (map fst l1)) as [J|J].
    - apply stack_or_owned in J. destruct J as [J|(v & cs & J)]; [destruct (S1 i c I J)|].
      rewrite (B1 _ _ _ J). assert (X := Hh1 _ _ J). rewrite (Hh2 _ _ I) in X.
      assert (c = CGen false v cs) by congruence. subst c.
      destruct P as [P|P]; [rewrite (P _ _ _ J)|rewrite (P _ _ _ I)]; auto.
    - rewrite C1; auto. }
  { rewrite owned_app in N. revert N. generalize (owned l1) as x. generalize (owned l2) as y. clear.
    induction x; simpl; intros; auto. inversion N; subst. auto. }
  exists h2. unfold mbind. rewrite E1. split; auto. split; [congruence|]. split; [|split].
  - intros i I. rewrite owned_app in I. apply in_app_or in I.
    destruct (in_dec Nat.eq_dec i (owned l2)) as [J|J]; auto.
    destruct I as [I|I]; [|tauto].
    rewrite C2; auto. intro K. apply in_map_iff in K. destruct K as ([j c] & <- & K). exact (S1 _ _ K I).
  - intros i v cs I. apply in_app_or in I. destruct I as [I|I]; eauto.
    destruct (in_dec Nat.eq_dec i (map fst l2)) as [J|J].
    + apply stack_or_owned in J. destruct J as [J|(v' & cs' & J)]; [destruct (S2 _ _ I J)|].
      rewrite (B2 _ _ _ J). assert (X := Hh1 _ _ I). rewrite (Hh2 _ _ J) in X. congruence.
    + rewrite C2; eauto.
  - intros i I. rewrite map_app in I. rewrite C2, C1; auto; intro; apply I, in_or_app; auto.
Qed.

(** reading a block *)
Lemma frees_read {A B} : forall i c (m : M A) s (k : A -> M B) r l,
  (forall h, cells h i = Some c -> m h = Ok (s, h)) ->
  frees (k s) r ((i, c) :: l) -> frees (mbind m k) r ((i, c) :: l).
Proof.
  intros i c m s k r l E H h Hh N. destruct (H h Hh N) as (h' & E' & A'). exists h'. split; auto.
  unfold mbind. rewrite E; auto. apply holds_cons in Hh. tauto.
Qed.

(** releasing a part while holding a block *)
Lemma frees_part {A B} : forall i c (m : M A) a (k : A -> M B) r l1 l2,
  (plain l1 \/ plain ((i, c) :: l2)) -> frees m a l1 -> frees (k a) r ((i, c) :: l2) ->
  frees (mbind m k) r ((i, c) :: l1 ++ l2).
Proof.
  intros. eapply frees_perm; [|eapply frees_seq; eauto].
  apply Permutation_sym, Permutation_middle.
Qed.

(** overwriting an owned block *)
Lemma frees_store {B} : forall i c c' (k : unit -> M B) r l,
  on_stack c = false -> on_stack c' = false ->
  frees (k tt) r ((i, c') :: l) -> frees (mbind (store i c') k) r ((i, c) :: l).
Proof.
  intros i c c' k r l S S' H h Hh N.
  set (h1 := mkHeap (next h) (set (cells h) i (Some c'))).
  assert (O : forall d, owned ((i, d) :: l) = if on_stack d then owned l else i :: owned l)
    by (intros d; unfold owned; simpl; destruct (on_stack d); auto).
  rewrite O, S in N. inversion N as [|? ? NI ND]; subst.
  apply holds_cons in Hh. destruct Hh as (Hi & Hl).
  assert (D : forall j d, In (j, d) l -> j <> i).
  { intros j d I ->. apply NI, owned_in. exists d. split; auto.
    rewrite (Hl _ _ I) in Hi. congruence. }
  destruct (H h1) as (h2 & E2 & N2 & A2 & B2 & C2).
  { apply holds_cons. split.
    - unfold h1, set. simpl. rewrite Nat.eqb_refl. auto.
    - intros j d I. unfold h1, set. simpl. destruct (j =? i)%nat eqn:E; auto.
      apply Nat.eqb_eq in E. exfalso. eapply D; eauto. }
  { rewrite O, S'. auto. }
  exists h2. unfold mbind, store. rewrite Hi. fold h1. split; auto.
  rewrite !O, S' in A2. split; auto. rewrite !O, S. split; auto. split.
  - intros j v cs [I|I].
    + assert (c = CGen false v cs) by congruence. subst. discriminate.
    + eapply B2. right. eauto.
  - intros j J. rewrite C2; auto. unfold h1, set. simpl. destruct (j =? i)%nat eqn:E; auto.
    apply Nat.eqb_eq in E. exfalso. apply J. left. auto.
Qed.

(** releasing the last block *)
Definition is_gen (c : cell) : bool := match c with CGen _ _ _ => true | _ => false end.

Lemma frees_block : forall i c, is_gen c = false -> frees (try_free i) tt [(i, c)].
Proof.
  intros i c G h Hh N. apply holds_cons in Hh. destruct Hh as (Hi & _).
  unfold try_free, mbind, load. rewrite Hi.
  assert (S : on_stack c = false) by (destruct c; simpl in *; auto; discriminate).
  assert (E : (match c with CGen _ _ _ => ub | _ => free i end) h = free i h) by (destruct c; auto; discriminate).
  rewrite E. unfold free. rewrite Hi. eexists. split; [reflexivity|].
  unfold after_free, owned. simpl. rewrite S. simpl. split; auto. split; [|split].
  - intros j [<-|[]]. unfold set. rewrite Nat.eqb_refl. auto.
  - intros j v cs [I|[]]. assert (c = CGen false v cs) by congruence. subst. discriminate.
  - intros j J. unfold set. destruct (j =? i)%nat eqn:E'; auto.
    apply Nat.eqb_eq in E'. exfalso. apply J. auto.
Qed.

Lemma frees_last {B} : forall i c (r : B), is_gen c = false -> frees (mbind (try_free i) (fun _ => ret r)) r [(i, c)].
Proof.
  intros. change [(i, c)] with ([(i, c)] ++ []). eapply frees_seq with (a := tt).
  - right. intros ? ? ? [].
  - apply frees_block. auto.
  - apply frees_ret.
Qed.

Lemma plain_app : forall l1 l2, plain l1 -> plain l2 -> plain (l1 ++ l2).
Proof. intros l1 l2 H1 H2 i v cs I. apply in_app_or in I. destruct I; eauto. Qed.
Lemma plain_nil : plain [].
Proof. intros ? ? ? []. Qed.
Lemma plain_cons : forall i c l, is_gen c = false -> plain l -> plain ((i, c) :: l).
Proof.
  intros i c l G H j v cs [E|I]; eauto. assert (c = CGen false v cs) by congruence. subst. discriminate.
Qed.
Lemma plain_gen : forall g, plain (cells_gen g).
Proof. intros g i v cs [E|[]]. congruence. Qed.
Lemma plain_opt {T} : forall (f : T -> blocks) o, (forall x, plain (f x)) -> plain (ocells f o).
Proof. intros. destruct o; simpl; auto using plain_nil. Qed.
Lemma plain_flat {T} : forall (f : T -> blocks) l, (forall x, plain (f x)) -> plain (flat_map f l).
Proof. intros. induction l; simpl; auto using plain_nil, plain_app. Qed.
Lemma plain_buf : forall b, plain (cells_buf b).
Proof. intros b. apply plain_cons; auto using plain_nil. Qed.
Lemma plain_bits : forall b, plain (cells_bits b).
Proof. intros b. apply plain_cons; auto using plain_opt, plain_buf. Qed.
Lemma plain_point : forall p, plain (cells_point p).
Proof. intros p. apply plain_cons; auto 6 using plain_app, plain_opt, plain_gen. Qed.
Lemma plain_arr {T} : forall id (f : T -> blocks) a, (forall x, plain (f x)) -> plain (cells_arr id f a).
Proof. intros. apply plain_cons; auto using plain_flat, plain_opt. Qed.
Lemma plain_points : forall a, plain (cells_points a).
Proof. intros. apply plain_arr, plain_point. Qed.
Lemma plain_sub : forall s, plain (cells_sub s).
Proof. intros s. apply plain_cons; auto 6 using plain_app, plain_opt, plain_point, plain_points. Qed.
Lemma plain_subs : forall a, plain (cells_subs a).
Proof. intros. apply plain_arr, plain_sub. Qed.
Lemma plain_part : forall p, plain (part_bits p).
Proof. destruct p; simpl; auto using plain_nil, plain_app, plain_opt, plain_bits. Qed.
Lemma plain_seed : forall s, plain (cells_seed s).
Proof.
  intros s. apply plain_cons; auto 10 using plain_app, plain_opt, plain_bits, plain_buf, plain_part, plain_flat, plain_gen.
Qed.
Global Hint Resolve plain_nil plain_cons plain_app plain_gen plain_opt plain_flat plain_buf plain_bits plain_point
  plain_arr plain_points plain_sub plain_subs plain_part plain_seed : plain.

(** PARI objects *)
Lemma load_gen_eq : forall i b v l h, cells h i = Some (CGen b v l) -> load_gen (Some i) h = Ok ((b, v, l), h).
Proof. intros. unfold load_gen, mbind, load. rewrite H. auto. Qed.

Lemma drop_eq : forall i b v l h, cells h i = Some (CGen b v l) -> drop (Some i) h = (if b then free i else ret tt) h.
Proof.
  intros. unfold drop, isclone. rewrite mbind_assoc. unfold mbind at 1. rewrite (load_gen_eq _ _ _ _ _ H).
  unfold mbind, ret. destruct b; auto. unfold gunclone, mbind. rewrite (load_gen_eq _ _ _ _ _ H). auto.
Qed.

Lemma drop_frees_gen : forall g, frees (drop (Some (ag_id g))) tt (cells_gen g).
Proof.
  intros [i b v] h Hh N. apply holds_cons in Hh. destruct Hh as (Hi & _). cbn [ag_id ag_clone ag_v] in *.
  rewrite (drop_eq _ _ _ _ _ Hi). destruct b.
  - unfold free. rewrite Hi. eexists. split; [reflexivity|].
    unfold after_free, owned. simpl. split; auto. split; [|split].
    + intros j [<-|[]]. unfold set. rewrite Nat.eqb_refl. auto.
    + intros j w cs [I|[]]. discriminate.
    + intros j J. unfold set. destruct (j =? i)%nat eqn:E'; auto.
      apply Nat.eqb_eq in E'. exfalso. apply J. auto.
  - eexists. split; [reflexivity|]. unfold after_free, owned. simpl. split; auto. split; [tauto|split; auto].
    intros j w cs [I|[]]. assert (i = j /\ v = w) as (<- & <-) by (split; congruence). auto.
Qed.

Lemma drop_frees : forall o, frees (drop (addr ag_id o)) tt (ocells cells_gen o).
Proof. destruct o; simpl; [apply drop_frees_gen|apply frees_ret]. Qed.

Lemma drop_all_frees : forall l, frees (drop_all (map ag_id l)) tt (flat_map cells_gen l).
Proof.
  induction l as [|g l IH].
  - apply frees_ret.
  - cbn [map flat_map drop_all]. eapply frees_seq with (a := tt); auto 10 with plain. apply drop_frees_gen.
Qed.

Lemma obj_free_frees : forall e,
  frees (mbind (obj_free (Some (ae_id e))) (fun _ => drop (Some (ae_id e)))) tt (cells_ell e).
Proof.
  intros [[i b v] cs]. unfold cells_ell, ae_id. simpl.
  intros h Hh N. assert (Hh0 := Hh). apply holds_cons in Hh. destruct Hh as (Hi & Hl).
  unfold mbind at 1. unfold obj_free. unfold mbind at 1. rewrite (load_gen_eq _ _ _ _ _ Hi).
  assert (ND : NoDup (owned (flat_map cells_gen cs))).
  { unfold owned in *. simpl in N. destruct b; simpl in N; auto. inversion N; auto. }
  destruct (drop_all_frees cs h Hl ND) as (h1 & E1 & N1 & A1 & B1 & C1).
  unfold mbind at 1. rewrite E1.
  assert (NI : ~ In i (owned (flat_map cells_gen cs))).
  { destruct b.
    - simpl in N. unfold owned in N. simpl in N. inversion N; auto.
    - intro I. apply owned_in in I. destruct I as (c & I & S). rewrite (Hl _ _ I) in Hi.
      assert (c = CGen false v (map ag_id cs)) by congruence. subst. discriminate. }
  assert (D1 : exists l', cells h1 i = Some (CGen b v l')).
  { destruct (in_dec Nat.eq_dec i (map fst (flat_map cells_gen cs))) as [J|J].
    - apply stack_or_owned in J. destruct J as [J|(w & l & J)]; [tauto|].
      rewrite (B1 _ _ _ J). rewrite (Hl _ _ J) in Hi.
      assert (false = b /\ w = v) as (<- & <-) by (split; congruence). eauto.
    - rewrite C1; eauto. }
  destruct D1 as (l' & D1). unfold store. rewrite D1.
  set (h2 := mkHeap (next h1) (set (cells h1) i (Some (CGen b v [])))).
  assert (D2 : cells h2 i = Some (CGen b v [])) by (unfold h2, set; simpl; rewrite Nat.eqb_refl; auto).
  destruct (drop_frees_gen (mkAG i b v) h2) as (h3 & E3 & N3 & A3 & B3 & C3).
  { apply holds_cons. split; auto. intros ? ? []. }
  { unfold owned. simpl. destruct b; simpl; repeat constructor; auto. }
  cbn [ag_id ag_clone ag_v] in *. unfold cells_gen in A3, B3, C3. cbn [ag_id ag_clone ag_v map fst] in A3, B3, C3.
  exists h3. split; auto.
  assert (X : forall j, j <> i -> cells h3 j = cells h1 j).
  { intros j D. rewrite C3 by (intros [J|[]]; congruence). unfold h2, set. simpl. apply Nat.eqb_neq in D. rewrite D. auto. }
  split; [simpl in *; congruence|]. split; [|split].
  - intros j J. destruct (Nat.eq_dec j i) as [->|D].
    + apply A3. apply owned_in in J. destruct J as (c & J & S).
      apply owned_in. exists (CGen b v []). split; [left; auto|].
      rewrite (Hh0 _ _ J) in Hi. assert (c = CGen b v (map ag_id cs)) by congruence. subst c. exact S.
    + rewrite X by auto. apply A1. apply owned_in in J. destruct J as (c & [J|J] & S); [congruence|].
      apply owned_in. eauto.
  - intros j w l J. destruct (Nat.eq_dec j i) as [->|D].
    + rewrite (Hh0 _ _ J) in Hi. assert (b = false /\ w = v) as (-> & ->) by (split; congruence).
      eapply B3. left. auto.
    + rewrite X by auto. destruct J as [J|J]; [congruence|]. eauto.
  - intros j J. rewrite X.
    + apply C1. intro K. apply J. right. auto.
    + intros ->. apply J. left. auto.
Qed.

(** structures *)
Ltac rd_tac := let h := fresh in let H := fresh in intros h H; cbn; unfold mbind, load; rewrite H; reflexivity.

Lemma bits_free_frees : forall o, frees (bits_free (addr ab_id o)) None (ocells cells_bits o).
Proof.
  destruct o as [[i bf s bl al]|]; simpl; [|apply frees_ret].
  unfold cells_bits. cbn [ab_id ab_buf ab_sign ab_bitlen ab_allocated].
  eapply frees_read; [rd_tac|]. cbn [b_bits].
  rewrite <- (app_nil_r (ocells cells_buf bf)).
  eapply frees_part with (a := tt); auto 10 with plain.
  - destruct bf as [[j l]|]; simpl; [|apply frees_ret]. apply frees_block. auto.
  - apply frees_last. auto.
Qed.

Lemma point_free_frees : forall o, frees (point_free (addr ap_id o)) None (ocells cells_point o).
Proof.
  destruct o as [[i x y z]|]; simpl; [|apply frees_ret].
  unfold cells_point. cbn [ap_id ap_point ap_order ap_cofactor].
  eapply frees_read; [rd_tac|]. cbn [p_point p_order p_cofactor].
  eapply frees_part with (a := tt); auto 10 with plain; [apply drop_frees|].
  eapply frees_part with (a := tt); auto 10 with plain; [apply drop_frees|].
  rewrite <- (app_nil_r (ocells cells_gen z)).
  eapply frees_part with (a := tt); auto 10 with plain; [apply drop_frees|].
  apply frees_last. auto.
Qed.

Lemma upd_mid {A} : forall (pre : list A) x l y, upd (pre ++ x :: l) (length pre) y = pre ++ y :: l.
Proof. induction pre; simpl; intros; auto. f_equal. auto. Qed.

Lemma arr_loop_frees {T B} : forall (id : T -> nat) (f : T -> blocks) (fr : ptr -> M ptr) a (k : unit -> M B) r,
  (forall x, plain (f x)) ->
  forall es pre l2, plain l2 ->
  (forall e, In e es -> frees (fr (addr id e)) None (ocells f e)) ->
  frees (k tt) r ((a, CArr (pre ++ map (fun _ => None) es)) :: l2) ->
  frees (mbind (arr_free_loop fr (length es) (length pre) a) k) r
    ((a, CArr (pre ++ map (addr id) es)) :: flat_map (ocells f) es ++ l2).
Proof.
  intros id f fr a k r P. induction es as [|e es IH]; intros pre l2 P2 F K.
  - simpl in *. apply frees_ret_bind. auto.
  - cbn [length arr_free_loop map flat_map].
    apply frees_assoc. eapply frees_read with (s := pre ++ addr id e :: map (addr id) es); [rd_tac|].
    cbv beta. rewrite nth_error_app2, Nat.sub_diag by auto. cbn [nth_error].
    apply frees_assoc. rewrite <- app_assoc.
    eapply frees_part with (a := None); auto 10 with plain.
    { apply F. left. auto. }
    apply frees_assoc. eapply frees_read with (s := pre ++ addr id e :: map (addr id) es); [rd_tac|].
    cbv beta. rewrite upd_mid. apply frees_assoc. eapply frees_store; auto.
    specialize (IH (pre ++ [None]) l2 P2). rewrite app_length, Nat.add_1_r in IH.
    rewrite <- !app_assoc in IH. simpl in IH. apply IH; auto.
    intros. apply F. right. auto.
Qed.

Lemma arr_free_deep_frees {T} : forall (id : T -> nat) (f : T -> blocks) (fr : ptr -> M ptr) o n,
  (forall x, plain (f x)) ->
  ok_opt (fun a => n = length (aa_elems a) /\ forall e, In e (aa_elems a) -> frees (fr (addr id e)) None (ocells f e)) o ->
  frees (arr_free_deep fr (addr aa_id o) n) None (ocells (cells_arr id f) o).
Proof.
  intros id f fr o n P H. destruct o as [[i es]|]; simpl in *; [|apply frees_ret].
  destruct H as (-> & F). unfold cells_arr. simpl.
  rewrite <- (app_nil_r (flat_map (ocells f) es)).
  eapply (arr_loop_frees id f fr i) with (pre := []); auto 10 with plain.
  simpl. apply frees_last. auto.
Qed.

Lemma points_free_frees : forall o n, ok_opt (fun a => n = length (aa_elems a)) o ->
  frees (points_free_deep (addr aa_id o) n) None (ocells cells_points o).
Proof.
  intros. apply arr_free_deep_frees; auto 10 with plain. destruct o; simpl in *; auto.
  split; auto. intros. apply point_free_frees.
Qed.

Lemma sub_free_frees : forall o, ok_opt ok_sub o -> frees (sub_free_deep (addr as_id o)) None (ocells cells_sub o).
Proof.
  destruct o as [[i g n ps]|]; simpl; [|intros; apply frees_ret].
  unfold ok_sub. simpl. intros H. unfold cells_sub. cbn [as_id as_gen as_n as_points].
  eapply frees_read; [rd_tac|]. cbn [g_points g_npoints g_generator].
  eapply frees_part with (a := None); auto 10 with plain; [apply points_free_frees; auto|].
  eapply frees_store; auto. eapply frees_read; [rd_tac|]. cbn [g_points g_npoints g_generator].
  rewrite <- (app_nil_r (ocells cells_point g)).
  eapply frees_part with (a := None); auto 10 with plain; [apply point_free_frees|].
  eapply frees_store; auto. apply frees_last. auto.
Qed.

Lemma subs_free_frees : forall o n,
  ok_opt (fun a => n = length (aa_elems a) /\ Forall (ok_opt ok_sub) (aa_elems a)) o ->
  frees (subs_free_deep (addr aa_id o) n) None (ocells cells_subs o).
Proof.
  intros. apply arr_free_deep_frees; auto 10 with plain. destruct o; simpl in *; auto. destruct H as (H & F).
  split; auto. intros. apply sub_free_frees. rewrite Forall_forall in F. auto.
Qed.

(** stack blocks may be left over *)
Lemma frees_leave {A} : forall (m : M A) r l s, plain s -> (forall i c, In (i, c) s -> on_stack c = true) ->
  frees m r l -> frees m r (l ++ s).
Proof.
  intros m r l s PS S H h Hh N.
  assert (O : owned (l ++ s) = owned l).
  { rewrite owned_app. replace (owned s) with (@nil nat); [apply app_nil_r|].
    clear - S. unfold owned. induction s as [|[i c] s IH]; simpl; auto.
    rewrite (S i c) by (left; auto). simpl. apply IH. intros. apply (S i0). right. auto. }
  rewrite O in N. apply holds_app in Hh. destruct Hh as (Hl & Hs).
  destruct (H h Hl N) as (h' & E & N' & A' & B' & C'). exists h'. split; auto. split; auto.
  rewrite O. split; auto. split.
  - intros i v cs I. apply in_app_or in I. destruct I as [I|I]; eauto.
    assert (cs = []) as -> by eauto.
    destruct (in_dec Nat.eq_dec i (map fst l)) as [J|J].
    + apply stack_or_owned in J. destruct J as [J|(w & ds & J)].
      * exfalso. apply owned_in in J. destruct J as (c & J & Sc). apply Hl in J. rewrite (Hs _ _ I) in J.
        assert (c = CGen false v []) by congruence. subst. discriminate.
      * rewrite (B' _ _ _ J). apply Hl in J. rewrite (Hs _ _ I) in J. congruence.
    + rewrite C' by auto. auto.
  - intros i I. apply C'. intro J. apply I. rewrite map_app. apply in_or_app. auto.
Qed.

Lemma stack_gens : forall l, Forall (ok_opt stack_gen) l ->
  forall i c, In (i, c) (flat_map (ocells cells_gen) l) -> on_stack c = true.
Proof.
  intros l H i c I. apply in_flat_map in I. destruct I as (o & I & J).
  rewrite Forall_forall in H. specialize (H o I). destruct o as [[j b v]|]; simpl in *; [|tauto].
  unfold stack_gen in H. simpl in H. subst b. destruct J as [J|[]].
  assert (c = CGen false v []) by congruence. subst. auto.
Qed.

Lemma seed_free_frees : forall o, ok_opt ok_seed o -> frees (seed_free (addr ad_id o)) None (ocells cells_seed o).
Proof.
  destruct o as [[i bs hs t pt]|]; simpl; [|intros; apply frees_ret].
  unfold ok_seed. simpl. intros (_ & _ & OK & SG). unfold cells_seed. cbn [ad_id ad_bits ad_hash ad_type ad_part].
  rewrite !app_assoc. rewrite app_comm_cons. apply frees_leave; [auto 10 with plain|apply stack_gens; auto|].
  rewrite <- !app_assoc.
  eapply frees_read; [rd_tac|]. cbn [s_seed s_hash20 s_type s_part].
  eapply frees_part with (a := None); auto 10 with plain; [apply bits_free_frees|].
  unfold put_seed. eapply frees_store; auto. eapply frees_read; [rd_tac|]. cbn [s_seed s_hash20 s_type s_part].
  eapply frees_part with (a := tt); auto 10 with plain.
  { destruct hs as [[j l]|]; simpl; [|apply frees_ret]. apply frees_block. auto. }
  destruct t, pt; simpl in OK; try tauto; cbn [part_of part_bits];
    try (apply frees_ret_bind, frees_last; auto; fail).
  - apply frees_assoc. rewrite <- (app_nil_r (ocells cells_bits sa ++ _)), <- app_assoc.
    eapply frees_part with (a := None); auto 10 with plain; [apply bits_free_frees|].
    apply frees_assoc. eapply frees_store; auto.
    apply frees_assoc. eapply frees_part with (a := None); auto 10 with plain; [apply bits_free_frees|].
    eapply frees_store; auto. apply frees_last. auto.
  - apply frees_assoc. rewrite <- (app_nil_r (ocells cells_bits sa ++ _)), <- app_assoc.
    eapply frees_part with (a := None); auto 10 with plain; [apply bits_free_frees|].
    apply frees_assoc. eapply frees_store; auto.
    apply frees_assoc. eapply frees_part with (a := None); auto 10 with plain; [apply bits_free_frees|].
    eapply frees_store; auto. apply frees_last. auto.
Qed.

Lemma ell_free_frees : forall o,
  frees (match addr ae_id o with
         | None => ret tt
         | Some _ => mbind (obj_free (addr ae_id o)) (fun _ => drop (addr ae_id o))
         end) tt (ocells cells_ell o).
Proof. destruct o; simpl; [apply obj_free_frees|apply frees_ret]. Qed.

Lemma curve_free_frees : forall c, ok_curve c -> frees (curve_free (Some (ac_id c))) None (cells_curve c).
Proof.
  intros [i sd f a b e o g n mt]. unfold ok_curve, cells_curve. cbn [ac_id ac_seed ac_field ac_a ac_b ac_curve ac_order ac_gens ac_n ac_meta].
  intros (O1 & O2 & O3). rewrite !app_assoc. rewrite app_comm_cons.
  apply frees_leave; [auto 10 with plain|apply stack_gens; auto|]. rewrite <- !app_assoc.
  unfold curve_free. eapply frees_read; [rd_tac|].
  unfold curve_of, with_seed, with_generators.
  cbn [ac_id ac_seed ac_field ac_a ac_b ac_curve ac_order ac_gens ac_n ac_meta
       c_seed c_field c_a c_b c_curve c_order c_generators c_ngens c_meta].
  eapply frees_part with (a := None); auto 10 with plain; [apply seed_free_frees; auto|].
  eapply frees_store; auto. eapply frees_read; [rd_tac|].
  cbn [c_seed c_field c_a c_b c_curve c_order c_generators c_ngens c_meta].
  eapply frees_part with (a := None); auto 10 with plain; [apply subs_free_frees; auto|].
  eapply frees_store; auto. eapply frees_read; [rd_tac|].
  cbn [c_seed c_field c_a c_b c_curve c_order c_generators c_ngens c_meta].
  eapply frees_part with (a := tt); [right; auto 8 with plain|apply ell_free_frees|].
  eapply frees_part with (a := tt); auto 10 with plain; [apply drop_frees|].
  eapply frees_part with (a := tt); auto 10 with plain; [apply drop_frees|].
  eapply frees_part with (a := tt); auto 10 with plain; [apply drop_frees|].
  rewrite <- (app_nil_r (ocells cells_gen o)).
  eapply frees_part with (a := tt); auto 10 with plain; [apply drop_frees|].
  apply frees_last. auto.
Qed.
