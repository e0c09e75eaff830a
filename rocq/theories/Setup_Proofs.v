(** Proofs about the memory of a setup. *)
From Coq Require Import Ascii String Permutation.
From Verif Require Import Base Str_Model Cli_Model Input_Model Plan_Model CmOrder_Model Setup_Model Setup_Spec.
Local Open Scope nat_scope.

(** ** Assertions: the blocks allocated since the beginning *)
Definition blocks := list (nat * cell).

Section Sat.
  Context (h0 : heap).

  (** [h] is [h0] with the blocks of [L] in addition *)
  Record sat (L : blocks) (h : heap) : Prop := mkSat {
    sat_nodup : NoDup (map fst L);
    sat_range : forall i c, In (i, c) L -> next h0 <= i < next h;
    sat_in : forall i c, In (i, c) L -> cells h i = Some c;
    sat_out : forall i, ~ In i (map fst L) -> cells h i = cells h0 i;
    sat_next : next h0 <= next h }.

  Lemma sat_perm L L' h : Permutation L L' -> sat L h -> sat L' h.
  Proof.
    intros P [H1 H2 H3 H4 H5]. constructor; auto.
    - apply (Permutation_NoDup (Permutation_map fst P) H1).
    - intros i c Hi. apply (H2 i c). apply (Permutation_in _ (Permutation_sym P) Hi).
    - intros i c Hi. apply (H3 i c). apply (Permutation_in _ (Permutation_sym P) Hi).
    - intros i Hi. apply H4. intros Hj. apply Hi. apply (Permutation_in _ (Permutation_map fst P) Hj).
  Qed.

  Definition triple {A} (L : blocks) (m : M A) (Q : A -> blocks -> Prop) : Prop :=
    forall h, sat L h -> exists a L' h', m h = Ok (a, h') /\ sat L' h' /\ Q a L'.

  Lemma t_bind {A B} L (m : M A) (k : A -> M B) Q R :
    triple L m Q -> (forall a L', Q a L' -> triple L' (k a) R) -> triple L (mbind m k) R.
  Proof.
    intros H1 H2 h Hs. destruct (H1 h Hs) as (a & L' & h' & E & S' & Qa).
    unfold mbind. rewrite E. apply (H2 a L' Qa h' S').
  Qed.

  Lemma t_ret {A} L (a : A) (Q : A -> blocks -> Prop) : Q a L -> triple L (ret a) Q.
  Proof. intros HQ h Hs. exists a, L, h. auto. Qed.

  Lemma t_perm {A} L L' (m : M A) Q : Permutation L L' -> triple L' m Q -> triple L m Q.
  Proof. intros P H h Hs. apply H. apply (sat_perm _ _ _ P Hs). Qed.

  Lemma t_weak {A} L (m : M A) (Q R : A -> blocks -> Prop) :
    triple L m Q -> (forall a L', Q a L' -> R a L') -> triple L m R.
  Proof. intros H W h Hs. destruct (H h Hs) as (a & L' & h' & ? & ? & ?). exists a, L', h'. auto. Qed.

  (** exact form: result and blocks known *)
  Definition gives {A} (L : blocks) (m : M A) (a : A) (L' : blocks) : Prop :=
    triple L m (fun x L1 => x = a /\ Permutation L1 L').

  Lemma g_bind {A B} L L' (m : M A) (a : A) (k : A -> M B) R :
    gives L m a L' -> triple L' (k a) R -> triple L (mbind m k) R.
  Proof.
    intros H1 H2. eapply t_bind; [exact H1|]. intros x L1 [-> P]. apply (t_perm _ _ _ _ P). exact H2.
  Qed.
  Lemma g_ret {A} L (a : A) : gives L (ret a) a L.
  Proof. apply t_ret. auto. Qed.
  Lemma g_perm {A} L L1 L2 L' (m : M A) a : Permutation L L1 -> gives L1 m a L2 -> Permutation L2 L' -> gives L m a L'.
  Proof.
    intros P H P'. apply (t_perm _ _ _ _ P). eapply t_weak; [exact H|]. intros x L3 [-> Q]. split; [reflexivity|].
    apply (perm_trans Q P').
  Qed.

  Lemma sat_new L h c : fresh h0 -> sat L h -> sat ((next h, c) :: L) (mkHeap (S (next h)) (set (cells h) (next h) (Some c))).
  Proof.
    intros Hf [H1 H2 H3 H4 H5].
    assert (N : ~ In (next h) (map fst L)).
    { intros Hi. apply in_map_iff in Hi. destruct Hi as ([i c'] & E & Hi). cbn in E. subst i. specialize (H2 _ _ Hi). lia. }
    constructor; cbn [next cells map fst].
    - constructor; assumption.
    - intros i c' [E|Hi]; [inversion E; subst; lia|]. specialize (H2 _ _ Hi). lia.
    - intros i c' [E|Hi]; unfold set.
      + inversion E; subst. rewrite Nat.eqb_refl. reflexivity.
      + destruct (Nat.eqb_spec i (next h)) as [->|]; [|auto].
        specialize (H2 _ _ Hi). lia.
    - intros i Hi. unfold set. destruct (Nat.eqb_spec i (next h)) as [->|]; [exfalso; apply Hi; left; reflexivity|].
      apply H4. intros Hj. apply Hi. right. assumption.
    - lia.
  Qed.

  (** [new]: a block of an unknown new number *)
  Lemma t_new L c : fresh h0 -> triple L (new c) (fun i L' => L' = (i, c) :: L).
  Proof.
    intros Hf h Hs. exists (next h), ((next h, c) :: L), (mkHeap (S (next h)) (set (cells h) (next h) (Some c))).
    split; [reflexivity|]. split; [|reflexivity]. apply sat_new; assumption.
  Qed.

  Lemma sat_here L h i c : sat ((i, c) :: L) h -> cells h i = Some c.
  Proof. intros H. apply (sat_in _ _ H). left. reflexivity. Qed.

  Lemma g_load L i c : gives ((i, c) :: L) (load i) c ((i, c) :: L).
  Proof.
    intros h Hs. exists c, ((i, c) :: L), h. unfold load. rewrite (sat_here _ _ _ _ Hs). auto.
  Qed.

  Lemma g_store L i c c' : gives ((i, c) :: L) (store i c') tt ((i, c') :: L).
  Proof.
    intros h Hs. exists tt, ((i, c') :: L), (mkHeap (next h) (set (cells h) i (Some c'))).
    unfold store. rewrite (sat_here _ _ _ _ Hs). split; [reflexivity|]. split; [|auto].
    destruct Hs as [H1 H2 H3 H4 H5]. cbn [map fst] in *. inversion H1 as [|x l N1 N2]; subst.
    constructor; cbn [map fst next cells].
    - constructor; assumption.
    - intros j d [E|Hj]; [inversion E; subst; apply (H2 j c); left; reflexivity|]. apply (H2 j d). right. assumption.
    - intros j d [E|Hj]; unfold set.
      + inversion E; subst. rewrite Nat.eqb_refl. reflexivity.
      + destruct (Nat.eqb_spec j i) as [->|].
        * exfalso. apply N1. apply in_map_iff. exists (i, d). auto.
        * apply H3. right. assumption.
    - intros j Hj. unfold set. destruct (Nat.eqb_spec j i) as [->|]; [exfalso; apply Hj; left; reflexivity|].
      apply H4. assumption.
    - assumption.
  Qed.

  Lemma g_free L i c : fresh h0 -> gives ((i, c) :: L) (free i) tt L.
  Proof.
    intros Hf h Hs. exists tt, L, (mkHeap (next h) (set (cells h) i None)).
    unfold free. rewrite (sat_here _ _ _ _ Hs). split; [reflexivity|]. split; [|auto].
    destruct Hs as [H1 H2 H3 H4 H5]. cbn [map fst] in *. inversion H1 as [|x l N1 N2]; subst.
    constructor; cbn [next cells].
    - assumption.
    - intros j d Hj. apply (H2 j d). right. assumption.
    - intros j d Hj. unfold set. destruct (Nat.eqb_spec j i) as [->|].
      + exfalso. apply N1. apply in_map_iff. exists (i, d). auto.
      + apply H3. right. assumption.
    - intros j Hj. unfold set. destruct (Nat.eqb_spec j i) as [->|].
      + symmetry. apply Hf. destruct (H2 i c); [left; reflexivity|assumption].
      + apply H4. intros [E|Hk]; auto.
    - assumption.
  Qed.

  Lemma g_try_free L i c : fresh h0 -> (forall l, c <> CSlots l) -> gives ((i, c) :: L) (try_free i) tt L.
  Proof.
    intros Hf Hc. unfold try_free. eapply g_bind; [apply g_load|].
    destruct c; try (apply g_free; assumption). destruct (Hc l eq_refl).
  Qed.

  Lemma g_lift {A} L (m : res A) a : m = Ok a -> gives L (lift m) a L.
  Proof. intros -> h Hs. exists a, L, h. auto. Qed.

  Lemma g_slot_get L a l i p : nth_error l i = Some p ->
    gives ((a, CSlots l) :: L) (slot_get a i) p ((a, CSlots l) :: L).
  Proof.
    intros H. unfold slot_get, slots. eapply g_bind; [eapply g_bind; [apply g_load|apply g_ret]|].
    apply g_lift. unfold rd. rewrite H. reflexivity.
  Qed.

  Lemma g_slot_set L a l i p : i < length l ->
    gives ((a, CSlots l) :: L) (slot_set a i p) tt ((a, CSlots (upd l i p)) :: L).
  Proof.
    intros H. unfold slot_set, slots. eapply g_bind; [eapply g_bind; [apply g_load|apply g_ret]|].
    eapply g_bind; [apply g_lift; apply wr_ok; assumption|]. apply g_store.
  Qed.
End Sat.

(** ** Arrays of pointers whose entries own blocks *)
Lemma map_upd {A B} (f : A -> B) l i x : map f (upd l i x) = upd (map f l) i (f x).
Proof. revert i. induction l as [|a l IH]; intros [|i]; cbn; try reflexivity. f_equal. apply IH. Qed.

Lemma nth_error_lt {A} (l : list A) i x : nth_error l i = Some x -> i < length l.
Proof. intros H. apply nth_error_Some. rewrite H. discriminate. Qed.

Lemma upd_app {A} (l m : list A) i x : i = length l -> forall y, upd (l ++ y :: m) i x = l ++ x :: m.
Proof. intros -> y. induction l as [|a l IH]; cbn; [reflexivity|]. f_equal. apply IH. Qed.

Section Arr.
  Context {E : Type} (eptr : E -> nat) (ecells : E -> blocks).

  Definition own (o : option E) : blocks := match o with Some e => ecells e | None => [] end.
  Definition owned (D : list (option E)) : blocks := flat_map own D.
  Definition ptrs (D : list (option E)) : list ptr := map (option_map eptr) D.
  Definition arr (a : nat) (D : list (option E)) : blocks := (a, CSlots (ptrs D)) :: owned D.

  Lemma owned_upd D i e : nth_error D i = Some None -> Permutation (owned (upd D i (Some e))) (ecells e ++ owned D).
  Proof.
    revert i. induction D as [|o D IH]; intros [|i] H; cbn in H; try discriminate.
    - inversion H; subst. cbn. apply Permutation_refl.
    - cbn. rewrite (IH i H). rewrite !app_assoc. apply Permutation_app_tail. apply Permutation_app_comm.
  Qed.

  Context (h0 : heap) (fr : nat -> nat -> M unit) (good : E -> Prop).
  Hypothesis fr_none : forall a l i L, nth_error l i = Some None -> gives h0 ((a, CSlots l) :: L) (fr a i) tt ((a, CSlots l) :: L).
  Hypothesis fr_some : forall a l i e L, good e -> nth_error l i = Some (Some (eptr e)) ->
    gives h0 ((a, CSlots l) :: ecells e ++ L) (fr a i) tt ((a, CSlots (upd l i None)) :: L).

  Lemma g_put a D i e L : nth_error D i = Some None ->
    gives h0 (arr a D ++ ecells e ++ L) (slot_set a i (Some (eptr e))) tt (arr a (upd D i (Some e)) ++ L).
  Proof.
    intros H. unfold arr. cbn [app].
    eapply g_perm; [apply Permutation_refl|apply g_slot_set|].
    - unfold ptrs. rewrite map_length. apply (nth_error_lt _ _ _ H).
    - unfold ptrs. rewrite map_upd. cbn [option_map]. apply perm_skip.
      rewrite (owned_upd D i e H). rewrite !app_assoc. apply Permutation_app_tail. apply Permutation_app_comm.
  Qed.

  Lemma g_loop a D : forall pre L, Forall (fun o => match o with Some e => good e | None => True end) D ->
    gives h0 ((a, CSlots (pre ++ ptrs D)) :: owned D ++ L) (loop (length D) (length pre) (fr a)) tt
      ((a, CSlots (pre ++ repeat None (length D))) :: L).
  Proof.
    induction D as [|o D IH]; intros pre L HG; cbn [length loop].
    - cbn. apply g_ret.
    - inversion HG as [|? ? Ho HD]; subst.
      assert (N : nth_error (pre ++ ptrs (o :: D)) (length pre) = Some (option_map eptr o)).
      { rewrite nth_error_app2 by lia. rewrite Nat.sub_diag. reflexivity. }
      assert (T : forall L1, gives h0 ((a, CSlots ((pre ++ [None]) ++ ptrs D)) :: owned D ++ L1)
                    (loop (length D) (S (length pre)) (fr a)) tt
                    ((a, CSlots (pre ++ None :: repeat None (length D))) :: L1)).
      { intros L1. replace (S (length pre)) with (length (pre ++ [None])) by (rewrite app_length; cbn; lia).
        replace (pre ++ None :: repeat None (length D)) with ((pre ++ [@None nat]) ++ repeat None (length D))
          by (rewrite <- app_assoc; reflexivity).
        apply IH. assumption. }
      destruct o as [e|].
      + cbn [owned flat_map own]. rewrite <- app_assoc. fold (owned D).
        eapply g_bind; [apply fr_some; assumption|].
        cbn [ptrs map option_map]. rewrite upd_app by reflexivity. fold (ptrs D).
        specialize (T L). rewrite <- app_assoc in T. exact T.
      + cbn [owned flat_map own app]. fold (owned D).
        eapply g_bind; [apply fr_none; assumption|].
        specialize (T L). rewrite <- app_assoc in T. exact T.
  Qed.

  Lemma g_clear a D L : length D = 9 -> Forall (fun o => match o with Some e => good e | None => True end) D ->
    gives h0 (arr a D ++ L) (loop OFFSET_END 0 (fr a)) tt ((a, CSlots (repeat None 9)) :: L).
  Proof. intros Hl HG. unfold OFFSET_END. rewrite <- Hl. apply (g_loop a D [] L HG). Qed.
End Arr.

(** *** arguments *)
Record aent := mkA { a_id : nat; a_to : target; a_own : option (nat * cell) }.
Definition acells (e : aent) : blocks :=
  (a_id e, CArg (a_to e) 1 (option_map fst (a_own e))) :: match a_own e with Some b => [b] | None => [] end.
Definition agood (e : aent) : Prop := match a_own e with Some (_, CSlots _) => False | _ => True end.

(** *** checks *)
Record cent := mkC { k_id : nat; k_funs : nat; k_list : list check_f }.
Definition ccells (e : cent) : blocks :=
  [(k_id e, CCheck (Some (k_funs e)) (length (k_list e))); (k_funs e, CFuns (map Some (k_list e)))].

Ltac gstep := eapply g_bind.
Ltac swap2 := apply perm_swap.

Section Ops.
  Context (h0 : heap) (Hf : fresh h0).

  Lemma g_load_arg L i t n p : gives h0 ((i, CArg t n p) :: L) (load_arg i) (t, n, p) ((i, CArg t n p) :: L).
  Proof. unfold load_arg. gstep; [apply g_load|]. apply g_ret. Qed.

  Lemma g_load_check L i p n : gives h0 ((i, CCheck p n) :: L) (load_check i) (p, n) ((i, CCheck p n) :: L).
  Proof. unfold load_check. gstep; [apply g_load|]. apply g_ret. Qed.

  Lemma g_load_funs L i l : gives h0 ((i, CFuns l) :: L) (load_funs (Some i)) (i, l) ((i, CFuns l) :: L).
  Proof. unfold load_funs. gstep; [apply g_load|]. apply g_ret. Qed.

  Lemma g_arg_set L i t n p t' n' : gives h0 ((i, CArg t n p) :: L) (arg_set i t' n') tt ((i, CArg t' n' p) :: L).
  Proof. unfold arg_set. gstep; [apply g_load_arg|]. apply g_store. Qed.

  Lemma g_arg_own L i t n p p' : gives h0 ((i, CArg t n p) :: L) (arg_own i p') tt ((i, CArg t n p') :: L).
  Proof. unfold arg_own. gstep; [apply g_load_arg|]. apply g_store. Qed.

  Lemma arg_free_none a l i L : nth_error l i = Some None ->
    gives h0 ((a, CSlots l) :: L) (arg_free a i) tt ((a, CSlots l) :: L).
  Proof. intros H. unfold arg_free. gstep; [apply g_slot_get; exact H|]. apply g_ret. Qed.

  Lemma arg_free_some a l i e L : agood e -> nth_error l i = Some (Some (a_id e)) ->
    gives h0 ((a, CSlots l) :: acells e ++ L) (arg_free a i) tt ((a, CSlots (upd l i None)) :: L).
  Proof.
    intros HG H. unfold arg_free. gstep; [apply g_slot_get; exact H|].
    destruct e as [x t d]. unfold acells, agood in *. cbn [a_id a_to a_own] in *.
    destruct d as [[y c]|]; cbn [option_map fst app].
    - gstep; [eapply g_perm; [swap2|apply g_load_arg|apply Permutation_refl]|].
      gstep.
      { gstep; [eapply g_perm; [apply perm_trans with ((x, CArg t 1 (Some y)) :: (y, c) :: (a, CSlots l) :: L);
                                [apply perm_skip; swap2|swap2]|apply g_try_free; [assumption|]|apply Permutation_refl]|].
        - intros l' ->. exact HG.
        - apply g_arg_own. }
      gstep; [apply g_try_free; [assumption|discriminate]|].
      apply g_slot_set. apply (nth_error_lt _ _ _ H).
    - gstep; [eapply g_perm; [swap2|apply g_load_arg|apply Permutation_refl]|].
      gstep; [apply g_ret|].
      gstep; [apply g_try_free; [assumption|discriminate]|].
      apply g_slot_set. apply (nth_error_lt _ _ _ H).
  Qed.

  Lemma check_free_none a l i L : nth_error l i = Some None ->
    gives h0 ((a, CSlots l) :: L) (check_free a i) tt ((a, CSlots l) :: L).
  Proof. intros H. unfold check_free. gstep; [apply g_slot_get; exact H|]. apply g_ret. Qed.

  Lemma check_free_some a l i e L : True -> nth_error l i = Some (Some (k_id e)) ->
    gives h0 ((a, CSlots l) :: ccells e ++ L) (check_free a i) tt ((a, CSlots (upd l i None)) :: L).
  Proof.
    intros _ H. unfold check_free. gstep; [apply g_slot_get; exact H|].
    destruct e as [x q fs]. unfold ccells. cbn [k_id k_funs k_list app] in *.
    gstep; [eapply g_perm; [swap2|apply g_load_check|apply Permutation_refl]|].
    gstep.
    { eapply g_perm; [|apply g_try_free; [assumption|]|apply Permutation_refl].
      - apply perm_trans with ((x, CCheck (Some q) (length fs)) :: (q, CFuns (map Some fs)) :: (a, CSlots l) :: L);
          [apply perm_skip; swap2|swap2].
      - discriminate. }
    gstep; [apply g_try_free; [assumption|discriminate]|].
    apply g_slot_set. apply (nth_error_lt _ _ _ H).
  Qed.

  (** check_new keeps all the checks in order *)
  Lemma t_check_more x : forall l q fs L,
    triple h0 ((x, CCheck (Some q) (length fs)) :: (q, CFuns (map Some fs)) :: L) (check_more x l)
      (fun _ L' => exists q', Permutation L' ((x, CCheck (Some q') (length (fs ++ l))) :: (q', CFuns (map Some (fs ++ l))) :: L)).
  Proof.
    induction l as [|f l IH]; intros q fs L; cbn [check_more].
    - rewrite app_nil_r. apply t_ret. exists q. apply Permutation_refl.
    - gstep; [apply g_load_check|].
      eapply t_bind.
      { unfold realloc_funs.
        eapply g_bind; [eapply g_perm; [swap2|apply g_load_funs|apply Permutation_refl]|].
        eapply t_bind; [apply (t_new h0 _ _ Hf)|].
        intros j L1 ->.
        eapply g_bind; [eapply g_perm; [swap2|apply g_try_free; [assumption|discriminate]|apply Permutation_refl]|].
        apply (t_ret _ _ _ (fun i L' => L' = (i, CFuns (firstn (S (length fs)) (map Some fs) ++ repeat None (S (length fs) - length (map Some fs))))
                                   :: (x, CCheck (Some q) (length fs)) :: L)). reflexivity. }
      intros q' L1 ->.
      rewrite map_length. rewrite firstn_all2 by (rewrite map_length; lia).
      replace (S (length fs) - length fs) with 1 by lia. cbn [repeat].
      gstep; [eapply g_perm; [swap2|apply g_store|swap2]|].
      gstep; [apply g_load_funs|].
      gstep; [apply g_lift; apply wr_ok; rewrite app_length, map_length; cbn; lia|].
      gstep; [apply g_store|].
      rewrite upd_app by (rewrite map_length; lia).
      replace (map Some fs ++ [Some f]) with (map Some (fs ++ [f])) by (rewrite map_app; reflexivity).
      replace (S (length fs)) with (length (fs ++ [f])) by (rewrite app_length; cbn; lia).
      replace (fs ++ f :: l) with ((fs ++ [f]) ++ l) by (rewrite <- app_assoc; reflexivity).
      apply (t_perm _ _ _ _ _ (perm_swap _ _ _)). apply IH.
  Qed.

  Lemma t_check_new one l L :
    triple h0 L (check_new one l) (fun x L' => exists e, k_id e = x /\ k_list e = one :: l /\ Permutation L' (ccells e ++ L)).
  Proof.
    unfold check_new. eapply t_bind; [apply (t_new h0 _ _ Hf)|]. intros x L1 ->.
    eapply t_bind; [apply (t_new h0 _ _ Hf)|]. intros q L1 ->.
    gstep; [eapply g_perm; [swap2|apply g_store|swap2]|].
    gstep; [apply g_load_funs|].
    gstep; [apply g_lift; apply wr_ok; cbn; lia|].
    gstep; [apply g_store|].
    gstep; [eapply g_perm; [swap2|apply g_store|apply Permutation_refl]|].
    eapply t_bind; [apply (t_check_more x l q [one] L)|].
    intros [] L1 [q' P]. apply t_ret. exists (mkC x q' (one :: l)). split; [reflexivity|]. split; [reflexivity|]. exact P.
  Qed.
End Ops.

(** ** What the arrays mean *)
(** argument [e] reads as [v] when the blocks [B] are there *)
Definition val (B : blocks) (e : aent) (v : arg_t) : Prop :=
  a_to e = TCfg v \/
  (exists j s, a_to e = TBlk j /\ In (j, CText s) B /\ v = Order (Some s)) \/
  (exists j k, a_to e = TBlk j /\ In (j, CNum k) B /\ v = Discr k).
Definition rel (B : blocks) (o : option aent) (v : option arg_t) : Prop :=
  match o, v with Some e, Some v => val B e v /\ agood e | None, None => True | _, _ => False end.
Notation aowned := (owned acells).
Notation aarr := (arr a_id acells).
Notation carr := (arr k_id ccells).
Definition avals (D : list (option aent)) (vals : list (option arg_t)) : Prop := Forall2 (rel (aowned D)) D vals.
Definition cvals (D : list (option cent)) : list (option (list check_f)) := map (option_map k_list) D.

Lemma rel_mono B B' o v : incl B B' -> rel B o v -> rel B' o v.
Proof.
  intros HI. destruct o as [e|], v as [v|]; cbn; auto. intros [H G]. split; [|assumption].
  destruct H as [H|[(j & s & E1 & E2 & E3)|(j & k & E1 & E2 & E3)]].
  - left. assumption.
  - right. left. exists j, s. auto.
  - right. right. exists j, k. auto.
Qed.

Lemma Forall2_upd {A B} (P : A -> B -> Prop) l m i x y : Forall2 P l m -> P x y -> Forall2 P (upd l i x) (upd m i y).
Proof.
  intros H. revert i. induction H as [|a b l m Hab H IH]; intros i Hxy; cbn; [constructor|].
  destruct i; constructor; auto.
Qed.

Lemma Forall2_imp {A B} (P Q : A -> B -> Prop) l m : (forall a b, P a b -> Q a b) -> Forall2 P l m -> Forall2 Q l m.
Proof. intros H. induction 1; constructor; auto. Qed.

Lemma avals_upd D vals i e v : avals D vals -> nth_error D i = Some None ->
  val (acells e ++ aowned D) e v -> agood e -> avals (upd D i (Some e)) (upd vals i (Some v)).
Proof.
  intros H N V G. unfold avals. apply Forall2_upd.
  - eapply Forall2_imp; [|exact H]. intros a b. apply rel_mono. intros x Hx.
    apply (Permutation_in _ (Permutation_sym (owned_upd acells D i e N))). apply in_or_app. right. assumption.
  - cbn. split; [|assumption]. assert (HI : incl (acells e ++ aowned D) (aowned (upd D i (Some e)))).
    { intros x Hx. apply (Permutation_in _ (Permutation_sym (owned_upd acells D i e N))). assumption. }
    exact (proj1 (rel_mono _ _ (Some e) (Some v) HI (conj V G))).
Qed.

Lemma avals_none D vals i : avals D vals -> nth_error vals i = Some None -> nth_error D i = Some None.
Proof.
  intros H. unfold avals in H. revert i. generalize dependent (aowned D). intros B H.
  induction H as [|o v D vals Hr H IH]; intros [|i] E; cbn in *; try discriminate.
  - inversion E; subst. destruct o; [destruct Hr|]. reflexivity.
  - apply IH. assumption.
Qed.

Lemma avals_good D vals : avals D vals -> Forall (fun o => match o with Some e => agood e | None => True end) D.
Proof.
  intros H. unfold avals in H. generalize dependent (aowned D). intros B H.
  induction H as [|o v D vals Hr H IH]; constructor; auto. destruct o as [e|]; [|exact Logic.I].
  destruct v; [exact (proj2 Hr)|destruct Hr].
Qed.

Lemma avals_length D vals : avals D vals -> length D = length vals.
Proof. unfold avals. generalize (aowned D). intros B. induction 1; cbn; auto. Qed.

(** [L1] are the three arrays with what they own, and [R] *)
Record st3 (v ga ca : nat) (vl : list (option (list check_f))) (gl cl : list (option arg_t)) (R L1 : blocks) : Prop := mkSt3 {
  st3_ex : exists Dv Dg Dc, cvals Dv = vl /\ avals Dg gl /\ avals Dc cl /\
    Permutation L1 (carr v Dv ++ aarr ga Dg ++ aarr ca Dc ++ R) }.

Ltac papp :=
  rewrite <- ?app_assoc;
  do 24 (try first [apply Permutation_refl | apply Permutation_app_head
                   | eapply perm_trans; [|apply Permutation_app_comm]; rewrite <- ?app_assoc]).

Section Init.
  Context (h0 : heap) (Hf : fresh h0) (v ga ca : nat).
  Notation S3 := (st3 v ga ca).

  Lemma t_put_check i one l vl gl cl R L : S3 vl gl cl R L -> nth_error vl i = Some None ->
    triple h0 L (put_check v i one l) (fun _ L' => S3 (put i (one :: l) vl) gl cl R L').
  Proof.
    intros [(Dv & Dg & Dc & E1 & E2 & E3 & P)] N. unfold put_check.
    eapply t_bind; [apply (t_check_new h0 Hf)|]. intros x L' (e & Ex & El & P').
    assert (N' : nth_error Dv i = Some None).
    { subst vl. unfold cvals in N. rewrite nth_error_map in N. destruct (nth_error Dv i) as [[?|]|]; cbn in N; congruence. }
    subst x. eapply t_perm.
    { apply (perm_trans P'). apply (perm_trans (Permutation_app_head _ P)).
      apply (perm_trans (Permutation_app_comm _ _)). rewrite <- app_assoc.
      apply Permutation_app_head. apply Permutation_app_comm. }
    eapply t_weak; [apply (g_put k_id ccells h0 v Dv i e); exact N'|].
    intros [] L2 [_ P2]. constructor. exists (upd Dv i (Some e)), Dg, Dc.
    split; [|split; [assumption|split; [assumption|exact P2]]].
    unfold cvals. rewrite map_upd. cbn [option_map]. rewrite El. unfold put. fold (cvals Dv). rewrite E1. reflexivity.
  Qed.

  (** an argument that is ready is put into its slot *)
  Lemma t_put_garg i e w vl gl cl R L : S3 vl gl cl R L -> nth_error gl i = Some None ->
    (forall Dg, avals Dg gl -> val (acells e ++ aowned Dg) e w) -> agood e ->
    triple h0 (acells e ++ L) (slot_set ga i (Some (a_id e))) (fun _ L' => S3 vl (put i w gl) cl R L').
  Proof.
    intros [(Dv & Dg & Dc & E1 & E2 & E3 & P)] N V G. pose proof (avals_none _ _ _ E2 N) as N'.
    eapply t_perm with (L' := aarr ga Dg ++ acells e ++ (carr v Dv ++ aarr ca Dc ++ R)).
    { apply (perm_trans (Permutation_app_head _ P)). papp. }
    eapply t_weak; [apply (g_put a_id acells h0 ga Dg i e); exact N'|].
    intros [] L2 [_ P2]. constructor. exists Dv, (upd Dg i (Some e)), Dc.
    split; [assumption|]. split; [apply avals_upd; auto|]. split; [assumption|].
    apply (perm_trans P2). papp.
  Qed.

  Lemma t_put_carg i e w vl gl cl R L : S3 vl gl cl R L -> nth_error cl i = Some None ->
    (forall Dc, avals Dc cl -> val (acells e ++ aowned Dc) e w) -> agood e ->
    triple h0 (acells e ++ L) (slot_set ca i (Some (a_id e))) (fun _ L' => S3 vl gl (put i w cl) R L').
  Proof.
    intros [(Dv & Dg & Dc & E1 & E2 & E3 & P)] N V G. pose proof (avals_none _ _ _ E3 N) as N'.
    eapply t_perm with (L' := aarr ca Dc ++ acells e ++ (carr v Dv ++ aarr ga Dg ++ R)).
    { apply (perm_trans (Permutation_app_head _ P)). papp. }
    eapply t_weak; [apply (g_put a_id acells h0 ca Dc i e); exact N'|].
    intros [] L2 [_ P2]. constructor. exists Dv, Dg, (upd Dc i (Some e)).
    split; [assumption|]. split; [assumption|]. split; [apply avals_upd; auto|].
    apply (perm_trans P2). papp.
  Qed.

  Lemma t_put_arg_g i w vl gl cl R L : S3 vl gl cl R L -> nth_error gl i = Some None ->
    triple h0 L (put_arg ga i w) (fun _ L' => S3 vl (put i w gl) cl R L').
  Proof.
    intros HS N. unfold put_arg. eapply t_bind; [apply (t_new h0 _ _ Hf)|]. intros x L' ->.
    gstep; [apply g_arg_set|].
    apply (t_put_garg i (mkA x (TCfg w) None) w vl gl cl R L HS N); [|exact Logic.I]. intros Dg _. left. reflexivity.
  Qed.

  Lemma t_put_arg_c i w vl gl cl R L : S3 vl gl cl R L -> nth_error cl i = Some None ->
    triple h0 L (put_arg ca i w) (fun _ L' => S3 vl gl (put i w cl) R L').
  Proof.
    intros HS N. unfold put_arg. eapply t_bind; [apply (t_new h0 _ _ Hf)|]. intros x L' ->.
    gstep; [apply g_arg_set|].
    apply (t_put_carg i (mkA x (TCfg w) None) w vl gl cl R L HS N); [|exact Logic.I]. intros Dg _. left. reflexivity.
  Qed.

  (** two arguments pointing to the same block, of which the second owns it *)
  Lemma t_put_two i k w j c x y vl gl cl R L : S3 vl gl cl R L ->
    i <> k -> nth_error gl i = Some None -> nth_error gl k = Some None ->
    (exists s, c = CText s /\ w = Order (Some s)) \/ (exists n, c = CNum n /\ w = Discr n) ->
    triple h0 ((y, CArg (TBlk j) 1 (Some j)) :: (x, CArg (TBlk j) 1 None) :: (j, c) :: L)
      (let* _ := slot_set ga i (Some x) in slot_set ga k (Some y))
      (fun _ L' => S3 vl (put k w (put i w gl)) cl R L').
  Proof.
    intros [(Dv & Dg & Dc & E1 & E2 & E3 & P)] Hik Ni Nk Hc.
    pose proof (avals_none _ _ _ E2 Ni) as Ni'. pose proof (avals_none _ _ _ E2 Nk) as Nk'.
    set (e1 := mkA x (TBlk j) None). set (e2 := mkA y (TBlk j) (Some (j, c))).
    assert (G2 : agood e2) by (destruct Hc as [(s & -> & _)|(n & -> & _)]; exact Logic.I).
    eapply t_perm with (L' := aarr ga Dg ++ acells e1 ++ (acells e2 ++ carr v Dv ++ aarr ca Dc ++ R)).
    { apply perm_trans with (acells e1 ++ acells e2 ++ L).
      - cbn. apply perm_trans with ((x, CArg (TBlk j) 1 None) :: (y, CArg (TBlk j) 1 (Some j)) :: (j, c) :: L); [swap2|apply Permutation_refl].
      - apply (perm_trans (Permutation_app_head _ (Permutation_app_head _ P))). papp. }
    gstep; [apply (g_put a_id acells h0 ga Dg i e1 _ Ni')|].
    assert (Nk2 : nth_error (upd Dg i (Some e1)) k = Some None).
    { rewrite <- Nk'. clear - Hik Ni'. revert i k Hik Ni'. induction Dg as [|a D IH]; intros [|i] [|k] H N; cbn in *; try congruence; auto. }
    eapply t_perm with (L' := aarr ga (upd Dg i (Some e1)) ++ acells e2 ++ (carr v Dv ++ aarr ca Dc ++ R)); [papp|].
    eapply t_weak; [apply (g_put a_id acells h0 ga _ k e2 _ Nk2)|].
    intros [] L2 [_ P2]. constructor. exists Dv, (upd (upd Dg i (Some e1)) k (Some e2)), Dc.
    split; [assumption|]. split; [|split; [assumption|apply (perm_trans P2); papp]].
    assert (HI : forall z, In z (acells e2 ++ acells e1 ++ aowned Dg) -> In z (aowned (upd (upd Dg i (Some e1)) k (Some e2)))).
    { intros z Hz. apply (Permutation_in _ (Permutation_sym (owned_upd acells _ k e2 Nk2))).
      apply in_app_or in Hz. apply in_or_app. destruct Hz as [Hz|Hz]; [left; assumption|right].
      apply (Permutation_in _ (Permutation_sym (owned_upd acells _ i e1 Ni'))). assumption. }
    assert (Hj : In (j, c) (aowned (upd (upd Dg i (Some e1)) k (Some e2)))).
    { apply HI. cbn. auto. }
    assert (V : forall e, a_to e = TBlk j -> val (aowned (upd (upd Dg i (Some e1)) k (Some e2))) e w).
    { intros e He. right. destruct Hc as [(s & -> & ->)|(n & -> & ->)]; [left; exists j, s|right; exists j, n]; auto. }
    unfold avals, put. apply Forall2_upd; [apply Forall2_upd|].
    - eapply Forall2_imp; [|exact E2]. intros a b. apply rel_mono. intros z Hz. apply HI.
      apply in_or_app. right. apply in_or_app. right. assumption.
    - cbn [rel]. split; [apply V; reflexivity|exact Logic.I].
    - cbn [rel]. split; [apply V; reflexivity|assumption].
  Qed.
End Init.

(** ** The methods *)
Lemma avals_nine D : avals D nine -> D = nine.
Proof.
  unfold avals. generalize (aowned D). intros B H. unfold nine in *. cbn [repeat] in *.
  repeat match goal with H : Forall2 _ _ (_ :: _) |- _ => inversion H; clear H; subst | H : rel _ ?o None |- _ => destruct o; [destruct H|clear H] end.
  match goal with H : Forall2 _ _ [] |- _ => inversion H end. reflexivity.
Qed.
Lemma cvals_nine D : cvals D = nine -> D = nine.
Proof.
  unfold cvals, nine. cbn [repeat]. do 9 (destruct D as [|[?|] D]; try discriminate).
  destruct D; [reflexivity|discriminate].
Qed.

Section Methods.
  Context (h0 : heap) (Hf : fresh h0).

  Lemma t_frame_in L : triple h0 L frame_in (fun f L' => let '(v, ga, ca) := f in st3 v ga ca nine nine nine L L').
  Proof.
    unfold frame_in. eapply t_bind; [apply (t_new h0 _ _ Hf)|]. intros ga L' ->.
    eapply t_bind; [apply (t_new h0 _ _ Hf)|]. intros v L' ->.
    eapply t_bind; [apply (t_new h0 _ _ Hf)|]. intros ca L' ->.
    apply t_ret. constructor. exists nine, nine, nine.
    split; [reflexivity|]. split; [repeat constructor|]. split; [repeat constructor|].
    unfold arr, owned, ptrs, nine, OFFSET_END. cbn [repeat map flat_map own app option_map].
    apply perm_trans with ((v, CSlots [None; None; None; None; None; None; None; None; None]) ::
      (ca, CSlots [None; None; None; None; None; None; None; None; None]) ::
      (ga, CSlots [None; None; None; None; None; None; None; None; None]) :: L); [swap2|]. apply perm_skip. swap2.
  Qed.

  Lemma t_frame_out v ga ca R L : st3 v ga ca nine nine nine R L -> triple h0 L (frame_out (v, ga, ca)) (fun _ L' => Permutation L' R).
  Proof.
    intros [(Dv & Dg & Dc & E1 & E2 & E3 & P)]. apply cvals_nine in E1. apply avals_nine in E2. apply avals_nine in E3. subst.
    unfold arr, owned, ptrs, nine in P. cbn [repeat map flat_map own app option_map] in P.
    apply (t_perm _ _ _ _ _ P). cbn [frame_out].
    gstep; [eapply g_perm; [swap2|apply g_free; assumption|apply Permutation_refl]|].
    gstep; [apply g_free; assumption|].
    eapply t_weak; [apply g_free; assumption|]. intros [] L' [_ P']. exact P'.
  Qed.

  Lemma t_clear v ga ca vl gl cl R L : length vl = 9 -> length gl = 9 -> length cl = 9 -> st3 v ga ca vl gl cl R L ->
    triple h0 L (exhaustive_clear (mkS (Some v) (Some ga) (Some ca))) (fun _ L' => st3 v ga ca nine nine nine R L').
  Proof.
    intros L1 L2 L3 [(Dv & Dg & Dc & E1 & E2 & E3 & P)]. unfold exhaustive_clear. cbn [validators gen_argss check_argss].
    apply (t_perm _ _ _ _ _ P).
    gstep.
    { apply (g_clear k_id ccells h0 check_free (fun _ => True)).
      - intros; apply check_free_none; assumption.
      - intros; apply check_free_some; assumption.
      - rewrite <- L1, <- E1. unfold cvals. rewrite map_length. reflexivity.
      - apply Forall_forall. intros [?|] _; exact Logic.I. }
    apply t_perm with (L' := aarr ga Dg ++ (aarr ca Dc ++ [(v, CSlots (repeat None 9))] ++ R)).
    { change ((v, CSlots (repeat None 9)) :: aarr ga Dg ++ aarr ca Dc ++ R) with ([(v, CSlots (repeat None 9))] ++ aarr ga Dg ++ aarr ca Dc ++ R). papp. }
    gstep.
    { apply (g_clear a_id acells h0 arg_free agood).
      - intros; apply arg_free_none; assumption.
      - intros; apply arg_free_some; assumption.
      - rewrite <- L2. apply (avals_length _ _ E2).
      - apply (avals_good _ _ E2). }
    apply t_perm with (L' := aarr ca Dc ++ ([(ga, CSlots (repeat None 9))] ++ [(v, CSlots (repeat None 9))] ++ R)).
    { change ((ga, CSlots (repeat None 9)) :: aarr ca Dc ++ [(v, CSlots (repeat None 9))] ++ R) with ([(ga, CSlots (repeat None 9))] ++ aarr ca Dc ++ [(v, CSlots (repeat None 9))] ++ R). papp. }
    eapply t_weak.
    { apply (g_clear a_id acells h0 arg_free agood).
      - intros; apply arg_free_none; assumption.
      - intros; apply arg_free_some; assumption.
      - rewrite <- L3. apply (avals_length _ _ E3).
      - apply (avals_good _ _ E3). }
    intros [] L' [_ P']. constructor. exists nine, nine, nine.
    split; [reflexivity|]. split; [repeat constructor|]. split; [repeat constructor|].
    apply (perm_trans P'). unfold arr, owned, ptrs, nine. cbn [repeat map flat_map own app option_map].
    apply perm_trans with ((ca, CSlots [None; None; None; None; None; None; None; None; None]) ::
      (v, CSlots [None; None; None; None; None; None; None; None; None]) ::
      (ga, CSlots [None; None; None; None; None; None; None; None; None]) :: R); [apply perm_skip; swap2|].
    apply perm_trans with ((v, CSlots [None; None; None; None; None; None; None; None; None]) ::
      (ca, CSlots [None; None; None; None; None; None; None; None; None]) ::
      (ga, CSlots [None; None; None; None; None; None; None; None; None]) :: R); [swap2|]. apply perm_skip. swap2.
  Qed.

  Lemma t_cinit c u v ga ca gl cl R L : st3 v ga ca nine gl cl R L ->
    triple h0 L (cinit c v) (fun _ L' => st3 v ga ca (snd (Plan_Model.exhaustive_cinit c u)) gl cl R L').
  Proof.
    intros HS. unfold cinit, Plan_Model.exhaustive_cinit.
    eapply t_bind; [eapply t_put_check; [assumption|exact HS|reflexivity]|]. clear HS L; intros [] L HS; cbn beta in HS.
    eapply t_bind with (Q := fun _ L' => st3 v ga ca (if is_some (c_hex_check c) then put POINTS [hex_check_param] (put CURVE [curve_check_nonzero] nine) else put CURVE [curve_check_nonzero] nine) gl cl R L').
    { destruct (is_some (c_hex_check c)); [eapply t_put_check; [assumption|exact HS|reflexivity]|apply t_ret; assumption]. }
    clear HS L; intros [] L HS; cbn beta in HS.
    destruct (c_method c =? METHOD_SEED)%Z; [|apply t_ret; exact HS].
    destruct ((c_seed_algo c =? SEED_BRAINPOOL) || (c_seed_algo c =? SEED_BRAINPOOL_RFC))%Z.
    - eapply t_bind; [eapply t_put_check; [assumption|exact HS|destruct (is_some (c_hex_check c)); reflexivity]|]. clear HS L; intros [] L HS; cbn beta in HS.
      cbn [snd]. eapply t_put_check; [assumption|exact HS|destruct (is_some (c_hex_check c)); reflexivity].
    - destruct (c_seed_algo c =? SEED_NUMS)%Z; [|apply t_ret; exact HS].
      cbn [snd]. eapply t_put_check; [assumption|exact HS|destruct (is_some (c_hex_check c)); reflexivity].
  Qed.

  Lemma t_hex c v ga ca vl gl R L : st3 v ga ca vl gl nine R L ->
    triple h0 L (hex_init c ca) (fun _ L' => st3 v ga ca vl gl (hex_args c) R L').
  Proof.
    intros HS. unfold hex_init, hex_args. destruct (c_hex_check c); [|apply t_ret; assumption].
    eapply t_put_arg_c; [assumption|exact HS|reflexivity].
  Qed.

  Lemma t_points c v ga ca vl gl cl R L : nth_error gl POINTS = Some None -> st3 v ga ca vl gl cl R L ->
    triple h0 L (if (c_points_type c =? POINTS_RANDOM)%Z then put_arg ga POINTS (Amount (c_points_amount c)) else ret tt)
      (fun _ L' => st3 v ga ca vl (if (c_points_type c =? POINTS_RANDOM)%Z then put POINTS (Amount (c_points_amount c)) gl else gl) cl R L').
  Proof.
    intros N HS. destruct (c_points_type c =? POINTS_RANDOM)%Z; [|apply t_ret; assumption].
    eapply t_put_arg_g; [assumption|exact HS|assumption].
  Qed.

  Lemma t_ainit c v ga ca vl R L : c_cofactor c && c_smooth c = false -> st3 v ga ca vl nine nine R L ->
    triple h0 L (ainit c ga ca)
      (fun _ L' => st3 v ga ca vl (fst (Plan_Model.exhaustive_ainit c)) (snd (Plan_Model.exhaustive_ainit c)) R L').
  Proof.
    intros Hx HS. unfold ainit, Plan_Model.exhaustive_ainit. cbn [fst snd].
    eapply t_bind; [apply (t_points c v ga ca vl nine nine R L); [reflexivity|assumption]|]. clear HS L; intros [] L HS; cbn beta in HS.
    set (g1 := if (c_points_type c =? POINTS_RANDOM)%Z then _ else _) in *.
    assert (N1 : nth_error g1 ORDER = Some None /\ nth_error g1 GENERATORS = Some None)
      by (unfold g1; destruct (c_points_type c =? POINTS_RANDOM)%Z; split; reflexivity).
    eapply t_bind with (Q := fun _ L' => st3 v ga ca vl
      (if c_cofactor c then put GENERATORS (Cofactor (c_cofactor_value c)) (put ORDER (Cofactor (c_cofactor_value c)) g1) else g1) nine R L').
    { destruct (c_cofactor c); [|apply t_ret; assumption].
      eapply t_bind; [apply (t_new h0 _ _ Hf)|]. intros o L' ->.
      eapply t_bind; [apply (t_new h0 _ _ Hf)|]. intros g L' ->.
      gstep; [eapply g_perm; [swap2|apply g_arg_set|swap2]|].
      gstep; [apply g_arg_set|].
      set (w := Cofactor (c_cofactor_value c)).
      apply t_perm with (L' := acells (mkA o (TCfg w) None) ++ ((g, CArg (TCfg w) 1 None) :: L)); [cbn; swap2|].
      assert (HS' : st3 v ga ca vl g1 nine ((g, CArg (TCfg w) 1 None) :: R) ((g, CArg (TCfg w) 1 None) :: L)).
      { destruct HS as [(Dv & Dg & Dc & E1 & E2 & E3 & P)]. constructor. exists Dv, Dg, Dc.
        split; [assumption|]. split; [assumption|]. split; [assumption|].
        apply (perm_trans (perm_skip _ P)).
        change ((g, CArg (TCfg w) 1 None) :: R) with ([(g, CArg (TCfg w) 1 None)] ++ R).
        change ((g, CArg (TCfg w) 1 None) :: carr v Dv ++ aarr ga Dg ++ aarr ca Dc ++ R) with ([(g, CArg (TCfg w) 1 None)] ++ carr v Dv ++ aarr ga Dg ++ aarr ca Dc ++ R).
        papp. }
      eapply t_bind; [apply (t_put_garg h0 v ga ca ORDER (mkA o (TCfg w) None) w vl g1 nine _ _ HS' (proj1 N1)); [|exact Logic.I]|].
      { intros Dg _. left. reflexivity. }
      intros [] L2 [(Dv & Dg & Dc & E1 & E2 & E3 & P)].
      assert (HS2 : st3 v ga ca vl (put ORDER w g1) nine R (carr v Dv ++ aarr ga Dg ++ aarr ca Dc ++ R)).
      { constructor. exists Dv, Dg, Dc. auto. }
      apply t_perm with (L' := acells (mkA g (TCfg w) None) ++ (carr v Dv ++ aarr ga Dg ++ aarr ca Dc ++ R)).
      { apply (perm_trans P). cbn [acells a_id a_to a_own option_map].
        change ((g, CArg (TCfg w) 1 None) :: R) with ([(g, CArg (TCfg w) 1 None)] ++ R). papp. }
      apply (t_put_garg h0 v ga ca GENERATORS (mkA g (TCfg w) None) w vl _ nine _ _ HS2); [|intros Dg' _; left; reflexivity|exact Logic.I].
      unfold g1; destruct (c_points_type c =? POINTS_RANDOM)%Z; reflexivity. }
    clear HS L; intros [] L HS; cbn beta in HS.
    eapply t_bind with (Q := fun _ L' => st3 v ga ca vl (if c_smooth c then put ORDER (Smooth (c_smooth_value c))
      (if c_cofactor c then put GENERATORS (Cofactor (c_cofactor_value c)) (put ORDER (Cofactor (c_cofactor_value c)) g1) else g1)
      else if c_cofactor c then put GENERATORS (Cofactor (c_cofactor_value c)) (put ORDER (Cofactor (c_cofactor_value c)) g1) else g1) nine R L').
    { destruct (c_smooth c); [|apply t_ret; assumption].
      rewrite andb_true_r in Hx. rewrite Hx in *. eapply t_put_arg_g; [assumption|exact HS|exact (proj1 N1)]. }
    clear HS L; intros [] L HS; cbn beta in HS. apply t_hex. assumption.
  Qed.

  (** reading *)
  Lemma sat_slots L h a l i : sat h0 L h -> In (a, CSlots l) L -> forall p, nth_error l i = Some p -> slot_get a i h = Ok (p, h).
  Proof.
    intros Hs Ha p Hp. unfold slot_get, slots, mbind, load, ret, lift, rd. rewrite (sat_in _ _ _ Hs _ _ Ha). rewrite Hp. reflexivity.
  Qed.

  Lemma stage_arg_ok L h a D vals i : sat h0 L h -> incl (aarr a D) L -> avals D vals -> i < length vals ->
    stage_arg (Some a) i h = Ok (option_map (pair 1%Z) (nth i vals None), h).
  Proof.
    intros Hs HI HV Hi. assert (Ha : In (a, CSlots (ptrs a_id D)) L) by (apply HI; left; reflexivity).
    assert (HB : incl (aowned D) L) by (intros z Hz; apply HI; right; assumption).
    pose proof (avals_length _ _ HV) as Hl. unfold avals in HV.
    assert (X : exists o w, nth_error D i = Some o /\ nth i vals None = w /\ rel (aowned D) o w).
    { revert HV. generalize (aowned D). intros B HV. clear - HV Hi. revert i Hi. induction HV as [|o w D vals Hr H IH]; intros i Hi; cbn in Hi; [lia|].
      destruct i; [exists o, w; auto|]. cbn. apply IH. lia. }
    destruct X as (o & w & No & Nw & Hr).
    assert (Np : nth_error (ptrs a_id D) i = Some (option_map a_id o)) by (unfold ptrs; rewrite nth_error_map, No; reflexivity).
    unfold stage_arg. unfold mbind at 1. rewrite (sat_slots L h a _ i Hs Ha _ Np). rewrite Nw.
    destruct o as [e|]; cbn [option_map]; [|destruct w; [destruct Hr|reflexivity]].
    destruct w as [w|]; [|destruct Hr]. destruct Hr as [Hv Hg].
    assert (He : In (a_id e, CArg (a_to e) 1 (option_map fst (a_own e))) L).
    { apply HB. unfold owned. apply in_flat_map. exists (Some e). split; [apply (nth_error_In _ _ No)|]. left. reflexivity. }
    unfold load_arg, mbind, load, ret. rewrite (sat_in _ _ _ Hs _ _ He).
    destruct Hv as [->|[(j & s & -> & Hj & ->)|(j & k & -> & Hj & ->)]]; [reflexivity| |];
      rewrite (sat_in _ _ _ Hs _ _ (HB _ Hj)); reflexivity.
  Qed.

  Lemma read_checks_ok L h q fs : sat h0 L h -> In (q, CFuns (map Some fs)) L -> forall n k, k + n = length fs ->
    read_checks (Some q) n k h = Ok (skipn k fs, h).
  Proof.
    intros Hs Hq. induction n as [|n IH]; intros k Hk; cbn [read_checks].
    - unfold ret. rewrite skipn_all2 by lia. reflexivity.
    - assert (X : exists f, nth_error fs k = Some f).
      { destruct (nth_error fs k) as [f|] eqn:E; [exists f; reflexivity|]. apply nth_error_None in E. lia. }
      destruct X as [f Hfk].
      unfold load_funs, mbind, load, ret, lift, rd. rewrite (sat_in _ _ _ Hs _ _ Hq). rewrite nth_error_map, Hfk. cbn [option_map].
      rewrite (IH (S k)) by lia.
      clear - Hfk. revert k Hfk. induction fs as [|g fs IH]; intros [|k] H; cbn in *; try discriminate.
      + inversion H; subst. reflexivity.
      + apply IH. assumption.
  Qed.

  Lemma stage_checks_ok L h a D i : sat h0 L h -> incl (carr a D) L -> i < length D ->
    stage_checks (Some a) i h = Ok (nth i (cvals D) None, h).
  Proof.
    intros Hs HI Hi. assert (Ha : In (a, CSlots (ptrs k_id D)) L) by (apply HI; left; reflexivity).
    destruct (nth_error D i) as [o|] eqn:No; [|apply nth_error_None in No; lia].
    assert (Np : nth_error (ptrs k_id D) i = Some (option_map k_id o)) by (unfold ptrs; rewrite nth_error_map, No; reflexivity).
    assert (Nv : nth i (cvals D) None = option_map k_list o).
    { apply nth_error_nth. unfold cvals. rewrite nth_error_map, No. reflexivity. }
    rewrite Nv. unfold stage_checks. unfold mbind at 1. rewrite (sat_slots L h a _ i Hs Ha _ Np).
    destruct o as [e|]; cbn [option_map]; [|reflexivity].
    assert (He : forall z, In z (ccells e) -> In z L).
    { intros z Hz. apply HI. right. unfold owned. apply in_flat_map. exists (Some e). split; [apply (nth_error_In _ _ No)|]. assumption. }
    unfold load_check. unfold mbind, load, ret. rewrite (sat_in _ _ _ Hs _ _ (He _ (or_introl eq_refl))).
    rewrite (read_checks_ok L h (k_funs e) (k_list e) Hs (He _ (or_intror (or_introl eq_refl))) (length (k_list e)) 0) by lia.
    reflexivity.
  Qed.

  Lemma st3_shows v ga ca vl gl cl R L h g un : length vl = 9 -> length gl = 9 -> length cl = 9 ->
    sat h0 L h -> st3 v ga ca vl gl cl R L ->
    shows h (mkS (Some v) (Some ga) (Some ca)) (Plan_Model.mkSetup g gl vl cl un).
  Proof.
    intros L1 L2 L3 Hs [(Dv & Dg & Dc & E1 & E2 & E3 & P)] i Hi. cbn [gen_argss validators check_argss s_gargs s_checks s_cargs].
    assert (HI : incl (carr v Dv ++ aarr ga Dg ++ aarr ca Dc ++ R) L) by (intros z Hz; apply (Permutation_in _ (Permutation_sym P) Hz)).
    split; [|split].
    - apply (stage_arg_ok L h ga Dg gl i Hs); [|assumption|lia]. intros z Hz. apply HI. rewrite !in_app_iff. auto.
    - rewrite <- E1. apply (stage_checks_ok L h v Dv i Hs).
      + intros z Hz. apply HI. rewrite !in_app_iff. auto.
      + rewrite <- E1 in L1. unfold cvals in L1. rewrite map_length in L1. lia.
    - apply (stage_arg_ok L h ca Dc cl i Hs); [|assumption|lia]. intros z Hz. apply HI. rewrite !in_app_iff. auto.
  Qed.
End Methods.

Lemma sat_start h : sat h [] h.
Proof. constructor; cbn; auto; [constructor|intros ? ? []|intros ? ? []]. Qed.

Lemma sat_end h0 L h : Permutation L [] -> sat h0 L h -> same h0 h.
Proof.
  intros P Hs i. apply (sat_out _ _ _ Hs). apply Permutation_sym, Permutation_nil in P. subst. auto.
Qed.

(** a quiet computation leaves an assertion alone *)
Lemma sat_quiet h0 L h h' : fresh h0 -> sat h0 L h -> same h h' -> next h <= next h' -> sat h0 L h'.
Proof.
  intros Hf [H1 H2 H3 H4 H5] Hsame Hn. constructor; auto.
  - intros i c Hi. specialize (H2 _ _ Hi). lia.
  - intros i c Hi. rewrite Hsame. auto.
  - intros i Hi. rewrite Hsame. auto.
  - lia.
Qed.

Lemma sat_fresh h0 L h : fresh h0 -> sat h0 L h -> fresh h.
Proof.
  intros Hf [H1 H2 H3 H4 H5] i Hi. rewrite H4; [apply Hf; lia|].
  intros Hj. apply in_map_iff in Hj. destruct Hj as ([k c] & E & Hk). cbn in E. subst k. specialize (H2 _ _ Hk). lia.
Qed.

Lemma t_quiet {A} h0 L (m : M A) a : fresh h0 -> (forall h1, sat h0 L h1 -> quiet_at m a h1) ->
  triple h0 L m (fun r L' => r = a /\ L' = L).
Proof.
  intros Hf H h1 Hs. destruct (H h1 Hs) as (h' & E & Hsame & Hfr & Hn). exists a, L, h'.
  split; [assumption|]. split; [|auto]. apply (sat_quiet h0 L h1 h' Hf Hs Hsame Hn).
Qed.

Lemma balanced_of {A} (m : M A) a h : triple h [] m (fun r L => r = a /\ Permutation L []) -> balanced m a h.
Proof.
  intros H. destruct (H h (sat_start h)) as (r & L & h' & E & Hs & -> & P). exists h'. split; [assumption|].
  apply (sat_end h L h' P Hs).
Qed.

Lemma cinit_length c u : length (snd (Plan_Model.exhaustive_cinit c u)) = 9.
Proof.
  unfold Plan_Model.exhaustive_cinit. destruct (c_method c =? METHOD_SEED)%Z; destruct (is_some (c_hex_check c));
    destruct ((c_seed_algo c =? SEED_BRAINPOOL) || (c_seed_algo c =? SEED_BRAINPOOL_RFC))%Z; destruct (c_seed_algo c =? SEED_NUMS)%Z; reflexivity.
Qed.
Lemma hex_length c : length (hex_args c) = 9.
Proof. unfold hex_args. destruct (c_hex_check c); reflexivity. Qed.
Lemma ainit_length c : length (fst (Plan_Model.exhaustive_ainit c)) = 9.
Proof.
  unfold Plan_Model.exhaustive_ainit. cbn [fst].
  destruct (c_points_type c =? POINTS_RANDOM)%Z, (c_cofactor c), (c_smooth c); reflexivity.
Qed.
Lemma cm_ainit_length c : length (fst (Plan_Model.cm_ainit c)) = 9.
Proof.
  unfold Plan_Model.cm_ainit. cbn [fst].
  destruct (c_points_type c =? POINTS_RANDOM)%Z, (c_method c =? METHOD_CM)%Z, (c_method c =? METHOD_ANOMALOUS)%Z; reflexivity.
Qed.
Lemma cm_cinit_length c u : length (snd (Plan_Model.cm_cinit c u)) = 9.
Proof. unfold Plan_Model.cm_cinit. cbn [snd]. destruct (is_some (c_hex_check c)); reflexivity. Qed.

Section Run.
  Context (h0 : heap) (Hf : fresh h0).

  (** the engine runs on a plan that is in memory *)
  Lemma t_body {A} (body : setup -> M A) a v ga ca vl gl cl R L g un :
    length vl = 9 -> length gl = 9 -> length cl = 9 -> st3 v ga ca vl gl cl R L ->
    (forall su h1, fresh h1 -> shows h1 su (Plan_Model.mkSetup g gl vl cl un) -> quiet_at (body su) a h1) ->
    triple h0 L (body (mkS (Some v) (Some ga) (Some ca))) (fun r L' => r = a /\ L' = L).
  Proof.
    intros L1 L2 L3 HS Hb. apply (t_quiet h0 L _ a Hf). intros h1 Hs. apply Hb; [apply (sat_fresh h0 L h1 Hf Hs)|].
    apply (st3_shows h0 v ga ca vl gl cl R L h1 g un); assumption.
  Qed.

  Lemma t_exhaustive c u (body : setup -> M Z) rv g un :
    c_cofactor c && c_smooth c = false ->
    (forall su h1, fresh h1 ->
       shows h1 su (Plan_Model.mkSetup g (fst (Plan_Model.exhaustive_ainit c)) (snd (Plan_Model.exhaustive_cinit c u)) (hex_args c) un) ->
       quiet_at (body su) rv h1) ->
    triple h0 [] (exhaustive_do c body) (fun r L => r = rv /\ Permutation L []).
  Proof.
    intros Hx Hb. unfold exhaustive_do.
    eapply t_bind; [apply (t_frame_in h0 Hf)|]. intros [[v ga] ca] L HS. cbn beta iota in HS.
    eapply t_bind with (Q := fun su L' => su = mkS (Some v) (Some ga) (Some ca) /\
      st3 v ga ca (snd (Plan_Model.exhaustive_cinit c u)) (fst (Plan_Model.exhaustive_ainit c)) (hex_args c) [] L').
    { unfold exhaustive_init. eapply t_bind; [apply (t_cinit h0 Hf c u); exact HS|]. intros [] L1 H1. cbn beta in H1.
      eapply t_bind; [apply (t_ainit h0 Hf c v ga ca _ [] L1 Hx H1)|]. intros [] L2 H2. apply t_ret. split; [reflexivity|exact H2]. }
    clear HS L. intros su L [-> HS].
    eapply t_bind; [eapply (t_body body rv v ga ca _ _ _ [] L g un); [apply cinit_length|apply ainit_length|apply hex_length|exact HS|exact Hb]|].
    intros r L' [-> ->].
    eapply t_bind; [eapply (t_clear h0 Hf v ga ca); [apply cinit_length|apply ainit_length|apply hex_length|exact HS]|].
    clear HS L. intros [] L HS. cbn beta in HS.
    eapply t_bind; [apply (t_frame_out h0 Hf v ga ca [] L HS)|].
    intros [] L' P. apply t_ret. split; [reflexivity|assumption].
  Qed.

  (** *** complex multiplication and its relatives *)
  Lemma st3_more v ga ca vl gl cl R L b : st3 v ga ca vl gl cl R L -> st3 v ga ca vl gl cl (b :: R) (b :: L).
  Proof.
    intros [(Dv & Dg & Dc & E1 & E2 & E3 & P)]. constructor. exists Dv, Dg, Dc.
    split; [assumption|]. split; [assumption|]. split; [assumption|].
    apply (perm_trans (perm_skip _ P)). change (b :: R) with ([b] ++ R).
    change (b :: carr v Dv ++ aarr ga Dg ++ aarr ca Dc ++ R) with ([b] ++ carr v Dv ++ aarr ga Dg ++ aarr ca Dc ++ R).
    papp.
  Qed.

  Lemma st3_moreL v ga ca vl gl cl R L B : st3 v ga ca vl gl cl R L -> st3 v ga ca vl gl cl (B ++ R) (B ++ L).
  Proof. induction B as [|b B IH]; intros H; [exact H|]. apply st3_more. apply IH. assumption. Qed.

  Lemma st3_perm v ga ca vl gl cl R R' L L' : Permutation R R' -> Permutation L L' -> st3 v ga ca vl gl cl R L -> st3 v ga ca vl gl cl R' L'.
  Proof.
    intros P1 P2 [(Dv & Dg & Dc & E1 & E2 & E3 & P)]. constructor. exists Dv, Dg, Dc.
    split; [assumption|]. split; [assumption|]. split; [assumption|].
    apply (perm_trans (Permutation_sym P2)). apply (perm_trans P). repeat apply Permutation_app_head. assumption.
  Qed.

  (** taking something out of the rest *)
  Lemma st3_rest v ga ca vl gl cl B R L : st3 v ga ca vl gl cl (B ++ R) L -> exists L1, Permutation L (B ++ L1) /\ st3 v ga ca vl gl cl R L1.
  Proof.
    intros [(Dv & Dg & Dc & E1 & E2 & E3 & P)]. exists (carr v Dv ++ aarr ga Dg ++ aarr ca Dc ++ R). split.
    - apply (perm_trans P). papp.
    - constructor. exists Dv, Dg, Dc. auto.
  Qed.

  Lemma t_text {L} o s : (exists a, o = TCfg (Order (Some a)) /\ a = s) \/ (exists j, o = TBlk j /\ In (j, CText s) L) ->
    triple h0 L (text_at o) (fun r L' => r = s /\ L' = L).
  Proof.
    intros [(a & -> & ->)|(j & -> & Hj)] h1 Hs.
    - exists s, L, h1. auto.
    - exists s, L, h1. unfold text_at, mbind, load, ret. rewrite (sat_in _ _ _ Hs _ _ Hj). auto.
  Qed.

  Lemma t_cm_ainit c o s v ga ca vl R L :
    (c_method c = METHOD_CM -> (o = TCfg (Order (Some s)) \/ exists j, o = TBlk j /\ In (j, CText s) L) /\ c_cm_order c = Some s) ->
    st3 v ga ca vl nine nine R L ->
    triple h0 L (cm_ainit c o ga ca)
      (fun _ L' => st3 v ga ca vl (fst (Plan_Model.cm_ainit c)) (snd (Plan_Model.cm_ainit c)) R L').
  Proof.
    intros Ho HS. unfold cm_ainit, Plan_Model.cm_ainit. cbn [fst snd].
    eapply t_bind with (Q := fun _ L' => st3 v ga ca vl
      (if (c_method c =? METHOD_CM)%Z then put ORDER (Order (c_cm_order c)) (put CURVE (Order (c_cm_order c)) nine) else nine) nine R L').
    { destruct (Z.eqb_spec (c_method c) METHOD_CM) as [Em|]; [|apply t_ret; assumption].
      destruct (Ho Em) as [Ho1 Ho2]. rewrite Ho2.
      eapply t_bind; [apply (t_new h0 _ _ Hf)|]. intros x L' ->.
      eapply t_bind; [apply (t_new h0 _ _ Hf)|]. intros y L' ->.
      eapply t_bind; [apply t_text with (s := s)|].
      { destruct Ho1 as [->|(j & -> & Hj)]; [left; eauto|right; exists j; split; [reflexivity|right; right; assumption]]. }
      intros r L' [-> ->].
      eapply t_bind; [apply (t_new h0 _ _ Hf)|]. intros t L' ->.
      gstep; [eapply g_perm; [|apply g_arg_set|apply Permutation_refl]|].
      { apply perm_trans with ((t, CText s) :: (x, CArg TNull 0 None) :: (y, CArg TNull 0 None) :: L); [apply perm_skip; swap2|swap2]. }
      gstep; [eapply g_perm; [|apply g_arg_set|apply Permutation_refl]|].
      { apply perm_trans with ((x, CArg (TBlk t) 1 None) :: (y, CArg TNull 0 None) :: (t, CText s) :: L); [apply perm_skip; swap2|swap2]. }
      gstep; [apply g_arg_own|].
      apply (t_put_two h0 v ga ca CURVE ORDER (Order (Some s)) t (CText s) x y vl nine nine R L HS);
        [discriminate|reflexivity|reflexivity|left; exists s; auto]. }
    clear HS Ho. revert L. intros L0. clear L0. intros [] L HS. cbn beta in HS.
    set (g1 := if (c_method c =? METHOD_CM)%Z then _ else _) in *.
    assert (N1 : nth_error g1 FIELD = Some None /\ nth_error g1 B = Some None /\ nth_error g1 POINTS = Some None)
      by (unfold g1; destruct (c_method c =? METHOD_CM)%Z; repeat split; reflexivity).
    destruct N1 as (N1 & N2 & N3).
    eapply t_bind with (Q := fun _ L' => st3 v ga ca vl
      (if (c_method c =? METHOD_ANOMALOUS)%Z then put B (Discr 3) (put FIELD (Discr 3) g1) else g1) nine R L').
    { destruct (c_method c =? METHOD_ANOMALOUS)%Z; [|apply t_ret; assumption].
      eapply t_bind; [apply (t_new h0 _ _ Hf)|]. intros x L' ->.
      eapply t_bind; [apply (t_new h0 _ _ Hf)|]. intros y L' ->.
      eapply t_bind; [apply (t_new h0 _ _ Hf)|]. intros t L' ->.
      gstep; [apply g_store|].
      gstep; [eapply g_perm; [|apply g_arg_set|apply Permutation_refl]|].
      { apply perm_trans with ((t, CNum 3) :: (x, CArg TNull 0 None) :: (y, CArg TNull 0 None) :: L); [apply perm_skip; swap2|swap2]. }
      gstep; [eapply g_perm; [|apply g_arg_set|apply Permutation_refl]|].
      { apply perm_trans with ((x, CArg (TBlk t) 1 None) :: (y, CArg TNull 0 None) :: (t, CNum 3) :: L); [apply perm_skip; swap2|swap2]. }
      gstep; [apply g_arg_own|].
      apply (t_put_two h0 v ga ca FIELD B (Discr 3) t (CNum 3) x y vl g1 nine R L HS);
        [discriminate|assumption|assumption|right; exists 3%Z; auto]. }
    clear HS. intros [] L1 HS. cbn beta in HS.
    eapply t_bind; [eapply t_points; [assumption| |exact HS]|].
    { destruct (c_method c =? METHOD_ANOMALOUS)%Z; [|assumption].
      unfold g1; destruct (c_method c =? METHOD_CM)%Z; reflexivity. }
    clear HS. intros [] L2 HS. cbn beta in HS. apply t_hex; assumption.
  Qed.

  Lemma t_cm_cinit c u v ga ca gl cl R L : st3 v ga ca nine gl cl R L ->
    triple h0 L (cm_cinit c v) (fun _ L' => st3 v ga ca (snd (Plan_Model.cm_cinit c u)) gl cl R L').
  Proof.
    intros HS. unfold cm_cinit, Plan_Model.cm_cinit. cbn [snd].
    eapply t_bind; [eapply t_put_check; [assumption|exact HS|reflexivity]|]. clear HS L; intros [] L HS; cbn beta in HS.
    destruct (is_some (c_hex_check c)); [eapply t_put_check; [assumption|exact HS|reflexivity]|apply t_ret; assumption].
  Qed.

  (** disc_table *)
  Definition disc_cells (l : list ptr) : blocks := flat_map (fun p => match p with Some i => [(i, CData)] | None => [] end) l.
  Definition table (p : ptr) (B : blocks) : Prop :=
    match p with None => B = [] | Some t => exists l, B = (t, CTable l) :: disc_cells l end.

  Lemma t_new_discs n L : triple h0 L (new_discs n) (fun l L' => Permutation L' (disc_cells l ++ L)).
  Proof.
    revert L. induction n as [|n IH]; intros L; cbn [new_discs]; [apply t_ret; apply Permutation_refl|].
    eapply t_bind; [apply (t_new h0 _ _ Hf)|]. intros i L' ->.
    eapply t_bind; [apply IH|]. intros l L' P. apply t_ret. cbn [disc_cells flat_map app]. fold (disc_cells l).
    apply (perm_trans P). apply Permutation_sym. apply Permutation_middle.
  Qed.

  Lemma t_anomalous_init L : triple h0 L anomalous_init (fun p L' => exists B, table p B /\ Permutation L' (B ++ L)).
  Proof.
    unfold anomalous_init. eapply t_bind; [apply (t_new h0 _ _ Hf)|]. intros t L' ->.
    eapply t_bind; [apply t_new_discs|]. intros l L' P.
    apply (t_perm _ _ _ _ _ P).
    gstep; [eapply g_perm; [apply Permutation_sym; apply Permutation_middle|apply g_store|apply Permutation_refl]|].
    apply t_ret. exists ((t, CTable l) :: disc_cells l). split; [exists l; reflexivity|apply Permutation_refl].
  Qed.

  Lemma t_free_discs l L : triple h0 (disc_cells l ++ L) (free_discs l) (fun _ L' => Permutation L' L).
  Proof.
    revert L. induction l as [|[i|] l IH]; intros L; cbn [free_discs disc_cells flat_map app].
    - apply t_ret. apply Permutation_refl.
    - gstep; [apply g_try_free; [assumption|discriminate]|]. apply IH.
    - gstep; [apply g_ret|]. apply IH.
  Qed.

  Lemma t_anomalous_quit p B L : table p B -> triple h0 (B ++ L) (anomalous_quit p) (fun _ L' => Permutation L' L).
  Proof.
    destruct p as [t|]; cbn [table anomalous_quit]; [|intros ->; apply t_ret; apply Permutation_refl].
    intros [l ->]. cbn [app]. gstep; [apply g_load|].
    eapply t_bind.
    { apply t_perm with (L' := disc_cells l ++ ((t, CTable l) :: L)); [apply Permutation_middle|]. apply t_free_discs. }
    intros [] L' P. apply (t_perm _ _ _ _ _ P).
    eapply t_weak; [apply g_try_free; [assumption|discriminate]|]. intros [] L2 [_ P2]. exact P2.
  Qed.
End Run.
