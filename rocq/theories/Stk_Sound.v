(** The checker of Stk_Check is sound. *)
From Coq Require Import Ascii String.
From Verif Require Import Base Stk_Model Stk_Check.
Local Arguments is_live_clone : simpl never.
Local Arguments memb : simpl never.
Local Arguments drop_clones : simpl never.
Local Arguments bottom : simpl never.
Local Arguments minter : simpl never.
Local Arguments lunion : simpl never.
Local Arguments madd : simpl never.

Lemma leqb_eq a b : leqb a b = true <-> a = b.
Proof.
  split.
  - destruct a, b; cbn; intros H; try discriminate; try reflexivity. apply String.eqb_eq in H. now subst.
  - intros <-. destruct a; try reflexivity. apply String.eqb_refl.
Qed.
Lemma leqb_refl a : leqb a a = true.
Proof. now apply leqb_eq. Qed.
Lemma meqb_eq a b : meqb a b = true <-> a = b.
Proof.
  split.
  - destruct a, b; cbn; intros H; try discriminate; try reflexivity. + apply String.eqb_eq in H. now subst. + apply Nat.eqb_eq in H. now subst.
  - intros <-. destruct a; [apply String.eqb_refl|apply Nat.eqb_refl|reflexivity|reflexivity].
Qed.
Lemma linb_In x l : linb x l = true <-> In x l.
Proof.
  induction l as [|y l IH]; cbn; [split; [discriminate|tauto]|]. rewrite orb_true_iff, leqb_eq, IH. split; intros [H|H]; auto.
Qed.
Lemma minb_In x l : minb x l = true <-> In x l.
Proof.
  induction l as [|y l IH]; cbn; [split; [discriminate|tauto]|]. rewrite orb_true_iff, meqb_eq, IH. split; intros [H|H]; auto.
Qed.
Lemma lunion_In x l k : In x (lunion l k) <-> In x l \/ In x k.
Proof.
  unfold lunion. rewrite in_app_iff, filter_In. split; [tauto|]. intros [H|H]; [tauto|]. destruct (linb x l) eqn:E; [left; now apply linb_In|right; auto].
Qed.
Lemma minter_In x l k : In x (minter l k) <-> In x l /\ In x k.
Proof. unfold minter. rewrite filter_In, minb_In. tauto. Qed.
Lemma lincl_In l k : lincl l k = true -> forall x, In x l -> In x k.
Proof. unfold lincl. rewrite forallb_forall. intros H x I. apply linb_In. auto. Qed.
Lemma mincl_In l k : mincl l k = true -> forall x, In x l -> In x k.
Proof. unfold mincl. rewrite forallb_forall. intros H x I. apply minb_In. auto. Qed.
Lemma madd_In x m l : In x (madd m l) <-> x = m \/ In x l.
Proof.
  unfold madd. destruct (minb m l) eqn:E; cbn.
  - apply minb_In in E. split; [tauto|]. intros [->|H]; auto.
  - split; intros [H|H]; auto.
Qed.
Lemma aget_In x l v : aget x l = Some v -> In (x, v) l.
Proof.
  induction l as [|(y, k) l IH]; cbn; [discriminate|]. destruct (leqb x y) eqn:E; [|intros H; right; auto].
  apply leqb_eq in E. subst. intros [= <-]. now left.
Qed.
Lemma mget_In x l v : mget x l = Some v -> In (x, v) l.
Proof.
  induction l as [|(y, k) l IH]; cbn; [discriminate|]. destruct (meqb x y) eqn:E; [|intros H; right; auto].
  apply meqb_eq in E. subst. intros [= <-]. now left.
Qed.
Lemma arem_In x y v l : In (y, v) (arem x l) <-> In (y, v) l /\ y <> x.
Proof.
  unfold arem. rewrite filter_In. cbn. rewrite negb_true_iff. split; intros (H & E); split; auto.
  - intros ->. now rewrite leqb_refl in E.
  - destruct (leqb y x) eqn:F; [apply leqb_eq in F; contradiction|reflexivity].
Qed.
Lemma memb_In n l : memb n l = true <-> In n l.
Proof.
  unfold memb. rewrite existsb_exists. split.
  - intros (y & H & E). apply Nat.eqb_eq in E. now subst.
  - intros H. exists n. split; [exact H|apply Nat.eqb_refl].
Qed.

(** ** The bottom of the stack *)
Lemma bottom_length h l : length (bottom h l) = Nat.min h (length l).
Proof. unfold bottom. rewrite skipn_length. lia. Qed.
Lemma skipn_skipn' {A} i : forall j (l : list A), skipn i (skipn j l) = skipn (j + i) l.
Proof. induction j; intros l; [reflexivity|]. destruct l; [now rewrite !skipn_nil|]. cbn. apply IHj. Qed.
Lemma bottom_bottom k h l : bottom k (bottom h l) = bottom (Nat.min k h) l.
Proof. unfold bottom at 1. rewrite bottom_length. unfold bottom. rewrite skipn_skipn'. f_equal. lia. Qed.
Lemma bottom_all l : bottom (length l) l = l.
Proof. unfold bottom. now rewrite Nat.sub_diag. Qed.
Lemma bottom_cons x k n l : In x (bottom k l) -> In x (bottom k (n :: l)).
Proof.
  unfold bottom. cbn [length]. intros H. destruct (Nat.le_gt_cases k (length l)).
  - replace (S (length l) - k) with (S (length l - k)) by lia. exact H.
  - replace (length l - k) with 0 in H by lia. cbn in H. replace (S (length l) - k) with 0 by lia. now right.
Qed.
Lemma bottom_both x k h l : In x (bottom k l) -> In x (bottom h l) -> In x (bottom (Nat.min k h) l).
Proof. intros. destruct (Nat.min_dec k h) as [->| ->]; assumption. Qed.
Lemma bottom_In x k l : In x (bottom k l) -> In x l.
Proof.
  unfold bottom. intros H. rewrite <- (firstn_skipn (length l - k) l). apply in_or_app. now right.
Qed.

(** ** Meaning of the abstract states *)
Definition labelled (o d : list lval) (r : ref) : Prop :=
  match r with Clone x _ => In x o | Dep x _ => In x d | _ => True end.
Definition older (w : world) (ms : list mark) (r : ref) : Prop :=
  match r with Stack n => forall m, In m ms -> In n (bottom (marks w m) (stk w)) | _ => True end.
Definition vsat (w : world) (o : option (list ref)) (v : aval) : Prop :=
  match v with
  | ANull => o = None
  | AVal n ow d f =>
      match o with
      | None => n = true
      | Some l => Forall (labelled ow d) l /\
                  match f with None => True | Some ms => Forall (fun r => live w r = true /\ older w ms r) l end
      end
  end.
Definition msat (w : world) (m : mark) (l : list mark) : Prop :=
  marks w m <= length (stk w) /\ forall m', In m' l -> marks w m <= marks w m'.
Definition sat (w : world) (a : astate) : Prop :=
  (forall x v, In (x, v) (avs a) -> vsat w (vars w x) v) /\ (forall m l, In (m, l) (ams a) -> msat w m l).

(** ** Order and join *)
Lemma labelled_mono o d o' d' r : (forall x, In x o -> In x o') -> (forall x, In x d -> In x d') -> labelled o d r -> labelled o' d' r.
Proof. intros. destruct r; cbn in *; auto. Qed.
Lemma older_mono w ms ms' r : (forall m, In m ms' -> In m ms) -> older w ms r -> older w ms' r.
Proof. intros. destruct r; cbn in *; auto. Qed.
Lemma vsat_vleq w o v k : vleq v k = true -> vsat w o v -> vsat w o k.
Proof.
  destruct v as [|n ow d f], k as [|n' ow' d' f']; cbn -[lincl mincl]; intros H S; try discriminate; try (now subst).
  apply andb_true_iff in H as (H & F). apply andb_true_iff in H as (H & D). apply andb_true_iff in H as (N & O).
  destruct o as [l|]; [|subst; now destruct n']. destruct S as (L & S). split.
  - eapply Forall_impl; [|exact L]. intros r. apply labelled_mono; now apply lincl_In.
  - destruct f' as [ms'|]; [|exact Logic.I]. destruct f as [ms|]; [|discriminate].
    eapply Forall_impl; [|exact S]. intros r (A & B). split; [exact A|]. revert B. apply older_mono. now apply mincl_In.
Qed.
Lemma vsat_join_l w o v k : vsat w o v -> vsat w o (vjoin v k).
Proof.
  destruct v as [|n ow d f], k as [|n' ow' d' f']; cbn -[minter lunion]; intros S; try (now subst).
  - destruct o as [l|]; [exact S|reflexivity].
  - destruct o as [l|]; [|now subst]. destruct S as (L & S). split.
    + eapply Forall_impl; [|exact L]. intros r. apply labelled_mono; intros; apply lunion_In; auto.
    + destruct f as [ms|], f' as [ms'|]; try exact Logic.I. eapply Forall_impl; [|exact S]. intros r (A & B). split; [exact A|].
      revert B. apply older_mono. intros m. rewrite minter_In. tauto.
Qed.
Lemma vsat_join_r w o v k : vsat w o k -> vsat w o (vjoin v k).
Proof.
  destruct v as [|n ow d f], k as [|n' ow' d' f']; cbn -[minter lunion]; intros S; try (now subst).
  - destruct o as [l|]; [exact S|reflexivity].
  - destruct o as [l|]; [|subst; apply orb_true_r]. destruct S as (L & S). split.
    + eapply Forall_impl; [|exact L]. intros r. apply labelled_mono; intros; apply lunion_In; auto.
    + destruct f as [ms|], f' as [ms'|]; try exact Logic.I. eapply Forall_impl; [|exact S]. intros r (A & B). split; [exact A|].
      revert B. apply older_mono. intros m. rewrite minter_In. tauto.
Qed.
Lemma sat_leq w a b : aleq a b = true -> sat w a -> sat w b.
Proof.
  unfold aleq. rewrite andb_true_iff, !forallb_forall. intros (HV & HM) (SV & SM). split.
  - intros x v I. specialize (HV _ I). cbn in HV. destruct (aget x (avs a)) as [k|] eqn:E; [|discriminate].
    eapply vsat_vleq; [exact HV|]. apply SV. now apply aget_In.
  - intros m l I. specialize (HM _ I). cbn in HM. destruct (mget m (ams a)) as [k|] eqn:E; [|discriminate].
    destruct (SM m k (mget_In _ _ _ E)) as (A & B). split; [exact A|]. intros m' H. apply B. eapply mincl_In; eauto.
Qed.
Lemma sat_join_l w a b : sat w a -> sat w (ajoin a b).
Proof.
  intros (SV & SM). split; cbn [ajoin avs ams].
  - intros x v I. apply in_flat_map in I as ((y, k) & I & J). cbn [fst snd] in J. destruct (aget y (avs b)) as [u|]; [|contradiction].
    destruct J as [[= <- <-]|[]]. apply vsat_join_l. auto.
  - intros m l I. apply in_flat_map in I as ((y, k) & I & J). cbn [fst snd] in J. destruct (mget y (ams b)) as [u|]; [|contradiction].
    destruct J as [[= <- <-]|[]]. destruct (SM _ _ I) as (A & B). split; [exact A|]. intros m'. rewrite minter_In. intros (? & _). auto.
Qed.
Lemma sat_join_r w a b : sat w b -> sat w (ajoin a b).
Proof.
  intros (SV & SM). split; cbn [ajoin avs ams].
  - intros x v I. apply in_flat_map in I as ((y, k) & I & J). cbn [fst snd] in J. destruct (aget y (avs b)) as [u|] eqn:E; [|contradiction].
    destruct J as [[= <- <-]|[]]. apply vsat_join_r. apply SV. now apply aget_In.
  - intros m l I. apply in_flat_map in I as ((y, k) & I & J). cbn [fst snd] in J. destruct (mget y (ams b)) as [u|] eqn:E; [|contradiction].
    destruct J as [[= <- <-]|[]]. destruct (SM _ _ (mget_In _ _ _ E)) as (A & B). split; [exact A|]. intros m'. rewrite minter_In. intros (_ & ?). auto.
Qed.

(** ** Worlds that differ in the fault list or the time only *)
Definition addf (fs : list fault) (w : world) : world :=
  mkWorld (stk w) (next w) (clones w) (nextc w) (vars w) (marks w) (time w) (faults w ++ fs).
Lemma addf_nil w : addf [] w = w.
Proof. unfold addf. rewrite app_nil_r. now destruct w. Qed.
Lemma addf_addf f g w : addf g (addf f w) = addf (f ++ g) w.
Proof. unfold addf. cbn. now rewrite app_assoc. Qed.
Lemma live_ext w w' r : stk w' = stk w -> clones w' = clones w -> live w' r = live w r.
Proof. intros E F. destruct r; cbn; now rewrite ?E, ?F. Qed.
Lemma vsat_ext w w' o v : stk w' = stk w -> clones w' = clones w -> marks w' = marks w -> vsat w o v -> vsat w' o v.
Proof.
  intros A B C. destruct v as [|n ow d f]; cbn; [auto|]. destruct o as [l|]; [|auto]. intros (L & S). split; [exact L|].
  destruct f; [|exact Logic.I]. eapply Forall_impl; [|exact S]. intros r (P & Q). split; [now rewrite (live_ext w w')|].
  destruct r; cbn in *; auto. intros m H. rewrite A, C. auto.
Qed.
Lemma sat_ext w w' a : stk w' = stk w -> clones w' = clones w -> marks w' = marks w -> vars w' = vars w -> sat w a -> sat w' a.
Proof.
  intros A B C D (SV & SM). split.
  - intros x v I. rewrite D. eapply vsat_ext; eauto.
  - intros m l I. destruct (SM _ _ I) as (P & Q). split; rewrite ?A, ?C; auto.
Qed.
Lemma sat_addf fs w a : sat w a -> sat (addf fs w) a.
Proof. now apply sat_ext. Qed.
Lemma sat_tick w a : sat w a -> sat (tick w) a.
Proof. now apply sat_ext. Qed.

(** ** Reads *)
Definition okf (fg : list lval) (f : fault) : Prop :=
  match f with Stale x => In x fg /\ x <> F_full | Null x => In x fg /\ x = F_full | _ => False end.
Definition grows (fg : list lval) (w w' : world) : Prop := exists fs, faults w' = faults w ++ fs /\ Forall (okf fg) fs.
Lemma grows_refl fg w : grows fg w w.
Proof. exists []. now rewrite app_nil_r. Qed.
Lemma grows_trans fg u v w : grows fg u v -> grows fg v w -> grows fg u w.
Proof.
  intros (f & E & F) (g & E' & F'). exists (f ++ g). split; [rewrite E', E; now rewrite app_assoc|now apply Forall_app].
Qed.
Lemma grows_addf fg fs w : Forall (okf fg) fs -> grows fg w (addf fs w).
Proof. intros H. exists fs. auto. Qed.
Lemma grows_eq fg w w' : faults w' = faults w -> grows fg w w'.
Proof. intros H. exists []. rewrite app_nil_r. auto. Qed.

Lemma forallb_live w l (P : ref -> Prop) : Forall (fun r => live w r = true /\ P r) l -> forallb (live w) l = true.
Proof. intros H. apply forallb_forall. intros r I. rewrite Forall_forall in H. now apply H. Qed.
Lemma stale_okP fg x : stale_ok fg x = true -> okf fg (Stale x).
Proof.
  unfold stale_ok. intros H. apply andb_true_iff in H as (A & B). split; [now apply linb_In|]. intros ->. discriminate B.
Qed.
Lemma null_okP fg x : null_ok fg x = true -> okf fg (Null x).
Proof. unfold null_ok. intros H. apply andb_true_iff in H as (A & B). split; [now apply linb_In|now apply leqb_eq]. Qed.
Lemma use1_ok fg a x w : sat w a -> ause1 fg a x = true -> exists fs, use1 x w = addf fs w /\ Forall (okf fg) fs.
Proof.
  intros (SV & _) H. unfold ause1 in H. destruct (aget x (avs a)) as [k|] eqn:E; [|discriminate].
  specialize (SV _ _ (aget_In _ _ _ E)). unfold use1.
  assert (N : null_ok fg x = true -> exists fs, blame (Null x) w = addf fs w /\ Forall (okf fg) fs).
  { intros A. exists [Null x]. split; [reflexivity|]. constructor; [now apply null_okP|constructor]. }
  destruct k as [|n ow d f]; cbn in SV; [rewrite SV; auto|]. apply andb_true_iff in H as (H0 & H).
  destruct (vars w x) as [l|]; [|subst n; auto]. destruct SV as (_ & SV). destruct f as [ms|].
  - rewrite (forallb_live _ _ _ SV). exists []. split; [now rewrite addf_nil|constructor].
  - destruct (forallb (live w) l); [exists []; split; [now rewrite addf_nil|constructor]|].
    exists [Stale x]. split; [reflexivity|]. constructor; [|constructor]. now apply stale_okP.
Qed.
Lemma use_ok fg a xs : forall w, sat w a -> forallb (ause1 fg a) xs = true -> exists fs, use xs w = addf fs w /\ Forall (okf fg) fs.
Proof.
  induction xs as [|x xs IH]; intros w S H; cbn in *; [exists []; split; [now rewrite addf_nil|constructor]|].
  apply andb_true_iff in H as (H & H'). destruct (use1_ok _ _ _ _ S H) as (f & -> & F).
  destruct (IH (addf f w) (sat_addf _ _ _ S) H') as (g & -> & G). exists (f ++ g). split; [apply addf_addf|now apply Forall_app].
Qed.
Lemma peek1_ok fg a x w : sat w a -> apeek1 fg a x = true -> exists fs, peek1 x w = addf fs w /\ Forall (okf fg) fs.
Proof.
  intros (SV & _) H. unfold apeek1 in H. destruct (aget x (avs a)) as [k|] eqn:E; [|discriminate].
  specialize (SV _ _ (aget_In _ _ _ E)). unfold peek1, use1. destruct k as [|n ow d f]; cbn in SV.
  - rewrite SV. exists []. split; [now rewrite addf_nil|constructor].
  - destruct (vars w x) as [l|]; [|exists []; split; [now rewrite addf_nil|constructor]]. destruct SV as (_ & SV). destruct f as [ms|].
    + rewrite (forallb_live _ _ _ SV). exists []. split; [now rewrite addf_nil|constructor].
    + destruct (forallb (live w) l); [exists []; split; [now rewrite addf_nil|constructor]|].
      exists [Stale x]. split; [reflexivity|]. constructor; [|constructor]. now apply stale_okP.
Qed.
Lemma peek_ok fg a xs : forall w, sat w a -> forallb (apeek1 fg a) xs = true -> exists fs, peek xs w = addf fs w /\ Forall (okf fg) fs.
Proof.
  induction xs as [|x xs IH]; intros w S H; cbn in *; [exists []; split; [now rewrite addf_nil|constructor]|].
  apply andb_true_iff in H as (H & H'). destruct (peek1_ok _ _ _ _ S H) as (f & -> & F).
  destruct (IH (addf f w) (sat_addf _ _ _ S) H') as (g & -> & G). exists (f ++ g). split; [apply addf_addf|now apply Forall_app].
Qed.

(** ** Writes *)
Lemma sat_put w a x o v : sat w a -> vsat w o v -> sat (put x o w) (aset x v a).
Proof.
  intros (SV & SM) H. split; cbn.
  - intros y k [[= <- <-]|I].
    + rewrite leqb_refl. eapply vsat_ext; [| | |exact H]; reflexivity.
    + apply arem_In in I as (I & N). destruct (leqb y x) eqn:E; [apply leqb_eq in E; contradiction|].
      eapply vsat_ext; [| | |exact (SV _ _ I)]; reflexivity.
  - exact SM.
Qed.
Lemma sat_alloc w a : sat w a -> sat (fst (alloc w)) a.
Proof.
  intros (SV & SM). split.
  - intros x v I. specialize (SV _ _ I). cbn [alloc fst vars]. destruct v as [|n ow d f]; cbn in *; [auto|].
    destruct (vars w x) as [l|]; [|auto]. destruct SV as (L & S). split; [exact L|]. destruct f; [|exact Logic.I].
    eapply Forall_impl; [|exact S]. intros r (P & Q). destruct r; cbn -[memb] in *; auto. split; [apply memb_In; right; now apply memb_In|].
    intros m H. apply bottom_cons. auto.
  - intros m l I. destruct (SM _ _ I) as (P & Q). split; cbn in *; auto.
Qed.
Lemma live_clone_cons y x n c : is_live_clone x n c = true -> is_live_clone x n (y :: c) = true.
Proof. unfold is_live_clone. cbn. intros ->. apply orb_true_r. Qed.
Lemma sat_galloc x w a : sat w a -> sat (fst (galloc x w)) a.
Proof.
  intros (SV & SM). split.
  - intros y v I. specialize (SV _ _ I). cbn [galloc fst vars]. destruct v as [|n ow d f]; cbn in *; [auto|].
    destruct (vars w y) as [l|]; [|auto]. destruct SV as (L & S). split; [exact L|]. destruct f; [|exact Logic.I].
    eapply Forall_impl; [|exact S]. intros r (P & Q). destruct r; cbn in *; auto; split; auto; now apply live_clone_cons.
  - exact SM.
Qed.
Lemma vsat_new w : vsat (fst (alloc w)) (Some [Stack (next w)]) (AVal false [] [] (Some [])).
Proof.
  cbn. split; [repeat constructor|]. constructor; [|constructor]. split; [apply memb_In; now left|]. intros m [].
Qed.
Lemma vsat_clone w x ms : vsat (fst (galloc x w)) (Some [Clone x (nextc w)]) (AVal false [x] [] (Some ms)).
Proof.
  cbn. split; [constructor; [now left|constructor]|]. constructor; [|constructor]. split; [|exact Logic.I].
  cbn. unfold is_live_clone. cbn. now rewrite leqb_refl, Nat.eqb_refl.
Qed.
Lemma vsat_univ w ms : vsat w (Some [Univ]) (AVal false [] [] (Some ms)).
Proof. cbn. repeat constructor. Qed.
Lemma vsat_empty w ms : vsat w (Some []) (AVal false [] [] (Some ms)).
Proof. cbn. repeat constructor. Qed.
Lemma vsat_push w l k o d f o' d' f' : vsat w (Some l) (AVal false o d f) -> vsat w (Some k) (AVal false o' d' f') ->
  vsat w (Some (l ++ k)) (vjoin (AVal false o d f) (AVal false o' d' f')).
Proof.
  intros H K. apply (vsat_join_l w _ _ (AVal false o' d' f')) in H. apply (vsat_join_r w _ (AVal false o d f)) in K.
  cbn in *. destruct H as (A & B), K as (C & D). split; [now apply Forall_app|].
  destruct (match f with Some m => match f' with Some m' => Some (minter m m') | None => None end | None => None end); [now apply Forall_app|exact Logic.I].
Qed.

Lemma sat_mark w a m : sat w a -> sat (setmark m (length (stk w)) w)
  (St (map (fun e => (fst e, match snd e with AVal n o d (Some ms) => AVal n o d (Some (madd m ms)) | v => v end)) (avs a))
      ((m, [m]) :: map (fun e => (fst e, madd m (snd e))) (filter (fun e => negb (meqb (fst e) m)) (ams a)))).
Proof.
  intros (SV & SM). split; cbn [avs ams].
  - intros x v I. apply in_map_iff in I as ((y, k) & E & I). cbn in E. injection E as <- <-. specialize (SV _ _ I). cbn [setmark vars].
    destruct k as [|n ow d [ms|]]; cbn in *; auto. destruct (vars w y) as [l|]; [|auto]. destruct SV as (L & S). split; [exact L|].
    eapply Forall_impl; [|exact S]. intros r (P & Q). split; [destruct r; exact P|]. destruct r; cbn in *; auto.
    intros m' H. apply madd_In in H. destruct (meqb m' m) eqn:F.
    + rewrite bottom_all. now apply memb_In.
    + apply Q. destruct H as [->|H]; [|exact H]. rewrite (proj2 (meqb_eq m m) eq_refl) in F. discriminate.
  - intros m' l [[= <- <-]|I].
    + split; cbn; [rewrite (proj2 (meqb_eq m m) eq_refl); lia|]. intros m' [<-|[]]. lia.
    + apply in_map_iff in I as ((y, k) & E & I). cbn in E. injection E as <- <-. apply filter_In in I as (I & N). cbn in N.
      destruct (SM _ _ I) as (P & Q). apply negb_true_iff in N. split; cbn; rewrite N; [exact P|]. intros m2 H.
      destruct (meqb m2 m) eqn:F; [exact P|]. apply Q. apply madd_In in H as [->|H]; [|exact H]. rewrite (proj2 (meqb_eq m m) eq_refl) in F. discriminate.
Qed.

Lemma sat_release w a m : sat w a -> has m a = true -> sat (release (marks w m) w) (arelease m a).
Proof.
  intros (SV & SM) H. unfold has in H. destruct (mget m (ams a)) as [lm|] eqn:E; [|discriminate].
  destruct (SM _ _ (mget_In _ _ _ E)) as (Hm & _). split; cbn [avs ams arelease].
  - intros x v I. apply in_map_iff in I as ((y, k) & F & I). cbn in F. injection F as <- <-. specialize (SV _ _ I). cbn [release setstk vars].
    destruct k as [|n ow d [ms|]]; cbn in *; auto. destruct (vars w y) as [l|]; [|auto]. destruct SV as (L & S). split; [exact L|].
    destruct (minb m ms) eqn:B; [|exact Logic.I]. apply minb_In in B. eapply Forall_impl; [|exact S]. intros r (P & Q).
    destruct r; cbn in *; auto. split; [apply memb_In; auto|]. intros m' H'. rewrite bottom_bottom. apply bottom_both; auto.
  - intros m' l I. apply filter_In in I as (I & B). cbn in B. apply minb_In in B. destruct (SM _ _ I) as (P & Q). split; cbn; [|exact Q].
    rewrite bottom_length. specialize (Q _ B). lia.
Qed.
Lemma sat_fresh xs : forall w a, sat w a ->
  sat (fresh xs w) (fold_left (fun a x => aset x (AVal false [] [] (Some [])) a) xs a) /\ faults (fresh xs w) = faults w.
Proof.
  induction xs as [|x xs IH]; intros w a S; cbn [fresh fold_left]; [auto|]. pose proof (sat_alloc _ _ S) as S'. pose proof (vsat_new w) as N.
  change (alloc w) with (fst (alloc w), next w). cbv iota beta.
  destruct (IH _ _ (sat_put _ _ x _ _ S' N)) as (A & B). split; [exact A|]. rewrite B. reflexivity.
Qed.

Lemma aget_vsat w a x v : sat w a -> aget x (avs a) = Some v -> vsat w (vars w x) v.
Proof. intros (SV & _) E. apply SV. now apply aget_In. Qed.

(** freeing clones *)
Lemma drop_keeps x n l c : is_live_clone x n c = true -> (forall y k, In (Clone y k) l -> y <> x) -> is_live_clone x n (drop_clones l c) = true.
Proof.
  unfold is_live_clone, drop_clones. intros H N. apply existsb_exists in H as ((y, k) & I & E). cbn in E. apply andb_true_iff in E as (E & F).
  apply leqb_eq in E. apply Nat.eqb_eq in F. subst. apply existsb_exists. exists (x, n). split.
  - apply filter_In. split; [exact I|]. cbn. apply negb_true_iff. destruct (existsb _ l) eqn:X; [|reflexivity]. exfalso.
    apply existsb_exists in X as (r & J & X). destruct r as [|z j| |]; try discriminate. apply andb_true_iff in X as (X & _). apply leqb_eq in X. subst.
    exact (N _ _ J eq_refl).
  - cbn. now rewrite leqb_refl, Nat.eqb_refl.
Qed.
Lemma sat_free xs w a : sat w a -> (forall x, In x xs -> exists v, aget x (avs a) = Some v) ->
  sat (setclones (drop_clones (flat_map (refs w) xs) (clones w)) w) (afree xs a).
Proof.
  intros S K. pose proof S as (SV & SM). split; [|exact SM]. cbn [avs ams afree]. intros x v I. apply in_map_iff in I as ((y, k) & E & I).
  cbn in E. injection E as <- <-. specialize (SV _ _ I). cbn [setclones vars]. destruct k as [|n ow d f]; cbn in *; [exact SV|].
  set (ks := flat_map (aown a) xs).
  destruct (existsb (fun x => linb x ow || linb x d) ks) eqn:X; cbn.
  - destruct (vars w y) as [l|]; [|exact SV]. destruct SV as (L & _). auto.
  - destruct (vars w y) as [l|]; [|exact SV]. destruct SV as (L & SV). split; [exact L|]. destruct f as [ms|]; [|exact Logic.I].
    rewrite Forall_forall in SV, L |- *. intros r J. destruct (SV _ J) as (P & Q). split; [|destruct r; exact Q]. specialize (L _ J).
    assert (F : forall z, In z ow \/ In z d -> forall y' k', In (Clone y' k') (flat_map (refs w) xs) -> y' <> z).
    { intros z Z y' k' J' ->. apply in_flat_map in J' as (u & U & J'). destruct (K _ U) as (vu & Eu).
      pose proof (aget_vsat _ _ _ _ S Eu) as Vu. unfold refs in J'. destruct vu as [|n' o' d' f']; cbn in Vu.
      - rewrite Vu in J'. destruct J'.
      - destruct (vars w u) as [lu|]; [|destruct J']. destruct Vu as (Lu & _). rewrite Forall_forall in Lu. specialize (Lu _ J'). cbn in Lu.
        assert (In z ks). { unfold ks. apply in_flat_map. exists u. split; [exact U|]. unfold aown. now rewrite Eu. }
        apply not_true_iff_false in X. apply X. apply existsb_exists. exists z. split; [assumption|]. apply orb_true_iff.
        destruct Z; [left|right]; now apply linb_In. }
    destruct r as [|z j|z j|j]; cbn in *; auto; apply drop_keeps; eauto.
Qed.
Lemma sat_nulls xs : forall w a, sat w a ->
  sat (fold_left (fun w x => put x None w) xs w) (fold_left (fun a x => aset x ANull a) xs a) /\ faults (fold_left (fun w x => put x None w) xs w) = faults w.
Proof.
  induction xs as [|x xs IH]; intros w a S; cbn [fold_left]; [auto|]. destruct (IH (put x None w) (aset x ANull a)) as (A & B).
  - now apply sat_put.
  - split; [exact A|]. rewrite B. reflexivity.
Qed.

Lemma all_known (f : lval -> bool) a xs : (forall x, f x = true -> exists v, aget x (avs a) = Some v) -> forallb f xs = true ->
  forall x, In x xs -> exists v, aget x (avs a) = Some v.
Proof. intros H F x I. apply H. rewrite forallb_forall in F. auto. Qed.
Lemma ause1_known fg a x : ause1 fg a x = true -> exists v, aget x (avs a) = Some v.
Proof. unfold ause1. destruct (aget x (avs a)) as [v|]; [eauto|discriminate]. Qed.
Lemma apeek1_known fg a x : apeek1 fg a x = true -> exists v, aget x (avs a) = Some v.
Proof. unfold apeek1. destruct (aget x (avs a)) as [v|]; [eauto|discriminate]. Qed.

Lemma sat_check_mark w a m : sat w a -> has m a = true -> check_mark m w = w.
Proof.
  intros (_ & SM) H. unfold has in H. destruct (mget m (ams a)) as [l|] eqn:E; [|discriminate].
  destruct (SM _ _ (mget_In _ _ _ E)) as (P & _). unfold check_mark. now rewrite (proj2 (Nat.leb_le _ _) P).
Qed.

Lemma labelled_deps w a args : sat w a -> (forall x, In x args -> exists v, aget x (avs a) = Some v) ->
  Forall (fun r => labelled [] (flat_map (adep a) args) r /\ match r with Dep _ _ => True | _ => False end) (flat_map dep (flat_map (refs w) args)).
Proof.
  intros S K. apply Forall_forall. intros r H. apply in_flat_map in H as (r0 & H & D). apply in_flat_map in H as (x & X & H).
  destruct (K _ X) as (v & E). pose proof (aget_vsat _ _ _ _ S E) as V0. unfold refs in H. destruct v as [|n o d f]; cbn in V0.
  - rewrite V0 in H. destruct H.
  - destruct (vars w x) as [l|]; [|destruct H]. destruct V0 as (L & _). rewrite Forall_forall in L. specialize (L _ H).
    destruct r0 as [|z j|z j|j]; cbn in D; try contradiction; destruct D as [<-|[]]; cbn in *; (split; [|exact Logic.I]); apply in_flat_map; exists x; (split; [exact X|]);
      unfold adep; rewrite E; apply lunion_In; auto.
Qed.
Lemma live_deps w a args : sat w a -> forallb (alive a) args = true ->
  Forall (fun r => live w r = true /\ match r with Stack _ => False | _ => True end) (flat_map dep (flat_map (refs w) args)).
Proof.
  intros S K. apply Forall_forall. intros r H. apply in_flat_map in H as (r0 & H & D). apply in_flat_map in H as (x & X & H).
  rewrite forallb_forall in K. specialize (K _ X). unfold alive in K. destruct (aget x (avs a)) as [v|] eqn:E; [|discriminate].
  pose proof (aget_vsat _ _ _ _ S E) as V0. destruct v as [|n o d [ms|]]; try discriminate. unfold refs in H. cbn in V0.
  destruct (vars w x) as [l|]; [|destruct H]. destruct V0 as (_ & L). rewrite Forall_forall in L. destruct (L _ H) as (P & _).
  destruct r0 as [|z j|z j|j]; cbn in D; try contradiction; destruct D as [<-|[]]; cbn in *; auto.
Qed.

(** a record handed over *)
Lemma handed_In y xs x l : In x l -> In (handed y xs x) (map (handed y xs) l).
Proof. apply in_map. Qed.
Lemma hand_live y xs w r : live w r = true -> live (hand y xs w) (handed_ref y xs r) = true.
Proof.
  destruct r as [|x n|x n|n]; cbn -[is_live_clone memb]; auto; unfold is_live_clone; rewrite !existsb_exists; cbn [clones hand];
    intros ((z, k) & I & E); exists (handed y xs z, k); cbn [fst snd] in *; apply andb_true_iff in E as (E & F); apply leqb_eq in E; subst;
    (split; [apply in_map_iff; exists (x, k); auto|]); now rewrite leqb_refl.
Qed.
Lemma hand_list y xs w o d f l : Forall (labelled o d) l -> match f with None => True | Some ms => Forall (fun r => live w r = true /\ older w ms r) l end ->
  Forall (labelled (map (handed y xs) o) (map (handed y xs) d)) (map (handed_ref y xs) l) /\
  match f with None => True | Some ms => Forall (fun r => live (hand y xs w) r = true /\ older (hand y xs w) ms r) (map (handed_ref y xs) l) end.
Proof.
  intros L S. split.
  - apply Forall_map. eapply Forall_impl; [|exact L]. intros r. destruct r; cbn; auto; apply in_map.
  - destruct f as [ms|]; [|exact Logic.I]. apply Forall_map. eapply Forall_impl; [|exact S]. intros r (P & Q). split; [now apply hand_live|].
    destruct r; cbn in *; auto.
Qed.
Lemma vsat_ahand y xs w o v : vsat w o v -> vsat (hand y xs w) (option_map (map (handed_ref y xs)) o) (ahand y xs v).
Proof.
  destruct v as [|n ow d f]; cbn; [intros ->; reflexivity|]. destruct o as [l|]; cbn; [|auto]. intros (L & S). now apply hand_list.
Qed.
Lemma vsat_piece y xs w a x : sat w a -> known a x = true -> vsat (hand y xs w) (Some (map (handed_ref y xs) (refs w x))) (apiece a y xs x).
Proof.
  intros S K. unfold known, apiece in *. destruct (aget x (avs a)) as [v|] eqn:E; [|discriminate]. pose proof (aget_vsat _ _ _ _ S E) as P.
  unfold refs. destruct v as [|n o d f]; cbn [vsat] in P.
  - rewrite P. cbn. auto.
  - destruct (vars w x) as [l|]; cbn [vsat]; [destruct P; now apply hand_list|]. cbn. split; [constructor|destruct f; constructor].
Qed.
Lemma apiece_val a y xs x : exists o d f, apiece a y xs x = AVal false o d f.
Proof. unfold apiece. destruct (aget x (avs a)) as [[|]|]; eauto. Qed.
Lemma vsat_pieces y xs w a : sat w a -> forall ks, forallb (known a) ks = true ->
  forall l o d f, vsat (hand y xs w) (Some l) (AVal false o d f) ->
    vsat (hand y xs w) (Some (l ++ map (handed_ref y xs) (flat_map (refs w) ks))) (fold_left (fun v x => vjoin v (apiece a y xs x)) ks (AVal false o d f)).
Proof.
  intros S. induction ks as [|x ks IH]; intros K l o d f H; cbn [fold_left flat_map]; [now rewrite app_nil_r|].
  cbn [forallb] in K. apply andb_true_iff in K as (K1 & K2). rewrite map_app, app_assoc.
  pose proof (vsat_piece y xs w a x S K1) as P. destruct (apiece_val a y xs x) as (o' & d' & f' & E). rewrite E in *.
  pose proof (vsat_push _ _ _ _ _ _ _ _ _ H P) as Q. cbn [vjoin orb] in Q |- *. now apply IH.
Qed.
Lemma sat_hand y xs w a : sat w a -> forallb (known a) (y :: xs) = true -> linb y xs = false ->
  sat (hand y xs w) (St ((y, fold_left (fun v x => vjoin v (apiece a y xs x)) xs (apiece a y xs y))
    :: arem y (map (fun e => (fst e, if linb (fst e) xs then ANull else ahand y xs (snd e))) (avs a))) (ams a)).
Proof.
  intros S K N. cbn [forallb] in K. apply andb_true_iff in K as (K1 & K2). pose proof S as (SV & SM).
  assert (EX : forall z, existsb (leqb z) xs = linb z xs). { intros z. clear. induction xs as [|x xs IH]; cbn; [reflexivity|]. now rewrite IH. }
  split; cbn [avs ams].
  - intros z v [[= <- <-]|I].
    + cbn [vars hand]. rewrite leqb_refl. destruct (apiece_val a y xs y) as (o & d & f & E). rewrite map_app. rewrite E. apply vsat_pieces; [exact S|exact K2|].
      rewrite <- E. now apply vsat_piece.
    + apply arem_In in I as (I & Nz). apply in_map_iff in I as ((z', k) & E & I). cbn [fst snd] in E. injection E as -> <-.
      cbn [vars hand]. destruct (leqb z y) eqn:Q; [apply leqb_eq in Q; contradiction|]. rewrite EX. destruct (linb z xs); [reflexivity|].
      apply vsat_ahand. now apply SV.
  - intros m l I. exact (SM _ _ I).
Qed.

Theorem aop_sound fg o a b w : aop fg o a = Some b -> sat w a -> sat (run_op o w) b /\ grows fg w (run_op o w).
Proof.
  intros H S. destruct o as [x args|x y|x y|xs|xs|x y|x|x|x|x y|xs|m|m|m xs|y xs]; cbn [aop] in H.
  - destruct (forallb (ause1 fg a) args) eqn:U; [|discriminate]. injection H as <-.
    destruct (use_ok _ _ _ _ S U) as (fs & E & F). cbn [run_op]. rewrite E. change (alloc (addf fs w)) with (fst (alloc (addf fs w)), next w). cbv iota beta zeta.
    split; [|exists fs; auto]. pose proof (sat_addf fs _ _ S) as S'. apply sat_put; [now apply sat_alloc|].
    pose proof (all_known _ _ _ (ause1_known fg a) U) as K. pose proof (labelled_deps _ _ _ S' K) as L.
    cbn -[flat_map]. split; [constructor; [exact Logic.I|eapply Forall_impl; [|exact L]; now intros r (P & _)]|].
    destruct (forallb (alive a) args || match flat_map (adep a) args with [] => true | _ => false end) eqn:A; [|exact Logic.I].
    constructor; [split; [apply memb_In; now left|intros m []]|].
    apply orb_true_iff in A as [A|A].
    + eapply Forall_impl; [|exact (live_deps _ _ _ S' A)]. intros r (P & Q). destruct r; try contradiction; cbn in *; auto.
    + destruct (flat_map (adep a) args) eqn:D; [|discriminate]. eapply Forall_impl; [|exact L].
      intros r (P & Q). destruct r; cbn in *; contradiction.
  - destruct (ause1 fg a y) eqn:U; [|discriminate]. injection H as <-.
    destruct (use_ok fg a [y] w S) as (fs & E & F); [cbn; now rewrite U|]. cbn [run_op]. rewrite E.
    change (alloc (addf fs w)) with (fst (alloc (addf fs w)), next (addf fs w)). cbv iota beta.
    split; [|exists fs; auto]. apply sat_put; [apply sat_alloc; now apply sat_addf|apply vsat_new].
  - destruct (ause1 fg a y) eqn:U; [|discriminate]. injection H as <-.
    destruct (use_ok fg a [y] w S) as (fs & E & F); [cbn; now rewrite U|]. cbn [run_op]. rewrite E.
    change (galloc x (addf fs w)) with (fst (galloc x (addf fs w)), nextc (addf fs w)). cbv iota beta.
    split; [|exists fs; auto]. apply sat_put; [apply sat_galloc; now apply sat_addf|apply vsat_clone].
  - destruct (forallb (apeek1 fg a) xs) eqn:U; [|discriminate]. injection H as <-.
    destruct (peek_ok _ _ _ _ S U) as (fs & E & F). cbn [run_op]. rewrite E. pose proof (sat_addf fs _ _ S) as S'.
    pose proof (sat_free xs _ _ S' (all_known _ _ _ (apeek1_known fg a) U)) as S2. cbv zeta.
    destruct (sat_nulls xs _ _ S2) as (A & B). split; [exact A|]. exists fs. split; [rewrite B; reflexivity|exact F].
  - destruct (forallb (ause1 fg a) xs) eqn:U; [|discriminate]. injection H as <-.
    destruct (use_ok _ _ _ _ S U) as (fs & E & F). cbn [run_op]. rewrite E. pose proof (sat_addf fs _ _ S) as S'.
    split; [exact (sat_free xs _ _ S' (all_known _ _ _ (ause1_known fg a) U))|]. exists fs. auto.
  - split; [|now apply grows_eq]. cbn [run_op]. destruct (aget y (avs a)) as [v|] eqn:E; injection H as <-.
    + apply sat_put; [exact S|]. eapply aget_vsat; eauto.
    + destruct S as (SV & SM). split; [|exact SM]. cbn. intros z v I. apply arem_In in I as (I & N).
      destruct (leqb z x) eqn:Q; [apply leqb_eq in Q; contradiction|]. eapply vsat_ext; [| | |exact (SV _ _ I)]; reflexivity.
  - injection H as <-. split; [|now apply grows_eq]. apply sat_put; [exact S|reflexivity].
  - injection H as <-. split; [|now apply grows_eq]. apply sat_put; [exact S|apply vsat_univ].
  - injection H as <-. split; [|now apply grows_eq]. apply sat_put; [exact S|apply vsat_empty].
  - destruct (aget x (avs a)) as [[|[] o d f]|] eqn:E; try discriminate. destruct (aget y (avs a)) as [[|[] o' d' f']|] eqn:E'; try discriminate.
    injection H as <-. pose proof (aget_vsat _ _ _ _ S E) as P. pose proof (aget_vsat _ _ _ _ S E') as Q. cbn [run_op].
    destruct (vars w x) as [l|] eqn:Vx; [|cbn in P; discriminate]. destruct (vars w y) as [k|] eqn:Vy; [|cbn in Q; discriminate].
    split; [|now apply grows_eq]. apply sat_put; [exact S|]. now apply vsat_push.
  - destruct (forallb (ause1 fg a) xs) eqn:U; [|discriminate]. injection H as <-.
    destruct (use_ok _ _ _ _ S U) as (fs & E & F). cbn [run_op]. rewrite E. split; [now apply sat_addf|now apply grows_addf].
  - injection H as <-. split; [now apply sat_mark|now apply grows_eq].
  - destruct (has m a) eqn:E; [|discriminate]. injection H as <-. cbn [run_op]. rewrite (sat_check_mark _ _ _ S E).
    split; [now apply sat_release|now apply grows_eq].
  - destruct (forallb (ause1 fg a) xs && has m a) eqn:U; [|discriminate]. injection H as <-. apply andb_true_iff in U as (U & E).
    destruct (use_ok _ _ _ _ S U) as (fs & X & F). cbn [run_op]. rewrite X. pose proof (sat_addf fs _ _ S) as S'.
    rewrite (sat_check_mark _ _ _ S' E). destruct (sat_fresh xs _ _ (sat_release _ _ _ S' E)) as (P & Q).
    split; [exact P|]. exists fs. split; [etransitivity; [exact Q|reflexivity]|exact F].
  - destruct (forallb (known a) (y :: xs) && negb (linb y xs)) eqn:U; [|discriminate]. injection H as <-. apply andb_true_iff in U as (U & N).
    apply negb_true_iff in N. split; [now apply sat_hand|now apply grows_eq].
Qed.
Lemma watch_ok fg a w : sat w a -> apeek1 fg a G_saved = true -> sat (watch w) a /\ grows fg w (watch w).
Proof.
  intros S H. unfold watch. cbn [peek]. destruct (peek1_ok _ _ _ _ S H) as (fs & E & F). rewrite E.
  split; [now apply sat_addf|now apply grows_addf].
Qed.

(** ** Programs *)
Definition osat (w : world) (o : option astate) : Prop := match o with Some a => sat w a | None => False end.
Definition rsat (w : world) (d : Z) (l : list (Z * astate)) : Prop := exists a, In (d, a) l /\ sat w a.
Definition meets (w : world) (r : outcome) (o : outs) : Prop :=
  match r with
  | Next => osat w (o_nx o) | Brk => osat w (o_bk o) | Cont => osat w (o_cn o) | Cut => osat w (o_ct o)
  | Returns d => rsat w d (o_rt o)
  end.

Lemma osat_join_l w x y : osat w x -> osat w (ojoin x y).
Proof. destruct x, y; cbn; try tauto. apply sat_join_l. Qed.
Lemma osat_join_r w x y : osat w y -> osat w (ojoin x y).
Proof. destruct x, y; cbn; try tauto. apply sat_join_r. Qed.
Lemma rsat_put_new w d a l : sat w a -> rsat w d (rput d a l).
Proof.
  intros S. induction l as [|(d', b) l IH]; cbn; [exists a; split; [now left|exact S]|]. destruct (Z.eqb_spec d d') as [->|N].
  - exists (ajoin a b). split; [now left|now apply sat_join_l].
  - destruct IH as (c & I & H). exists c. split; [now right|exact H].
Qed.
Lemma rsat_put_old w d d' a l : rsat w d l -> rsat w d (rput d' a l).
Proof.
  intros (c & I & S). induction l as [|(e, b) l IH]; cbn in *; [contradiction|]. destruct (Z.eqb_spec d' e) as [->|N].
  - destruct I as [[= -> ->]|I]; [exists (ajoin a c); split; [now left|now apply sat_join_r]|exists c; split; [now right|exact S]].
  - destruct I as [[= -> ->]|I]; [exists c; split; [now left|exact S]|]. destruct (IH I) as (u & J & H). exists u. split; [now right|exact H].
Qed.
Lemma rsat_join_r w d l k : rsat w d k -> rsat w d (rjoin l k).
Proof. intros H. unfold rjoin. induction l as [|(e, b) l IH]; cbn; [exact H|]. now apply rsat_put_old. Qed.
Lemma rsat_join_l w d l k : rsat w d l -> rsat w d (rjoin l k).
Proof.
  intros (c & I & S). unfold rjoin. induction l as [|(e, b) l IH]; cbn in *; [contradiction|].
  destruct I as [[= -> ->]|I]; [now apply rsat_put_new|]. apply rsat_put_old. auto.
Qed.
Lemma meets_l w r x y : meets w r x -> meets w r (merge x y).
Proof. destruct r; cbn; first [apply osat_join_l|apply rsat_join_l]. Qed.
Lemma meets_r w r x y : meets w r y -> meets w r (merge x y).
Proof. destruct r; cbn; first [apply osat_join_r|apply rsat_join_r]. Qed.
Lemma sat_proj w a : sat w a -> sat w (proj a).
Proof.
  intros (SV & SM). split; cbn; intros x v I; apply filter_In in I as (I & _); auto.
Qed.
Lemma sat_unowned w a x : sat w a -> existsb is_clone (refs w x) = false -> sat w (unowned x a).
Proof.
  intros S N. unfold unowned. destruct (aget x (avs a)) as [[|n o d f]|] eqn:E; auto. pose proof (aget_vsat _ _ _ _ S E) as P.
  destruct S as (SV & SM). split; [|exact SM]. cbn. intros y k [[= <- <-]|I]; [|apply arem_In in I as (I & _); auto].
  unfold refs in N. cbn in P |- *. destruct (vars w x) as [l|]; [|exact P]. destruct P as (L & P). split; [|exact P].
  rewrite Forall_forall in L |- *. intros r J. specialize (L _ J). destruct r as [|z j| |]; cbn in *; auto.
  apply not_true_iff_false in N. apply N. apply existsb_exists. eexists. split; [exact J|reflexivity].
Qed.
Lemma sat_ifnull_none w a x : sat w a -> vars w x = None -> sat w (aset x ANull a).
Proof.
  intros (SV & SM) E. split; [|exact SM]. cbn. intros y k [[= <- <-]|I]; [exact E|apply arem_In in I as (I & _); auto].
Qed.
Lemma sat_ifnull_some w a x l n o d f : sat w a -> vars w x = Some l -> aget x (avs a) = Some (AVal n o d f) -> sat w (aset x (AVal false o d f) a).
Proof.
  intros S E G. pose proof (aget_vsat _ _ _ _ S G) as P. destruct S as (SV & SM). split; [|exact SM]. cbn.
  intros y k [[= <- <-]|I]; [|apply arem_In in I as (I & _); auto]. rewrite E in *. exact P.
Qed.

Lemma settle_spec f n : forall a inv o, settle f n a = Some (inv, o) ->
  (forall w, sat w a -> sat w inv) /\ f inv = Some o /\ (forall w, osat w (o_nx o) \/ osat w (o_cn o) -> sat w inv).
Proof.
  induction n as [|n IH]; intros a inv o H; cbn in H; [discriminate|]. destruct (f a) as [o1|] eqn:E; [|discriminate].
  destruct (ojoin (o_nx o1) (o_cn o1)) as [b|] eqn:J.
  - destruct (aleq b a) eqn:L.
    + injection H as <- <-. split; [auto|]. split; [exact E|]. intros w K. assert (B : osat w (Some b)).
      { rewrite <- J. destruct K; [now apply osat_join_l|now apply osat_join_r]. }
      eapply sat_leq; [exact L|exact B].
    + destruct (IH _ _ _ H) as (A & B & C). split; [|auto]. intros w S. apply A. now apply sat_join_l.
  - injection H as <- <-. split; [auto|]. split; [exact E|]. intros w K. assert (B : osat w None).
    { rewrite <- J. destruct K; [now apply osat_join_l|now apply osat_join_r]. }
    destruct B.
Qed.

Section Exec.
Variable fg : list lval.
Variable cuts : bool.
Variable dec cut : nat -> bool.
Variable bound : nat.
Hypothesis no_cut : cuts = false -> forall t, cut t = false.

Lemma cut_sat w a t : sat w a -> cut t = true -> osat w (at_cut cuts a).
Proof.
  intros S E. unfold at_cut. destruct cuts; [now apply sat_proj|]. rewrite no_cut in E by reflexivity. discriminate.
Qed.

Theorem aexec_sound : forall c a o w, aexec fg cuts c a = Some o -> sat w a ->
  let '(w', r) := exec dec cut bound c w in meets w' r o /\ grows fg w w'.
Proof.
  induction c as [|op|c1 IH1 c2 IH2|c1 IH1 c2 IH2|x c1 IH1 c2 IH2|x c1 IH1 c2 IH2|c IH|c IH| | |d]; intros a o w H S; cbn [aexec exec] in *.
  - injection H as <-. split; [exact S|apply grows_refl].
  - destruct (aop fg op a) as [b|] eqn:E; [|discriminate]. destruct (apeek1 fg b G_saved) eqn:W; [|discriminate]. injection H as <-. destruct (cut (time w)) eqn:C.
    + split; [exact (cut_sat _ _ _ (sat_tick _ _ S) C)|now apply grows_eq].
    + destruct (aop_sound _ _ _ _ _ E S) as (A & B). destruct (watch_ok _ _ _ A W) as (A' & B'). split; [now apply sat_tick|].
      change (grows fg w (watch (run_op op w))). eapply grows_trans; eassumption.
  - destruct (aexec fg cuts c1 a) as [o1|] eqn:E1; [|discriminate]. specialize (IH1 _ _ w E1 S). destruct (exec dec cut bound c1 w) as (w1, r).
    destruct IH1 as (M1 & G1). destruct (o_nx o1) as [b|] eqn:N.
    + destruct (aexec fg cuts c2 b) as [o2|] eqn:E2; [|discriminate]. injection H as <-. destruct r; try (split; [apply meets_l; exact M1|exact G1]).
      cbn in M1. rewrite N in M1. specialize (IH2 _ _ w1 E2 M1). destruct (exec dec cut bound c2 w1) as (w2, r2). destruct IH2 as (M2 & G2).
      split; [now apply meets_r|eapply grows_trans; eassumption].
    + injection H as <-. destruct r; try (split; assumption). cbn in M1. rewrite N in M1. destruct M1.
  - destruct (aexec fg cuts c1 a) as [o1|] eqn:E1; [|discriminate]. destruct (aexec fg cuts c2 a) as [o2|] eqn:E2; [|discriminate]. injection H as <-.
    destruct (dec (time w)).
    + specialize (IH1 _ _ (tick w) E1 (sat_tick _ _ S)). destruct (exec _ _ _ c1 _) as (w', r). destruct IH1. split; [now apply meets_l|assumption].
    + specialize (IH2 _ _ (tick w) E2 (sat_tick _ _ S)). destruct (exec _ _ _ c2 _) as (w', r). destruct IH2. split; [now apply meets_r|assumption].
  - destruct (aget x (avs a)) as [[|[] ow d f]|] eqn:E.
    + pose proof (aget_vsat _ _ _ _ S E) as P. cbn in P. rewrite P. now apply IH1 with a.
    + destruct (aexec fg cuts c1 _) as [o1|] eqn:E1; [|discriminate]. destruct (aexec fg cuts c2 _) as [o2|] eqn:E2; [|discriminate]. injection H as <-.
      destruct (vars w x) as [l|] eqn:V0.
      * specialize (IH2 _ _ w E2 (sat_ifnull_some _ _ _ _ _ _ _ _ S V0 E)). destruct (exec _ _ _ c2 _) as (w', r). destruct IH2. split; [now apply meets_r|assumption].
      * specialize (IH1 _ _ w E1 (sat_ifnull_none _ _ _ S V0)). destruct (exec _ _ _ c1 _) as (w', r). destruct IH1. split; [now apply meets_l|assumption].
    + pose proof (aget_vsat _ _ _ _ S E) as P. cbn in P. destruct (vars w x) as [l|]; [|discriminate]. now apply IH2 with a.
    + destruct (aexec fg cuts c1 a) as [o1|] eqn:E1; [|discriminate]. destruct (aexec fg cuts c2 a) as [o2|] eqn:E2; [|discriminate]. injection H as <-.
      destruct (vars w x) as [l|].
      * specialize (IH2 _ _ w E2 S). destruct (exec _ _ _ c2 _) as (w', r). destruct IH2. split; [now apply meets_r|assumption].
      * specialize (IH1 _ _ w E1 S). destruct (exec _ _ _ c1 _) as (w', r). destruct IH1. split; [now apply meets_l|assumption].
  - destruct (ause1 fg a x) eqn:U; [|discriminate]. destruct (aexec fg cuts c1 a) as [o1|] eqn:E1; [|discriminate].
    destruct (aexec fg cuts c2 (unowned x a)) as [o2|] eqn:E2; [|discriminate]. injection H as <-.
    destruct (use1_ok _ _ _ _ S U) as (fs & E & F). cbn [use]. rewrite E. destruct (existsb is_clone (refs w x)) eqn:B.
    + specialize (IH1 _ _ (addf fs w) E1 (sat_addf _ _ _ S)). destruct (exec _ _ _ c1 _) as (w', r). destruct IH1.
      split; [now apply meets_l|]. eapply grows_trans; [exact (grows_addf _ _ _ F)|eassumption].
    + specialize (IH2 _ _ (addf fs w) E2 (sat_addf _ _ _ (sat_unowned _ _ _ S B))). destruct (exec _ _ _ c2 _) as (w', r). destruct IH2.
      split; [now apply meets_r|]. eapply grows_trans; [exact (grows_addf _ _ _ F)|eassumption].
  - destruct (settle (aexec fg cuts c) 6 a) as [(inv, o1)|] eqn:E; [|discriminate]. injection H as <-.
    destruct (settle_spec _ _ _ _ _ E) as (A & B & K). apply A in S. clear A E a.
    cut (forall n w, sat w inv -> let '(w', r) := (fix go (n : nat) (w : world) : world * outcome :=
         match n with
         | O => (w, Cut)
         | S n =>
             if dec (time w) then
               let '(w1, r) := exec dec cut bound c (tick w) in
               match r with Next | Cont => go n w1 | Brk => (w1, Next) | _ => (w1, r) end
             else (tick w, Next)
         end) n w in
      meets w' r (Outs (ojoin (Some inv) (o_bk o1)) None None (ojoin (o_ct o1) (Some (proj inv))) (o_rt o1)) /\ grows fg w w'); [intros G; exact (G bound w S)|].
    clear w S. induction n as [|n IHn]; intros w S.
    + split; [|apply grows_refl]. cbn -[ojoin]. apply osat_join_r. now apply sat_proj.
    + destruct (dec (time w)).
      * specialize (IH _ _ (tick w) B (sat_tick _ _ S)). destruct (exec dec cut bound c (tick w)) as (w1, r). destruct IH as (M1 & G1).
        change (grows fg w w1) in G1. destruct r; cbn [meets] in M1.
        -- specialize (IHn w1 (K _ (or_introl M1))). destruct ((fix go (n : nat) (w : world) := _) n w1) as (w2, r2). destruct IHn. split; [assumption|eapply grows_trans; eassumption].
        -- split; [|exact G1]. cbn -[ojoin]. now apply osat_join_r.
        -- specialize (IHn w1 (K _ (or_intror M1))). destruct ((fix go (n : nat) (w : world) := _) n w1) as (w2, r2). destruct IHn. split; [assumption|eapply grows_trans; eassumption].
        -- split; assumption.
        -- split; [|exact G1]. cbn -[ojoin]. now apply osat_join_l.
      * split; [|now apply grows_eq]. cbn -[ojoin]. apply osat_join_l. now apply sat_tick.
  - destruct (settle (aexec fg cuts c) 6 a) as [(inv, o1)|] eqn:E; [|discriminate]. injection H as <-.
    destruct (settle_spec _ _ _ _ _ E) as (A & B & K). apply A in S. clear A E a.
    cut (forall n w, sat w inv -> let '(w', r) := (fix go (n : nat) (w : world) : world * outcome :=
         match n with
         | O => (w, Cut)
         | S n =>
             let '(w1, r) := exec dec cut bound c w in
             match r with Next | Cont => go n w1 | Brk => (w1, Next) | _ => (w1, r) end
         end) n w in
      meets w' r (Outs (o_bk o1) None None (ojoin (o_ct o1) (Some (proj inv))) (o_rt o1)) /\ grows fg w w'); [intros G; exact (G bound w S)|].
    clear w S. induction n as [|n IHn]; intros w S.
    + split; [|apply grows_refl]. cbn -[ojoin]. apply osat_join_r. now apply sat_proj.
    + specialize (IH _ _ w B S). destruct (exec dec cut bound c w) as (w1, r). destruct IH as (M1 & G1). destruct r; cbn [meets] in M1.
      * specialize (IHn w1 (K _ (or_introl M1))). destruct ((fix go (n : nat) (w : world) := _) n w1) as (w2, r2). destruct IHn. split; [assumption|eapply grows_trans; eassumption].
      * split; assumption.
      * specialize (IHn w1 (K _ (or_intror M1))). destruct ((fix go (n : nat) (w : world) := _) n w1) as (w2, r2). destruct IHn. split; [assumption|eapply grows_trans; eassumption].
      * split; assumption.
      * split; [|exact G1]. cbn -[ojoin]. now apply osat_join_l.
  - injection H as <-. split; [exact S|apply grows_refl].
  - injection H as <-. split; [exact S|apply grows_refl].
  - injection H as <-. destruct (cut (time w)) eqn:C.
    + split; [exact (cut_sat _ _ _ (sat_tick _ _ S) C)|now apply grows_eq].
    + split; [|apply grows_refl]. exists a. split; [now left|exact S].
Qed.
End Exec.
