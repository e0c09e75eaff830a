(** Proofs about Shell_Model: streams, frames, contents. *)
From Coq Require Import Ascii String.
From Verif Require Import Base Shell_Model Shell_Spec.
Local Open Scope nat_scope.
Local Open Scope list_scope.

(** ** The table of open files *)
Lemma lookup_drop k j l : lookup j (drop k l) = if j =? k then None else lookup j l.
Proof.
  unfold drop. induction l as [|(i, h) l IH]; cbn; [now destruct (j =? k)|].
  destruct (Nat.eqb_spec i k) as [->|N]; cbn.
  - rewrite IH. destruct (Nat.eqb_spec j k) as [->|M]; [reflexivity|]. destruct (Nat.eqb_spec k j); [congruence|reflexivity].
  - destruct (Nat.eqb_spec i j) as [->|M].
    + destruct (Nat.eqb_spec j k); [congruence|reflexivity].
    + exact IH.
Qed.
Lemma lookup_set k h j w : lookup j (handles (set_handle k h w)) = if j =? k then Some h else lookup j (handles w).
Proof.
  cbn. rewrite lookup_drop, (Nat.eqb_sym k j). destruct (j =? k); reflexivity.
Qed.
Lemma lookup_empty l : (forall k, lookup k l = None) -> l = [].
Proof. destruct l as [|(k, h) l]; [reflexivity|]. intros H. specialize (H k). cbn in H. rewrite Nat.eqb_refl in H. discriminate. Qed.
Lemma field_split d t : forall a b, field d t = (a, b) -> t = a ++ b.
Proof.
  induction t as [|c t IH]; cbn; intros a b; [now intros [= <- <-]|].
  destruct (Ascii.eqb c d); [now intros [= <- <-]|]. destruct (field d t) as (a', b'). intros [= <- <-]. cbn. f_equal. now apply IH.
Qed.
Lemma skipn_more {A} n : forall m (l : list A), skipn (m + n) l = skipn n (skipn m l).
Proof. induction m as [|m IH]; intros l; [reflexivity|]. destruct l as [|x l]; [now rewrite !skipn_nil|]. apply IH. Qed.
Lemma overwrite_end t c : overwrite c (length c) t = c ++ t.
Proof.
  unfold overwrite. rewrite firstn_all, Nat.sub_diag, skipn_all2 by lia. cbn. now rewrite app_nil_r.
Qed.

Section Shell.
Variable ino : text -> nat.
Variable readable writable : nat -> bool.
Variable limit : nat -> option nat.
Variable reason : text.
Notation fopen := (fopen ino readable writable).
Notation fprintf := (fprintf limit).
Notation init := (init ino readable writable limit reason).
Notation run := (run limit).
Notation main := (main ino readable writable limit reason).

(** ** Every stream that is used is open *)
(** The three pointers name different open files, or standard streams; nothing else is open. *)
Record sound (w : world) : Prop := mkSound {
  s_bad : bad w = [];
  s_err : g_err w = SStd 2;
  s_out : g_out w <> SNull;
  s_ver : g_verbose w <> SNull;
  s_keys : forall k, lookup k (handles w) <> None <-> (g_out w = SFile k \/ g_verbose w = SFile k \/ g_in w = SFile k);
  s_ov : forall k, g_out w = SFile k -> g_verbose w <> SFile k;
  s_oi : forall k, g_out w = SFile k -> g_in w <> SFile k;
  s_vi : forall k, g_verbose w = SFile k -> g_in w <> SFile k;
  s_std : forall n, g_in w = SStd n -> n = 0 }.

Lemma printf_keys s t w k : lookup k (handles (fprintf s t w)) <> None <-> lookup k (handles w) <> None.
Proof.
  unfold Shell_Model.fprintf. destruct (limit (writes w)) as [lm|]; destruct s as [|[|[|[|n]]]|j]; try reflexivity; cbn [handles with_writes];
    destruct (lookup j (handles w)) as [[i pos|i|i pos]|] eqn:L; try reflexivity; rewrite lookup_set; cbn [handles put_file with_files with_writes];
    destruct (Nat.eqb_spec k j) as [->|N]; try reflexivity; rewrite L; split; discriminate.
Qed.
Lemma printf_globals s t w : g_out (fprintf s t w) = g_out w /\ g_err (fprintf s t w) = g_err w /\
  g_verbose (fprintf s t w) = g_verbose w /\ g_in (fprintf s t w) = g_in w /\ g_delim (fprintf s t w) = g_delim w.
Proof.
  unfold Shell_Model.fprintf. destruct (limit (writes w)) as [lm|]; destruct s as [|[|[|[|n]]]|j]; try (repeat split; reflexivity); cbn [handles with_writes];
    destruct (lookup j (handles w)) as [[i pos|i|i pos]|]; repeat split; reflexivity.
Qed.
Lemma printf_bad s t w : s <> SNull -> (forall k, s = SFile k -> lookup k (handles w) <> None) -> bad (fprintf s t w) = bad w.
Proof.
  intros N L. unfold Shell_Model.fprintf. destruct (limit (writes w)) as [lm|]; destruct s as [|[|[|[|n]]]|j]; try congruence; try reflexivity; cbn [handles with_writes];
    specialize (L j eq_refl); destruct (lookup j (handles w)) as [[i pos|i|i pos]|]; try congruence; reflexivity.
Qed.
Lemma channel_open c w : sound w -> channel_stream c w <> SNull /\ forall k, channel_stream c w = SFile k -> lookup k (handles w) <> None.
Proof.
  intros H. destruct c; cbn.
  - split; [apply (s_out w H)|]. intros k E. apply (s_keys w H). auto.
  - rewrite (s_err w H). split; [discriminate|]. intros k E. discriminate.
  - split; [apply (s_ver w H)|]. intros k E. apply (s_keys w H). auto.
Qed.
Lemma printf_sound c t w : sound w -> sound (fprintf (channel_stream c w) t w).
Proof.
  intros H. destruct (printf_globals (channel_stream c w) t w) as (E1 & E2 & E3 & E4 & _). destruct (channel_open c w H) as (N & L).
  constructor; rewrite ?E1, ?E2, ?E3, ?E4; try apply H.
  - rewrite printf_bad by assumption. apply H.
  - intros k. rewrite printf_keys. apply (s_keys w H).
Qed.
Lemma std2_sound t w : sound w -> sound (fprintf (SStd 2) t w).
Proof. intros H. rewrite <- (s_err w H). exact (printf_sound Err t w H). Qed.
Lemma read_keys s d w k : lookup k (handles (snd (getdelim s d w))) <> None <-> lookup k (handles w) <> None.
Proof.
  unfold getdelim. destruct s as [|[|n]|j]; cbn; try reflexivity.
  - destruct (field d (keyboard w)). reflexivity.
  - destruct (lookup j (handles w)) as [[i pos|i|i pos]|] eqn:L; cbn [snd]; try reflexivity. rewrite lookup_set.
    destruct (Nat.eqb_spec k j) as [->|N]; [|reflexivity]. rewrite L. split; discriminate.
Qed.
Lemma read_globals s d w : g_out (snd (getdelim s d w)) = g_out w /\ g_err (snd (getdelim s d w)) = g_err w /\
  g_verbose (snd (getdelim s d w)) = g_verbose w /\ g_in (snd (getdelim s d w)) = g_in w /\ g_delim (snd (getdelim s d w)) = g_delim w.
Proof.
  unfold getdelim. destruct s as [|[|n]|j]; cbn; try (repeat split; reflexivity).
  - destruct (field d (keyboard w)). repeat split; reflexivity.
  - destruct (lookup j (handles w)) as [[i pos|i|i pos]|]; repeat split; reflexivity.
Qed.
Lemma read_bad s d w : s <> SNull -> (forall k, s = SFile k -> lookup k (handles w) <> None) -> bad (snd (getdelim s d w)) = bad w.
Proof.
  intros N L. unfold getdelim. destruct s as [|[|n]|j]; cbn; try congruence.
  - destruct (field d (keyboard w)). reflexivity.
  - specialize (L j eq_refl). destruct (lookup j (handles w)) as [[i pos|i|i pos]|]; try congruence; reflexivity.
Qed.
Lemma read_sound d w : sound w -> g_in w <> SNull -> sound (snd (getdelim (g_in w) d w)).
Proof.
  intros H NI. destruct (read_globals (g_in w) d w) as (E1 & E2 & E3 & E4 & _).
  constructor; rewrite ?E1, ?E2, ?E3, ?E4; try apply H.
  - rewrite read_bad; [apply H|exact NI|]. intros k E. apply (s_keys w H). auto.
  - intros k. rewrite read_keys. apply (s_keys w H).
Qed.
Lemma run_sound {A} (p : prog A) : forall w, sound w -> g_in w <> SNull ->
  match snd (run p w) with
  | Returned _ => sound (fst (run p w)) /\ g_in (fst (run p w)) <> SNull
  | Exited _ => bad (fst (run p w)) = [] /\ handles (fst (run p w)) = []
  end.
Proof.
  induction p as [a|s|c t k IH|k IH]; intros w H N; cbn.
  - auto.
  - split; [apply H|reflexivity].
  - apply IH; [now apply printf_sound|]. destruct (printf_globals (channel_stream c w) t w) as (_ & _ & _ & -> & _). exact N.
  - destruct (getdelim (g_in w) (g_delim w) w) as (t, w') eqn:E. pose proof (read_sound (g_delim w) w H N) as S1.
    destruct (read_globals (g_in w) (g_delim w) w) as (_ & _ & _ & G & _). rewrite E in S1, G. cbn [snd] in *. apply IH; [exact S1|congruence].
Qed.

(** closing *)
Lemma close_keys k j w : lookup k (handles w) <> None ->
  lookup j (handles (fclose (SFile k) w)) = if j =? k then None else lookup j (handles w).
Proof. intros L. cbn. destruct (lookup k (handles w)); [|congruence]. cbn. apply lookup_drop. Qed.
Lemma close_rest s w : bad w = [] -> (forall k, s = SFile k -> lookup k (handles w) <> None) -> is_std s = false -> s <> SNull ->
  bad (fclose s w) = [] /\ g_out (fclose s w) = g_out w /\ g_err (fclose s w) = g_err w /\ g_verbose (fclose s w) = g_verbose w /\
  g_in (fclose s w) = g_in w /\ files (fclose s w) = files w /\ console (fclose s w) = console w /\ errors (fclose s w) = errors w.
Proof.
  intros B L N1 N2. destruct s as [|n|k]; try congruence; try discriminate. cbn. specialize (L k eq_refl).
  destruct (lookup k (handles w)); [|congruence]. repeat split; assumption.
Qed.
Lemma quit_sound w : sound w -> bad (quit w) = [] /\ handles (quit w) = [] /\ files (quit w) = files w /\ console (quit w) = console w.
Proof.
  intros H. unfold quit, output_quit.
  set (w1 := if is_std (g_out w) then w else fclose (g_out w) w).
  assert (A1 : bad w1 = [] /\ g_err w1 = g_err w /\ g_verbose w1 = g_verbose w /\ g_in w1 = g_in w /\ files w1 = files w /\ console w1 = console w /\
    forall k, lookup k (handles w1) <> None <-> (g_verbose w = SFile k \/ g_in w = SFile k)).
  { unfold w1. destruct (g_out w) as [|n|k] eqn:E.
    - exfalso. now apply (s_out w H).
    - cbn. repeat (split; [first [apply H|reflexivity]|]). intros k. rewrite (s_keys w H), E. split; [intros [?|?]; [discriminate|assumption]|auto].
    - assert (L : lookup k (handles w) <> None) by (apply (s_keys w H); auto).
      destruct (close_rest (SFile k) w (s_bad w H) ltac:(intros ? [= <-]; exact L) eq_refl ltac:(discriminate)) as (B & _ & E2 & E3 & E4 & E5 & E6 & _).
      cbn [is_std]. repeat (split; [assumption|]). intros j. rewrite close_keys by exact L. destruct (Nat.eqb_spec j k) as [->|N].
      + split; [congruence|]. intros [F|F]; [now destruct (s_ov w H k)|now destruct (s_oi w H k)].
      + rewrite (s_keys w H), E. split; [intros [[= ->]|?]; [congruence|assumption]|auto]. }
  destruct A1 as (B1 & E1 & V1 & I1 & F1 & C1 & K1). rewrite E1, (s_err w H). cbn [is_std]. rewrite V1.
  set (w2 := if is_std (g_verbose w) then w1 else fclose (g_verbose w) w1).
  assert (A2 : bad w2 = [] /\ g_in w2 = g_in w /\ files w2 = files w /\ console w2 = console w /\ forall k, lookup k (handles w2) <> None <-> g_in w = SFile k).
  { unfold w2. destruct (g_verbose w) as [|n|k] eqn:E.
    - exfalso. now apply (s_ver w H).
    - cbn. repeat (split; [assumption|]). intros k. rewrite K1. split; [intros [?|?]; [discriminate|assumption]|auto].
    - assert (L : lookup k (handles w1) <> None) by (apply K1; auto).
      destruct (close_rest (SFile k) w1 B1 ltac:(intros ? [= <-]; exact L) eq_refl ltac:(discriminate)) as (B & _ & _ & _ & E4 & E5 & E6 & _).
      cbn [is_std]. split; [assumption|]. split; [congruence|]. split; [congruence|]. split; [congruence|]. intros j. rewrite close_keys by exact L. destruct (Nat.eqb_spec j k) as [->|N].
      + split; [congruence|]. intros F. now destruct (s_vi w H k).
      + rewrite K1. split; [intros [[= ->]|?]; [congruence|assumption]|auto]. }
  clearbody w2. destruct A2 as (B2 & I2 & F2 & C2 & K2). unfold input_quit. rewrite I2.
  assert (Z : g_in w = SNull \/ (exists n, g_in w = SStd n) \/ exists k, g_in w = SFile k) by (destruct (g_in w); eauto).
  destruct Z as [Z|[(n & Z)|(k & Z)]]; rewrite Z.
  - split; [exact B2|]. split; [|split; assumption]. apply lookup_empty. intros j. destruct (lookup j (handles w2)) eqn:L; [|reflexivity].
    exfalso. assert (g_in w = SFile j) by (apply K2; congruence). congruence.
  - pose proof (s_std w H n Z). subst n. split; [exact B2|]. split; [|split; assumption]. apply lookup_empty. intros j. destruct (lookup j (handles w2)) eqn:L; [|reflexivity].
    exfalso. assert (g_in w = SFile j) by (apply K2; congruence). congruence.
  - assert (L : lookup k (handles w2) <> None) by (now apply K2).
    destruct (close_rest (SFile k) w2 B2 ltac:(intros ? [= <-]; exact L) eq_refl ltac:(discriminate)) as (B & _ & _ & _ & _ & E5 & E6 & _).
    split; [exact B|]. split; [|split; congruence]. apply lookup_empty. intros j. rewrite close_keys by exact L. destruct (Nat.eqb_spec j k) as [->|N]; [reflexivity|].
    destruct (lookup j (handles w2)) eqn:M; [|reflexivity]. exfalso. assert (g_in w = SFile j) by (apply K2; congruence). congruence.
Qed.

(** ** The start *)
(** What init makes of the pointers. *)
Definition opens (f : option text) : option nat :=
  match f with Some f => if writable (ino f) then Some (ino f) else None | None => None end.
Definition first_handle (cfg : io_config) (i : nat) : handle := if i_append cfg then HAppend i else HWrite i 0.
Definition began (cfg : io_config) (fs : nat -> option text) (i : nat) : text := kept cfg (fs i).

Definition add (i : nat) (t : text) (fs : nat -> option text) : nat -> option text := fun j => if j =? i then Some t else fs j.
Definition same_io (w w1 : world) : Prop := bad w1 = bad w /\ g_in w1 = g_in w /\ keyboard w1 = keyboard w /\ console w1 = console w.
Lemma open_output_eq cfg w : let w1 := open_output ino readable writable limit reason cfg w in
  same_io w w1 /\ g_err w1 = g_err w /\
  match opens (i_output cfg) with
  | None => g_out w1 = SStd 1 /\ handles w1 = handles w /\ next w1 = next w /\ forall j, files w1 j = files w j
  | Some i => g_out w1 = SFile (next w) /\ handles w1 = (next w, first_handle cfg i) :: handles w /\ next w1 = S (next w) /\
      forall j, files w1 j = add i (kept cfg (files w i)) (files w) j
  end.
Proof.
  unfold opens, open_output, same_io, add, kept, first_handle. destruct (i_output cfg) as [f|]; [|cbn; auto 10].
  unfold Shell_Model.fopen. destruct (writable (ino f)); destruct (i_append cfg); cbn; auto 10.
  - destruct (files w (ino f)) eqn:E; cbn; (split; [repeat split; reflexivity|]); repeat (split; [reflexivity|]); intros j; destruct (Nat.eqb_spec j (ino f)) as [->|]; congruence.
Qed.
Lemma open_log_eq cfg w : let w1 := open_log ino readable writable limit reason cfg w in
  same_io w w1 /\ g_err w1 = g_err w /\ g_out w1 = g_out w /\
  match opens (i_log cfg) with
  | None => g_verbose w1 = SStd 2 /\ handles w1 = handles w /\ next w1 = next w /\ forall j, files w1 j = files w j
  | Some i => g_verbose w1 = SFile (next w) /\ handles w1 = (next w, HWrite i 0) :: handles w /\ next w1 = S (next w) /\
      forall j, files w1 j = add i [] (files w) j
  end.
Proof.
  unfold opens, open_log, same_io, add. destruct (i_log cfg) as [f|]; [|cbn; auto 10].
  unfold Shell_Model.fopen. destruct (writable (ino f)); cbn; auto 10.
Qed.
Lemma setvbuf_open s w : (exists n, s = SStd n) \/ (exists k h l, s = SFile k /\ handles w = (k, h) :: l) -> setvbuf s w = w.
Proof. intros [(n & ->)|(k & h & l & -> & E)]; [reflexivity|]. cbn. rewrite E. cbn. now rewrite Nat.eqb_refl. Qed.

(** What has been opened, at the start. *)
Definition opened_out (cfg : io_config) : list (nat * handle) :=
  match opens (i_output cfg) with Some i => [(0, first_handle cfg i)] | None => [] end.
Definition opened_log (cfg : io_config) : list (nat * handle) :=
  match opens (i_log cfg) with Some v => [(length (opened_out cfg), HWrite v 0)] | None => [] end.
Definition files_out (cfg : io_config) (fs : nat -> option text) : nat -> option text :=
  match opens (i_output cfg) with Some i => add i (kept cfg (fs i)) fs | None => fs end.
Definition files_log (cfg : io_config) (fs : nat -> option text) : nat -> option text :=
  match opens (i_log cfg) with Some v => add v [] fs | None => fs end.
Lemma init_out cfg w : handles w = [] -> next w = 0 ->
  let w1 := output_init ino readable writable limit reason cfg w in
  same_io w w1 /\ g_err w1 = SStd 2 /\
  g_out w1 = (match opens (i_output cfg) with Some _ => SFile 0 | None => SStd 1 end) /\
  g_verbose w1 = (match opens (i_log cfg) with Some _ => SFile (length (opened_out cfg)) | None => SStd 2 end) /\
  handles w1 = opened_log cfg ++ opened_out cfg /\ next w1 = length (opened_log cfg ++ opened_out cfg) /\
  forall j, files w1 j = files_log cfg (files_out cfg (files w)) j.
Proof.
  intros Hh Hn. unfold output_init.
  pose proof (open_output_eq cfg w) as H1. cbn zeta in H1. set (w1 := open_output _ _ _ _ _ cfg w) in *. clearbody w1.
  destruct H1 as (S1 & _ & H1).
  rewrite (setvbuf_open (g_out w1)) by (destruct (opens (i_output cfg)); destruct H1 as (E & E' & _); rewrite E; [right; rewrite E'; eauto|left; eauto]).
  cbn [g_err set_err]. change (setvbuf (SStd 2) (set_err (SStd 2) w1)) with (set_err (SStd 2) w1).
  pose proof (open_log_eq cfg (set_err (SStd 2) w1)) as H2. cbn zeta in H2. set (w2 := open_log _ _ _ _ _ cfg _) in *. clearbody w2.
  destruct H2 as (S2 & E2 & O2 & H2).
  rewrite (setvbuf_open (g_verbose w2)) by (destruct (opens (i_log cfg)); destruct H2 as (E & E' & _); rewrite E; [right; rewrite E'; eauto|left; eauto]).
  unfold same_io in *. cbn [set_err bad g_in keyboard console g_err g_out handles next files] in *.
  destruct S1 as (A1 & A2 & A3 & A4), S2 as (B1 & B2 & B3 & B4).
  split; [repeat split; congruence|]. split; [congruence|].
  unfold opened_log, opened_out, files_log, files_out in *.
  destruct (opens (i_output cfg)) as [i|]; destruct (opens (i_log cfg)) as [v|]; cbn [length app]; destruct H1 as (P1 & P2 & P3 & P4), H2 as (Q1 & Q2 & Q3 & Q4);
    repeat (split; [congruence|]); intros j; rewrite Q4; unfold add; rewrite ?P4; reflexivity.
Qed.

(** the reading side *)
Lemma init_in cfg w : let '(ok, w1) := input_init ino readable writable limit reason cfg w in
  bad w1 = bad w /\ keyboard w1 = keyboard w /\ console w1 = console w /\ g_err w1 = g_err w /\ g_out w1 = g_out w /\ g_verbose w1 = g_verbose w /\
  (forall j, files w1 j = files w j) /\
  match i_input cfg with
  | None => ok = true /\ g_in w1 = SStd 0 /\ g_delim w1 = "010"%char /\ handles w1 = handles w
  | Some f =>
      (ok = true /\ (exists t, files w (ino f) = Some t) /\ readable (ino f) = true /\
        g_in w1 = SFile (next w) /\ g_delim w1 = ","%char /\ handles w1 = (next w, HRead (ino f) 0) :: handles w) \/
      (ok = false /\ (files w (ino f) = None \/ readable (ino f) = false) /\ g_in w1 = SNull /\ handles w1 = handles w)
  end.
Proof.
  unfold input_init. destruct (i_input cfg) as [f|]; [|cbn; auto 20]. unfold Shell_Model.fopen.
  destruct (files w (ino f)) eqn:E; [destruct (readable (ino f)) eqn:R|]; cbn; auto 20.
  - repeat (split; [reflexivity|]). left. eauto 10.
Qed.

Definition start (cfg : io_config) (seadata : bool) (fs : nat -> option text) (kbd : text) : bool * world := init cfg seadata (fresh fs kbd).
Lemma start_eq cfg seadata fs kbd : let '(ok, w) := start cfg seadata fs kbd in
  bad w = [] /\ keyboard w = kbd /\ console w = [] /\ g_err w = SStd 2 /\
  g_out w = (match opens (i_output cfg) with Some _ => SFile 0 | None => SStd 1 end) /\
  g_verbose w = (match opens (i_log cfg) with Some _ => SFile (length (opened_out cfg)) | None => SStd 2 end) /\
  (forall j, files w j = files_log cfg (files_out cfg fs) j) /\
  match i_input cfg with
  | None => ok = true /\ g_in w = SStd 0 /\ g_delim w = "010"%char /\ handles w = opened_log cfg ++ opened_out cfg
  | Some f =>
      (ok = true /\ (exists t, files_log cfg (files_out cfg fs) (ino f) = Some t) /\ readable (ino f) = true /\
        g_in w = SFile (length (opened_log cfg ++ opened_out cfg)) /\ g_delim w = ","%char /\
        handles w = (length (opened_log cfg ++ opened_out cfg), HRead (ino f) 0) :: opened_log cfg ++ opened_out cfg) \/
      (ok = false /\ (files_log cfg (files_out cfg fs) (ino f) = None \/ readable (ino f) = false) /\ g_in w = SNull /\
        handles w = opened_log cfg ++ opened_out cfg)
  end.
Proof.
  unfold start, Shell_Model.init.
  set (w0 := if seadata then fresh fs kbd else _).
  assert (Z : handles w0 = [] /\ next w0 = 0 /\ bad w0 = [] /\ g_in w0 = SNull /\ keyboard w0 = kbd /\ console w0 = [] /\ files w0 = fs).
  { unfold w0. destruct seadata; [cbn; auto 10|]. unfold Shell_Model.fprintf. cbn. auto 10. }
  clearbody w0. destruct Z as (Z1 & Z2 & Z3 & Z4 & Z5 & Z6 & Z7).
  pose proof (init_out cfg w0 Z1 Z2) as H1. cbn zeta in H1. set (w1 := output_init _ _ _ _ _ cfg w0) in *. clearbody w1.
  destruct H1 as ((A1 & A2 & A3 & A4) & A5 & A6 & A7 & A8 & A9 & A10).
  pose proof (init_in cfg w1) as H2. destruct (input_init _ _ _ _ _ cfg w1) as (ok, w2).
  destruct H2 as (B1 & B2 & B3 & B4 & B5 & B6 & B7 & B8).
  do 6 (split; [congruence|]). split; [intros j; rewrite B7, A10, Z7; reflexivity|].
  destruct (i_input cfg) as [f|].
  - rewrite A8, A9 in B8. rewrite A10, Z7 in B8. exact B8.
  - rewrite A8 in B8. exact B8.
Qed.
Lemma start_sound cfg seadata fs kbd : sound (snd (start cfg seadata fs kbd)) /\
  (fst (start cfg seadata fs kbd) = true -> g_in (snd (start cfg seadata fs kbd)) <> SNull).
Proof.
  pose proof (start_eq cfg seadata fs kbd) as H. destruct (start cfg seadata fs kbd) as (ok, w). cbn [fst snd].
  destruct H as (A1 & _ & _ & A2 & A3 & A4 & _ & A5).
  assert (K : (g_in w = SStd 0 /\ handles w = opened_log cfg ++ opened_out cfg) \/
    (exists h, g_in w = SFile (length (opened_log cfg ++ opened_out cfg)) /\ handles w = (length (opened_log cfg ++ opened_out cfg), h) :: opened_log cfg ++ opened_out cfg) \/
    (ok = false /\ g_in w = SNull /\ handles w = opened_log cfg ++ opened_out cfg)).
  { destruct (i_input cfg) as [f|]; [destruct A5 as [(B0 & _ & _ & B1 & _ & B2)|(B0 & _ & B1 & B2)]|destruct A5 as (B0 & B1 & _ & B2)].
    - right. left. exists (HRead (ino f) 0). split; [exact B1|exact B2].
    - right. right. auto.
    - left. auto. }
  clear A5. unfold opened_log, opened_out in *.
  destruct (opens (i_output cfg)) as [i|]; destruct (opens (i_log cfg)) as [v|]; cbn [length app] in *;
    (destruct K as [(K1 & K2)|[(h & K1 & K2)|(K0 & K1 & K2)]];
     (split; [constructor; rewrite ?A1, ?A2, ?A3, ?A4, ?K1, ?K2; try reflexivity; try discriminate;
       try (intros k; try intros [= <-]; first [discriminate|congruence]);
       intros k; cbn [lookup]; destruct k as [|[|[|k]]]; cbn [Nat.eqb]; split; intros U; try congruence; try (decompose [or] U; congruence); auto; try discriminate
     |intros ->; first [rewrite K1; discriminate|discriminate]])).
Qed.

(** ** The whole program *)
Lemma main_sound cfg seadata method fs kbd :
  let w := fst (main true cfg seadata method (fresh fs kbd)) in bad w = [] /\ handles w = [].
Proof.
  unfold Shell_Model.main. cbn [negb]. pose proof (start_sound cfg seadata fs kbd) as H. unfold start in H.
  destruct (init cfg seadata (fresh fs kbd)) as (ok, w). cbn [fst snd] in H. destruct H as (H & N).
  destruct ok; cbn [negb].
  - pose proof (run_sound method w H (N eq_refl)) as R. destruct (run method w) as (w', e). cbn [fst snd] in R. destruct e as [s|s]; cbn [fst].
    + destruct (quit_sound w' (proj1 R)) as (A & B & _). auto.
    + exact R.
  - cbn [fst]. destruct (quit_sound w H) as (A & B & _). auto.
Qed.

(** ** Only the named files are written *)
Definition target (h : handle) : option nat := match h with HWrite i _ | HAppend i => Some i | HRead _ _ => None end.
Definition owned (P : nat -> Prop) (w : world) : Prop := forall k h i, lookup k (handles w) = Some h -> target h = Some i -> P i.
Lemma printf_owned P s t w : owned P w -> owned P (fprintf s t w) /\ forall j, ~ P j -> files (fprintf s t w) j = files w j.
Proof.
  intros O. unfold Shell_Model.fprintf. set (t' := match limit (writes w) with Some n => firstn n t | None => t end). clearbody t'.
  destruct s as [|[|[|[|n]]]|k]; try (split; [exact O|reflexivity]). cbn [handles with_writes].
  destruct (lookup k (handles w)) as [[i pos|i|i pos]|] eqn:L; try (split; [exact O|reflexivity]).
  - split.
    + intros j h i' Lj Tj. rewrite lookup_set in Lj. cbn [handles put_file with_files with_writes] in Lj. destruct (Nat.eqb_spec j k) as [->|N].
      * injection Lj as <-. cbn in Tj. injection Tj as <-. exact (O k (HWrite i pos) i L eq_refl).
      * exact (O j h i' Lj Tj).
    + intros j Nj. cbn. destruct (Nat.eqb_spec j i) as [->|]; [|reflexivity]. destruct Nj. exact (O k (HWrite i pos) i L eq_refl).
  - split; [exact O|]. intros j Nj. cbn. destruct (Nat.eqb_spec j i) as [->|]; [|reflexivity]. destruct Nj. exact (O k (HAppend i) i L eq_refl).
Qed.
Lemma read_owned P s d w : owned P w -> owned P (snd (getdelim s d w)) /\ files (snd (getdelim s d w)) = files w.
Proof.
  intros O. unfold getdelim. destruct s as [|[|n]|k]; try (split; [exact O|reflexivity]).
  - destruct (field d (keyboard w)). split; [exact O|reflexivity].
  - destruct (lookup k (handles w)) as [[i pos|i|i pos]|] eqn:L; try (split; [exact O|reflexivity]). cbn [snd]. split; [|reflexivity].
    intros j h i' Lj Tj. rewrite lookup_set in Lj. destruct (Nat.eqb_spec j k) as [->|N]; [injection Lj as <-; discriminate|exact (O j h i' Lj Tj)].
Qed.
Lemma run_owned {A} P (p : prog A) : forall w, owned P w -> forall j, ~ P j -> files (fst (run p w)) j = files w j.
Proof.
  induction p as [a|s|c t k IH|k IH]; intros w O j N; cbn.
  - reflexivity.
  - reflexivity.
  - destruct (printf_owned P (channel_stream c w) t w O) as (O' & F). rewrite IH by assumption. now apply F.
  - destruct (getdelim (g_in w) (g_delim w) w) as (t, w') eqn:E. pose proof (read_owned P (g_in w) (g_delim w) w O) as (O' & F).
    rewrite E in O', F. cbn [snd] in *. rewrite IH by assumption. now rewrite F.
Qed.
Lemma opens_out cfg i : opens (i_output cfg) = Some i <-> out_file ino writable cfg i.
Proof.
  unfold opens, out_file. destruct (i_output cfg) as [f|]; [|split; [discriminate|intros (f & [=] & _)]].
  destruct (writable (ino f)) eqn:W; split; [intros [= <-]; eauto| |discriminate|]; intros (f' & [= <-] & W' & <-); congruence.
Qed.
Lemma opens_log cfg i : opens (i_log cfg) = Some i <-> log_file ino writable cfg i.
Proof.
  unfold opens, log_file. destruct (i_log cfg) as [f|]; [|split; [discriminate|intros (f & [=] & _)]].
  destruct (writable (ino f)) eqn:W; split; [intros [= <-]; eauto| |discriminate|]; intros (f' & [= <-] & W' & <-); congruence.
Qed.
Definition named (cfg : io_config) (i : nat) : Prop := out_file ino writable cfg i \/ log_file ino writable cfg i.
Lemma start_owned cfg seadata fs kbd : owned (named cfg) (snd (start cfg seadata fs kbd)) /\
  forall j, ~ named cfg j -> files (snd (start cfg seadata fs kbd)) j = fs j.
Proof.
  pose proof (start_eq cfg seadata fs kbd) as H. destruct (start cfg seadata fs kbd) as (ok, w). cbn [snd].
  destruct H as (_ & _ & _ & _ & _ & _ & F & A5). split.
  - assert (K : handles w = opened_log cfg ++ opened_out cfg \/ exists k f, handles w = (k, HRead f 0) :: opened_log cfg ++ opened_out cfg).
    { destruct (i_input cfg) as [f|]; [destruct A5 as [(_ & _ & _ & _ & _ & B)|(_ & _ & _ & B)]|destruct A5 as (_ & _ & _ & B)]; eauto. }
    assert (O : forall k h i, lookup k (opened_log cfg ++ opened_out cfg) = Some h -> target h = Some i -> named cfg i).
    { unfold opened_log, opened_out, named. intros k h i. rewrite <- opens_out, <- opens_log.
      destruct (opens (i_output cfg)) as [o|]; destruct (opens (i_log cfg)) as [v|]; cbn [app length lookup];
        repeat match goal with |- context [if ?b then _ else _] => destruct b end; try discriminate; intros [= <-];
        unfold first_handle; try destruct (i_append cfg); intros [= <-]; auto. }
    intros k h i. destruct K as [->|(k' & f & ->)]; [apply O|]. cbn [lookup]. destruct (k' =? k); [intros [= <-]; discriminate|apply O].
  - intros j N. rewrite F. unfold files_log, files_out, named in *. rewrite <- opens_out, <- opens_log in N.
    destruct (opens (i_output cfg)) as [o|]; destruct (opens (i_log cfg)) as [v|]; unfold add;
      repeat match goal with |- context [?a =? ?b] => destruct (Nat.eqb_spec a b); subst end; try reflexivity; exfalso; apply N; auto.
Qed.
Lemma main_frame cfg seadata method fs kbd j : ~ named cfg j ->
  files (fst (main true cfg seadata method (fresh fs kbd))) j = fs j.
Proof.
  intros N. unfold Shell_Model.main. cbn [negb]. pose proof (start_sound cfg seadata fs kbd) as H. pose proof (start_owned cfg seadata fs kbd) as O. unfold start in H, O.
  destruct (init cfg seadata (fresh fs kbd)) as (ok, w). cbn [fst snd] in H, O. destruct H as (H & NI), O as (O & F).
  destruct ok; cbn [negb].
  - pose proof (run_sound method w H (NI eq_refl)) as R. pose proof (run_owned (named cfg) method w O j N) as E.
    destruct (run method w) as (w', e). cbn [fst snd] in R, E. destruct e as [s|s]; cbn [fst].
    + destruct (quit_sound w' (proj1 R)) as (_ & _ & -> & _). rewrite E. now apply F.
    + rewrite E. now apply F.
  - cbn [fst]. destruct (quit_sound w H) as (_ & _ & -> & _). now apply F.
Qed.

(** ** What the output file holds *)
Definition apart (a b : option nat) : Prop := forall i, a = Some i -> b <> Some i.
(** [o], [v], [f]: the files of the output, the log and the input, if any; [c], [l]: what the output and the log hold; [rest]: what is still to be read. *)
Record holds (o v f : option nat) (d : ascii) (rest c l : text) (w : world) : Prop := mkHolds {
  h_out : match o with
    | Some i => console w = [] /\ files w i = Some c /\ exists k h, g_out w = SFile k /\ lookup k (handles w) = Some h /\ (h = HAppend i \/ h = HWrite i (length c))
    | None => console w = c /\ g_out w = SStd 1 end;
  h_log : match v with
    | Some i => files w i = Some l /\ exists k, g_verbose w = SFile k /\ lookup k (handles w) = Some (HWrite i (length l))
    | None => g_verbose w = SStd 2 end;
  h_in : match f with
    | Some i => exists k q t, g_in w = SFile k /\ lookup k (handles w) = Some (HRead i q) /\ files w i = Some t /\ skipn q t = rest
    | None => g_in w = SStd 0 /\ keyboard w = rest end;
  h_err : g_err w = SStd 2;
  h_delim : g_delim w = d }.
Hypothesis enough : forall n, limit n = None.
Lemma holds_out o v f d rest c l w t : apart o f -> apart v f -> apart o v -> holds o v f d rest c l w -> holds o v f d rest (c ++ t) l (fprintf (g_out w) t w).
Proof.
  intros A1 A2 A3 [HO HL HI HE HD]. unfold Shell_Model.fprintf. rewrite enough. cbn [handles with_writes files].
  destruct o as [i|].
  - destruct HO as (C & F & k & h & G & L & D). rewrite G, L.
    assert (KL : match v with Some v => v <> i /\ files w v = Some l /\ exists kv, g_verbose w = SFile kv /\ kv <> k /\ lookup kv (handles w) = Some (HWrite v (length l)) | None => g_verbose w = SStd 2 end).
    { destruct v as [v|]; [|exact HL]. destruct HL as (FL & kv & E1 & E2). split; [intros ->; now apply (A3 i eq_refl)|]. split; [exact FL|]. exists kv. split; [exact E1|]. split; [|exact E2]. intros ->.
      apply (A3 i eq_refl). destruct D as [->| ->]; congruence. }
    assert (KI : match f with Some f => exists kf q t', g_in w = SFile kf /\ kf <> k /\ lookup kf (handles w) = Some (HRead f q) /\ files w f = Some t' /\ skipn q t' = rest | None => g_in w = SStd 0 /\ keyboard w = rest end).
    { destruct f as [f|]; [|exact HI]. destruct HI as (kf & q & t' & E1 & E2 & E3 & E4). exists kf, q, t'. split; [exact E1|]. split; [|auto]. intros ->. destruct D as [->| ->]; congruence. }
    destruct D as [->| ->]; constructor; try assumption.
    + cbn. rewrite F, Nat.eqb_refl. split; [exact C|]. split; [reflexivity|]. exists k, (HAppend i). auto.
    + destruct v as [v|]; [|exact HL]. destruct KL as (N & FL & kv & E1 & E2 & E3). cbn. destruct (Nat.eqb_spec v i); [congruence|]. eauto.
    + cbn. destruct f as [f|]; [|exact HI]. destruct KI as (kf & q & t' & E1 & E2 & E3 & E4 & E5). exists kf, q, t'. repeat (split; [assumption|]). split; [|exact E5].
      destruct (Nat.eqb_spec f i) as [->|]; [now destruct (A1 i eq_refl)|exact E4].
    + cbn [console files set_handle put_file with_files with_writes with_handles]. rewrite Nat.eqb_refl, F, overwrite_end. split; [exact C|]. split; [reflexivity|].
      exists k, (HWrite i (length c + length t)). split; [exact G|]. split; [|right; now rewrite app_length]. rewrite lookup_set, Nat.eqb_refl. reflexivity.
    + destruct v as [v|]; [|exact HL]. destruct KL as (N & FL & kv & E1 & E2 & E3). split; [cbn; destruct (Nat.eqb_spec v i); [congruence|exact FL]|]. exists kv. split; [exact E1|]. rewrite lookup_set. destruct (Nat.eqb_spec kv k); [congruence|exact E3].
    + destruct f as [f|]; [|exact HI]. destruct KI as (kf & q & t' & E1 & E2 & E3 & E4 & E5). exists kf, q, t'. split; [exact E1|]. rewrite lookup_set. destruct (Nat.eqb_spec kf k); [congruence|].
      split; [exact E3|]. split; [|exact E5]. cbn. destruct (Nat.eqb_spec f i) as [->|]; [now destruct (A1 i eq_refl)|exact E4].
  - destruct HO as (C & G). rewrite G. constructor; try assumption. cbn. now rewrite C.
Qed.
Lemma holds_err o v f d rest c l w t : holds o v f d rest c l w -> holds o v f d rest c l (fprintf (g_err w) t w).
Proof.
  intros [HO HL HI HE HD]. unfold Shell_Model.fprintf. rewrite HE. constructor; assumption.
Qed.
Lemma holds_verbose o v f d rest c l w t : apart o f -> apart v f -> apart o v -> holds o v f d rest c l w -> holds o v f d rest c (l ++ t) (fprintf (g_verbose w) t w).
Proof.
  intros A1 A2 A3 [HO HL HI HE HD]. unfold Shell_Model.fprintf. rewrite enough. cbn [handles with_writes files].
  destruct v as [v|]; [|rewrite HL; constructor; assumption]. destruct HL as (FL & kv & E1 & E2). rewrite E1, E2.
  assert (KO : match o with
    | Some i => i <> v /\ console w = [] /\ files w i = Some c /\ exists k h, k <> kv /\ g_out w = SFile k /\ lookup k (handles w) = Some h /\ (h = HAppend i \/ h = HWrite i (length c))
    | None => console w = c /\ g_out w = SStd 1 end).
  { destruct o as [i|]; [|exact HO]. destruct HO as (C & F & k & h & G & L & D). split; [intros ->; now apply (A3 v eq_refl)|]. split; [exact C|]. split; [exact F|]. exists k, h. split; [|auto].
    intros ->. apply (A3 i eq_refl). destruct D as [->| ->]; congruence. }
  assert (KI : match f with Some f => f <> v /\ exists kf q t', g_in w = SFile kf /\ kf <> kv /\ lookup kf (handles w) = Some (HRead f q) /\ files w f = Some t' /\ skipn q t' = rest | None => g_in w = SStd 0 /\ keyboard w = rest end).
  { destruct f as [f|]; [|exact HI]. split; [intros ->; now apply (A2 v eq_refl)|]. destruct HI as (kf & q' & t' & F1 & F2 & F3 & F4). exists kf, q', t'. split; [exact F1|]. split; [|auto]. intros ->. congruence. }
  constructor; try assumption.
  - destruct o as [i|]; [|exact HO]. destruct KO as (N & C & F & k & h & Nk & G & L & D). split; [exact C|]. split.
    + cbn. destruct (Nat.eqb_spec i v); [congruence|exact F].
    + exists k, h. split; [exact G|]. split; [|exact D]. rewrite lookup_set. destruct (Nat.eqb_spec k kv); [congruence|exact L].
  - split; [cbn; now rewrite Nat.eqb_refl, FL, overwrite_end|]. exists kv. split; [exact E1|]. rewrite lookup_set, Nat.eqb_refl, app_length. reflexivity.
  - destruct f as [f|]; [|exact HI]. destruct KI as (N & kf & q' & t' & F1 & Nk & F2 & F3 & F4). exists kf, q', t'. split; [exact F1|]. split.
    + rewrite lookup_set. destruct (Nat.eqb_spec kf kv); [congruence|exact F2].
    + split; [|exact F4]. cbn. destruct (Nat.eqb_spec f v); [congruence|exact F3].
Qed.
Lemma holds_read o v f d rest c l w : holds o v f d rest c l w ->
  fst (getdelim (g_in w) (g_delim w) w) = fst (field d rest) /\ holds o v f d (snd (field d rest)) c l (snd (getdelim (g_in w) (g_delim w) w)).
Proof.
  intros [HO HL HI HE HD]. rewrite HD. unfold getdelim. destruct f as [f|].
  - destruct HI as (kf & q & t & F1 & F2 & F3 & F4). rewrite F1, F2, F3, F4. split; [reflexivity|]. cbn [snd].
    assert (KO : match o with
      | Some i => console w = [] /\ files w i = Some c /\ exists k h, k <> kf /\ g_out w = SFile k /\ lookup k (handles w) = Some h /\ (h = HAppend i \/ h = HWrite i (length c))
      | None => console w = c /\ g_out w = SStd 1 end).
    { destruct o as [i|]; [|exact HO]. destruct HO as (C & F & k & h & G & L & D). split; [exact C|]. split; [exact F|]. exists k, h. split; [|auto]. intros ->. destruct D as [->| ->]; congruence. }
    constructor; try assumption.
    + destruct o as [i|]; [|exact HO]. destruct KO as (C & F & k & h & Nk & G & L & D). split; [exact C|]. split; [exact F|]. exists k, h. split; [exact G|]. split; [|exact D].
      rewrite lookup_set. destruct (Nat.eqb_spec k kf); [congruence|exact L].
    + destruct v as [v|]; [|exact HL]. destruct HL as (FL & kv & E1 & E2). split; [exact FL|]. exists kv. split; [exact E1|]. rewrite lookup_set. destruct (Nat.eqb_spec kv kf); [congruence|exact E2].
    + exists kf, (q + length (fst (field d rest))), t. split; [exact F1|]. split; [rewrite lookup_set, Nat.eqb_refl; reflexivity|]. split; [exact F3|].
      destruct (field d rest) as (a, b) eqn:E. cbn [fst snd]. apply field_split in E. rewrite skipn_more, F4, E.
      rewrite skipn_app, skipn_all, Nat.sub_diag. reflexivity.
  - destruct HI as (G & K). rewrite G, K. destruct (field d rest) as (a, b). cbn [fst snd]. split; [reflexivity|]. constructor; try assumption. split; [exact G|reflexivity].
Qed.
(** what the world shows of [c] and [l] *)
Definition shows (o v : option nat) (c l : text) (w : world) : Prop :=
  match o with Some i => console w = [] /\ files w i = Some c | None => console w = c end /\
  match v with Some i => files w i = Some l | None => True end.
Lemma holds_shows o v f d rest c l w : holds o v f d rest c l w -> shows o v c l w.
Proof. intros [HO HL _ _ _]. split; [destruct o; [split|]; apply HO|destruct v; [apply HL|exact Logic.I]]. Qed.
Lemma run_holds {A} o v f d (p : prog A) : apart o f -> apart v f -> apart o v -> forall rest c l w, holds o v f d rest c l w ->
  snd (run p w) = ends p d rest /\ shows o v (c ++ says Out p d rest) (l ++ says Verbose p d rest) (fst (run p w)).
Proof.
  intros A1 A2 A3. induction p as [a|s|ch t k IH|k IH]; intros rest c l w H; cbn [Shell_Model.run says ends fst snd].
  - split; [reflexivity|]. rewrite !app_nil_r. exact (holds_shows _ _ _ _ _ _ _ _ H).
  - split; [reflexivity|]. rewrite !app_nil_r. exact (holds_shows _ _ _ _ _ _ _ _ H).
  - rewrite !app_assoc. destruct ch; cbn [same_channel channel_stream]; rewrite ?app_nil_r; apply IH.
    + now apply holds_out.
    + now apply holds_err.
    + now apply holds_verbose.
  - destruct (holds_read o v f d rest c l w H) as (E & H'). destruct (getdelim (g_in w) (g_delim w) w) as (t, w'). cbn [fst snd] in *. subst t.
    destruct (field d rest) as (a, b). cbn [fst snd] in *. now apply IH.
Qed.
Lemma start_holds cfg seadata fs kbd d input : input_is ino readable cfg fs kbd d input ->
  let o := opens (i_output cfg) in let v := opens (i_log cfg) in let f := option_map ino (i_input cfg) in
  apart o f -> apart v f -> apart o v ->
  fst (start cfg seadata fs kbd) = true /\
  holds o v f d input (match o with Some i => kept cfg (fs i) | None => [] end) [] (snd (start cfg seadata fs kbd)).
Proof.
  intros HI o v f A1 A2 A3. pose proof (start_eq cfg seadata fs kbd) as H. destruct (start cfg seadata fs kbd) as (ok, w). cbn [fst snd].
  destruct H as (_ & K & C & E & O & V & F & A5).
  assert (FI : forall i, f = Some i -> files_log cfg (files_out cfg fs) i = fs i).
  { intros i Ei. unfold files_log, files_out, add. fold o v. specialize (A1 i). specialize (A2 i).
    destruct v as [v'|]; [destruct (Nat.eqb_spec i v') as [->|]; [exfalso; now apply (A2 eq_refl)|]|];
      (destruct o as [o'|]; [destruct (Nat.eqb_spec i o') as [->|]; [exfalso; now apply (A1 eq_refl)|]|]; reflexivity). }
  assert (FO : match o with Some i => files w i = Some (kept cfg (fs i)) | None => True end).
  { destruct o as [i|] eqn:Eo; [|exact Logic.I]. rewrite F. unfold files_log, files_out, add. fold o v. rewrite Eo. specialize (A3 i).
    destruct v as [v'|]; [destruct (Nat.eqb_spec i v') as [->|]; [exfalso; now apply (A3 eq_refl)|]|]; now rewrite Nat.eqb_refl. }
  assert (FL : match v with Some i => files w i = Some [] | None => True end).
  { destruct v as [i|] eqn:Ev; [|exact Logic.I]. rewrite F. unfold files_log, add. fold v. now rewrite Ev, Nat.eqb_refl. }
  assert (LO : match o with Some i => lookup 0 (opened_log cfg ++ opened_out cfg) = Some (first_handle cfg i) | None => True end).
  { unfold opened_log, opened_out. fold o v. destruct o as [i|]; [|exact Logic.I]. destruct v; reflexivity. }
  assert (LV : match v with Some i => lookup (length (opened_out cfg)) (opened_log cfg ++ opened_out cfg) = Some (HWrite i 0) | None => True end).
  { unfold opened_log. fold v. destruct v as [i|]; [|exact Logic.I]. cbn [app lookup]. now rewrite Nat.eqb_refl. }
  fold o in O. fold v in V. unfold input_is in HI.
  assert (BIG : length (opened_log cfg ++ opened_out cfg) = length (opened_log cfg) + length (opened_out cfg)) by apply app_length.
  assert (Nv : match v with Some _ => length (opened_log cfg) = 1 | None => True end) by (unfold opened_log; fold v; destruct v; [reflexivity|exact Logic.I]).
  assert (No : match o with Some _ => length (opened_out cfg) = 1 | None => True end) by (unfold opened_out; fold o; destruct o; [reflexivity|exact Logic.I]).
  destruct (i_input cfg) as [p|] eqn:EI; cbn [option_map] in f; subst f.
  - destruct HI as (-> & HF & HR). specialize (FI (ino p) eq_refl). destruct A5 as [(-> & _ & _ & G & D & HH)|(_ & [X|X] & _)]; [|congruence|congruence].
    split; [reflexivity|]. constructor; try assumption.
    + destruct o as [i|]; [|auto]. split; [exact C|]. split; [exact FO|]. exists 0, (first_handle cfg i). split; [exact O|]. rewrite HH. cbn [lookup]. split.
      * destruct (Nat.eqb_spec (length (opened_log cfg ++ opened_out cfg)) 0); [lia|exact LO].
      * unfold first_handle, kept. destruct (i_append cfg); auto.
    + destruct v as [i|]; [|auto]. split; [exact FL|]. exists (length (opened_out cfg)). split; [exact V|]. rewrite HH. cbn [lookup].
      destruct (Nat.eqb_spec (length (opened_log cfg ++ opened_out cfg)) (length (opened_out cfg))); [lia|exact LV].
    + exists (length (opened_log cfg ++ opened_out cfg)), 0, input. split; [exact G|]. rewrite HH. cbn [lookup]. rewrite Nat.eqb_refl. split; [reflexivity|]. rewrite F, FI. auto.
  - destruct HI as (-> & ->). destruct A5 as (-> & G & D & HH). split; [reflexivity|]. constructor; try assumption.
    + destruct o as [i|]; [|auto]. split; [exact C|]. split; [exact FO|]. exists 0, (first_handle cfg i). split; [exact O|]. rewrite HH. split; [exact LO|].
      unfold first_handle, kept. destruct (i_append cfg); auto.
    + destruct v as [i|]; [|auto]. split; [exact FL|]. exists (length (opened_out cfg)). split; [exact V|]. rewrite HH. exact LV.
    + auto.
Qed.
Lemma main_shows cfg seadata method fs kbd d input : input_is ino readable cfg fs kbd d input ->
  let o := opens (i_output cfg) in let v := opens (i_log cfg) in let f := option_map ino (i_input cfg) in
  apart o f -> apart v f -> apart o v ->
  snd (main true cfg seadata method (fresh fs kbd)) = status_of (ends method d input) /\
  shows o v ((match o with Some i => kept cfg (fs i) | None => [] end) ++ says Out method d input) (says Verbose method d input)
    (fst (main true cfg seadata method (fresh fs kbd))).
Proof.
  intros HI o v f A1 A2 A3. pose proof (start_holds cfg seadata fs kbd d input HI) as H. cbn zeta in H. specialize (H A1 A2 A3).
  pose proof (start_sound cfg seadata fs kbd) as SS. unfold start in *. unfold Shell_Model.main. cbn [negb].
  destruct (init cfg seadata (fresh fs kbd)) as (ok, w). cbn [fst snd] in *. destruct H as (-> & H), SS as (SS & N). cbn [negb].
  pose proof (run_sound method w SS (N eq_refl)) as R.
  destruct (run_holds _ _ _ d method A1 A2 A3 _ _ _ _ H) as (E & SH). cbn [app] in SH.
  destruct (run method w) as (w', e). cbn [fst snd] in *. subst e. destruct (ends method d input) as [s|s]; cbn [fst snd status_of]; split; try reflexivity; try exact SH.
  destruct (quit_sound w' (proj1 R)) as (_ & _ & FF & CC). unfold shows in *. fold o v. rewrite FF, CC. exact SH.
Qed.
End Shell.

(** ** The exhaustive method *)
Lemma then_says {A B} (p : prog A) (f : A -> prog B) c d : forall input,
  exists rest, says c (then_ p f) d input = says c p d input ++ (match ends p d input with Returned a => says c (f a) d rest | Exited _ => [] end) /\
    ends (then_ p f) d input = (match ends p d input with Returned a => ends (f a) d rest | Exited s => Exited s end).
Proof.
  induction p as [a|s|c' t k IH|k IH]; intros input; cbn.
  - exists input. auto.
  - exists input. auto.
  - destruct (IH input) as (rest & E1 & E2). exists rest. rewrite E1, app_assoc. auto.
  - destruct (field d input) as (a, b). destruct (IH a b) as (rest & E1 & E2). exists rest. auto.
Qed.
