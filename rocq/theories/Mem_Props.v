(** C89: the memory functions. *)
From Coq Require Import String Znumtheory.
From Verif Require Import Base Mem_Model Poly_Model Points_Model.
From Verif Require Ec Primes Whole_Spec Whole_Group Whole_Example.
Local Open Scope Z_scope.
Local Open Scope list_scope.

(** ** What the functions in use are assumed to do *)
(** a new block and nothing else *)
Definition new_block (h h' : heap) (p : nat) (b : list N) : Prop := h p = None /\ h' p = Some b /\ forall q, q <> p -> h' q = h q.
Definition malloc_ok (fn : Z -> heap -> got) : Prop := forall n h, 0 <= n -> match fn n h with
  | Got p h' => exists b, new_block h h' p b /\ Z.of_nat (length b) = n
  | Null h' => h' = h
  | Raised => True
  end.
Definition calloc_ok (fn : Z -> heap -> got) : Prop := forall n h, 0 <= n -> match fn n h with
  | Got p h' => new_block h h' p (repeat 0%N (Z.to_nat n))
  | Null h' => h' = h
  | Raised => True
  end.
(** a block with the old contents as far as there is room, here or elsewhere *)
Definition moved (h h' : heap) (p p' : nat) (b : list N) (n : Z) : Prop := exists b',
  h' p' = Some b' /\ Z.of_nat (length b') = n /\ (forall i, (i < length b)%nat -> Z.of_nat i < n -> nth i b' 0%N = nth i b 0%N) /\
  (p' = p \/ (h p' = None /\ h' p = None)) /\ forall q, q <> p -> q <> p' -> h' q = h q.
Definition realloc_ok (fn : nat -> Z -> heap -> got) : Prop := forall p n h b, h p = Some b -> 0 < n -> match fn p n h with
  | Got p' h' => moved h h' p p' b n
  | _ => True
  end.
(** pari_malloc and pari_calloc return NULL when nothing is asked for *)
Definition nothing_is_null (g : funcs) : Prop := forall h, malloc_func g 0 h = Null h /\ calloc_func g 0 h = Null h.

(** ** The copies *)
(** The program ends in the way that is announced. *)
Definition ends {A} (what : string) (o : out A) : Prop := o = Exits 1 what.
(** C89: try_memdup makes a new block with the bytes asked for and changes no other; it does so unless malloc fails. *)
Theorem C89_memdup : forall g src n h b, malloc_ok (malloc_func g) -> h src = Some b -> 0 <= n <= Z.of_nat (length b) ->
  (exists p h', try_memdup g src n h = Done p h' /\ new_block h h' p (firstn (Z.to_nat n) b)) \/
  (ends "Couldn't alloc." (try_memdup g src n h) /\ exists h', malloc_func g n h = Null h') \/
  (try_memdup g src n h = Error /\ malloc_func g n h = Raised).
Proof.
  intros g src n h b M S N. specialize (M n h ltac:(lia)). unfold ends, try_memdup, try_malloc, alloc. destruct (malloc_func g n h) as [p h'|h'|].
  - left. destruct M as (d & (F & B & O) & L). assert (NE : src <> p) by congruence. unfold memcpy. rewrite B, (O src NE), S.
    replace (n <=? Z.of_nat (length d)) with true by (symmetry; apply Z.leb_le; lia). replace (n <=? Z.of_nat (length b)) with true by (symmetry; apply Z.leb_le; lia).
    replace (p =? src)%nat with false by (symmetry; apply Nat.eqb_neq; congruence). cbn [andb negb]. eexists _, _. split; [reflexivity|].
    split; [exact F|]. unfold upd. split.
    + rewrite Nat.eqb_refl. f_equal. rewrite skipn_all2 by lia. apply app_nil_r.
    + intros q Q. destruct (Nat.eqb_spec q p) as [->|_]; [contradiction|]. now apply O.
  - right. left. eauto.
  - right. right. auto.
Qed.
Lemma strlen_ok s t : ~ In 0%N s -> strlen (s ++ 0%N :: t) = Some (length s).
Proof.
  induction s as [|c s IH]; intros N; [reflexivity|]. cbn [app strlen length]. destruct (N.eqb_spec c 0) as [->|_]; [destruct N; now left|].
  rewrite IH; [reflexivity|]. intros I. apply N. now right.
Qed.
(** A text is copied with its end and nothing behind it. *)
Theorem C89_strdup : forall g src h s t, malloc_ok (malloc_func g) -> h src = Some (s ++ 0%N :: t) -> ~ In 0%N s -> Z.of_nat (length s) < 2 ^ 64 - 1 ->
  (exists p h', try_strdup g src h = Done p h' /\ new_block h h' p (s ++ [0%N])) \/
  ends "Couldn't alloc." (try_strdup g src h) \/ try_strdup g src h = Error.
Proof.
  intros g src h s t M S N L. unfold try_strdup. rewrite S, (strlen_ok s t N). replace (u64 (Z.of_nat (length s) + 1)) with (Z.of_nat (length s + 1)) by (unfold u64; rewrite Z.mod_small by lia; lia).
  destruct (C89_memdup g src (Z.of_nat (length s + 1)) h _ M S ltac:(rewrite app_length; cbn [length]; lia)) as [(p & h' & E & B)|[(E & _)|(E & _)]]; auto.
  left. exists p, h'. split; [exact E|]. rewrite Nat2Z.id, firstn_app in B. replace (length s + 1 - length s)%nat with 1%nat in B by lia.
  rewrite firstn_all2 in B by lia. exact B.
Qed.
(** ** Growing *)
Theorem C89_realloc : forall g p n h b, realloc_ok (realloc_func g) -> h p = Some b -> 0 < n ->
  (exists p' h', try_realloc g p n h = Done p' h' /\ moved h h' p p' b n) \/
  ends "Couldn't realloc." (try_realloc g p n h) \/ try_realloc g p n h = Error.
Proof.
  intros g p n h b R S N. specialize (R p n h b S N). unfold ends, try_realloc. destruct (realloc_func g p n h) as [p' h'|h'|]; [|right; now left|right; now right].
  left. eauto.
Qed.
(** ** Arrays *)
(** An array of [num] objects is new, all zero (every entry NULL) and as long as the product says, if the product fits. *)
Theorem C89_array : forall g size num h, calloc_ok (calloc_func g) -> 0 < size -> 0 <= num -> num * size < 2 ^ 64 ->
  (exists p h', objs_new g size num h = Done p h' /\ new_block h h' p (repeat 0%N (Z.to_nat (num * size)))) \/
  ends "Couldn't alloc." (objs_new g size num h) \/ objs_new g size num h = Error.
Proof.
  intros g size num h C S N L. unfold ends, objs_new, try_calloc, alloc. replace (u64 (num * size)) with (num * size) by (unfold u64; rewrite Z.mod_small by nia; reflexivity).
  specialize (C (num * size) h ltac:(nia)). destruct (calloc_func g (num * size) h) as [p h'|h'|]; [left; eauto|right; now left|right; now right].
Qed.
(** ** Nothing asked for *)
(** Whatever is asked for nothing ends the program, as if there were no memory. *)
Theorem C89_nothing : forall g, nothing_is_null g -> forall h, ends "Couldn't alloc." (try_malloc g 0 h) /\ ends "Couldn't alloc." (try_calloc g 0 h) /\
  (forall src, ends "Couldn't alloc." (try_memdup g src 0 h)) /\ forall size, ends "Couldn't alloc." (objs_new g size 0 h).
Proof.
  intros g Z h. destruct (Z h) as (M & C). unfold ends, objs_new, try_memdup, try_malloc, try_calloc, alloc. rewrite M. cbn [Z.mul]. change (u64 0) with 0. rewrite C. auto.
Qed.
(** So a curve with a single point ends the program: it has no generators. There is one over 3 elements. *)
Theorem C89_generators_refuted : exists p a b, prime p /\ Ec.curve_ok (Prime p) a b /\ Ec.points (Prime p) a b = 1 /\
  forall gs, Whole_Spec.pari_gens (Prime p) a b gs -> forall g h, nothing_is_null g -> ends "Couldn't alloc." (gens_array g gs h).
Proof.
  exists 3, 2, 2. assert (PP : prime 3) by (apply Primes.isprime_b_ok; vm_compute; reflexivity).
  assert (OK : Ec.curve_ok (Prime 3) 2 2) by (constructor; [split; [exact PP|lia]|exact I|exact I|vm_compute; discriminate]).
  split; [exact PP|]. split; [exact OK|]. split; [vm_compute; reflexivity|]. intros gs (F & _ & _) g h Z.
  assert (E : gs = []).
  { destruct gs as [|q gs]; [reflexivity|]. exfalso. apply Forall_inv in F. destruct F as (On & NE). apply (Ec.coords_on (Prime 3) 2 2 OK) in On.
    vm_compute in On. destruct On as [<-|[]]. now apply NE. }
  subst gs. exact (proj2 (proj2 (proj2 (C89_nothing g Z h))) sizeof_subgroup).
Qed.
(** Over binary fields and for more than 3 elements that does not happen: there are generators, and room for them is
    asked for. Full statement: for all curves. Missing: 3 elements, where it is false, see above; C89_generators says for which curves. *)
Theorem C89_generators_partial : forall f a b gs g h, Ec.curve_ok f a b -> (match f with Prime p => 3 < p | Binary _ => True end) ->
  Whole_Spec.pari_gens f a b gs -> calloc_ok (calloc_func g) ->
  (1 <= length gs <= 2)%nat /\
  ((exists p h', gens_array g gs h = Done p h' /\ new_block h h' p (repeat 0%N (24 * length gs))) \/
   ends "Couldn't alloc." (gens_array g gs h) \/ gens_array g gs h = Error).
Proof.
  intros f a b gs g h OK L (_ & _ & G) C. pose proof (Ec.many_points f a b OK L) as M.
  assert (N : (1 <= length gs <= 2)%nat) by (destruct gs as [|x [|y [|z gs]]]; cbn [length]; [lia|lia|lia|destruct G]).
  split; [exact N|]. unfold gens_array, sizeof_subgroup.
  destruct (C89_array g 24 (Z.of_nat (length gs)) h C ltac:(lia) ltac:(lia) ltac:(lia)) as [(p & h' & E & B)|D]; [|right; exact D].
  left. exists p, h'. split; [exact E|]. replace (Z.to_nat (Z.of_nat (length gs) * 24)) with (24 * length gs)%nat in B by lia. exact B.
Qed.
(** For every curve: the program ends there if it has a single point, and otherwise room for its generators is asked for. *)
Theorem C89_generators : forall f a b gs g h, Ec.curve_ok f a b -> Whole_Spec.pari_gens f a b gs -> calloc_ok (calloc_func g) -> nothing_is_null g ->
  (Ec.points f a b = 1 -> gs = [] /\ ends "Couldn't alloc." (gens_array g gs h)) /\
  (Ec.points f a b <> 1 -> (1 <= length gs <= 2)%nat /\
   ((exists p h', gens_array g gs h = Done p h' /\ new_block h h' p (repeat 0%N (24 * length gs))) \/
    ends "Couldn't alloc." (gens_array g gs h) \/ gens_array g gs h = Error)).
Proof.
  intros f a b gs g h OK (F & _ & G) C Z. split; intros P.
  - assert (E : gs = []).
    { destruct gs as [|q gs]; [reflexivity|]. exfalso. apply Forall_inv in F. destruct F as (On & NE). destruct q as [(x, y)|]; [|now apply NE].
      apply (Ec.coords_on f a b OK) in On. destruct On as [On|On]; [discriminate On|]. unfold Ec.points in P.
      destruct f as [q|c]; [unfold Fp.points in P|unfold Ec_F2m.points2 in P]; unfold Ec.affine_on, Ec.field_size in On.
      all: match type of P with context [filter ?u ?v] => change (In (Some (x, y)) (map Some (filter u v))) in On; destruct (filter u v); [destruct On|cbn [length] in P; lia] end. }
    split; [exact E|]. rewrite E. exact (proj2 (proj2 (proj2 (C89_nothing g Z h))) sizeof_subgroup).
  - assert (N : (1 <= length gs <= 2)%nat) by (destruct gs as [|x [|y [|z gs]]]; cbn [length]; [lia|lia|lia|destruct G]).
    split; [exact N|]. unfold gens_array, sizeof_subgroup.
    destruct (C89_array g 24 (Z.of_nat (length gs)) h C ltac:(lia) ltac:(lia) ltac:(lia)) as [(p & h' & E & B)|D]; [|right; exact D].
    left. exists p, h'. split; [exact E|]. replace (Z.to_nat (Z.of_nat (length gs) * 24)) with (24 * length gs)%nat in B by lia. exact B.
Qed.
Print Assumptions C89_generators.
(** Functions that are set are the ones in use. *)
Theorem C89_set : forall g old size h, let new := set_mem_funcs (malloc_func g) (calloc_func g) (realloc_func g) (free_func g) old in
  try_malloc new size h = try_malloc g size h /\ try_calloc new size h = try_calloc g size h /\
  (forall p, try_realloc new p size h = try_realloc g p size h) /\ (forall p, try_free new p h = try_free g p h) /\
  forall p, try_strdup new p h = try_strdup g p h.
Proof. intros g old size h new. repeat split. Qed.
Print Assumptions C89_memdup.
Print Assumptions C89_strdup.
Print Assumptions C89_realloc.
Print Assumptions C89_array.
Print Assumptions C89_nothing.
Print Assumptions C89_generators_refuted.
Print Assumptions C89_generators_partial.
Print Assumptions C89_set.

(** ** Functions as assumed *)
(** blocks from the first free number below 100 on; nothing for no bytes *)
Definition free_at (h : heap) : option nat := find (fun p => match h p with None => true | Some _ => false end) (seq 0 100).
Definition take (fill : N) (n : Z) (h : heap) : got :=
  if n =? 0 then Null h else match free_at h with Some p => Got p (upd h p (repeat fill (Z.to_nat n))) | None => Null h end.
Definition grow (p : nat) (n : Z) (h : heap) : got :=
  match h p with Some b => Got p (upd h p (firstn (Z.to_nat n) (b ++ repeat 7%N (Z.to_nat n)))) | None => Raised end.
Definition ex_funcs : funcs := mkFuncs (take 7) (take 0) grow (fun _ h => Some h).
Lemma take_ok fill n h : 0 <= n -> match take fill n h with Got p h' => new_block h h' p (repeat fill (Z.to_nat n)) | Null h' => h' = h | Raised => True end.
Proof.
  intros N. unfold take. destruct (n =? 0); [reflexivity|]. destruct (free_at h) as [p|] eqn:F; [|reflexivity].
  apply find_some in F. destruct F as (_ & F). split; [destruct (h p); [discriminate|reflexivity]|]. unfold upd. split; [now rewrite Nat.eqb_refl|].
  intros q Q. now apply Nat.eqb_neq in Q as ->.
Qed.
Lemma ex_malloc : malloc_ok (malloc_func ex_funcs).
Proof.
  intros n h N. pose proof (take_ok 7 n h N) as T. cbn [malloc_func ex_funcs]. destruct (take 7 n h); auto. eexists. split; [exact T|]. rewrite repeat_length. lia.
Qed.
Lemma ex_calloc : calloc_ok (calloc_func ex_funcs). Proof. intros n h N. exact (take_ok 0 n h N). Qed.
Lemma ex_realloc : realloc_ok (realloc_func ex_funcs).
Proof.
  intros p n h b B N. cbn [realloc_func ex_funcs]. unfold grow. rewrite B. unfold upd. eexists. split; [now rewrite Nat.eqb_refl|].
  split; [rewrite firstn_length, app_length, repeat_length; lia|]. split; [|split; [now left|]].
  - intros i I L.
    rewrite <- (app_nth1 b (repeat 7%N (Z.to_nat n)) 0%N I). transitivity (nth i (firstn (Z.to_nat n) (b ++ repeat 7%N (Z.to_nat n)) ++ skipn (Z.to_nat n) (b ++ repeat 7%N (Z.to_nat n))) 0%N); [|now rewrite firstn_skipn].
    symmetry. apply app_nth1. rewrite firstn_length, app_length, repeat_length. lia.
  - intros q Q _. now apply Nat.eqb_neq in Q as ->.
Qed.
Lemma ex_nothing : nothing_is_null ex_funcs. Proof. intros h. split; reflexivity. Qed.
Definition ex_heap : heap := fun p => if (p =? 1)%nat then Some [52; 51; 0; 9; 9]%N else None.
Example C89_copies_example : malloc_ok (malloc_func ex_funcs) /\ (exists h', try_strdup ex_funcs 1 ex_heap = Done 0%nat h' /\ h' 0%nat = Some [52; 51; 0]%N /\ h' 1%nat = Some [52; 51; 0; 9; 9]%N) /\
  exists h', try_memdup ex_funcs 1 4 ex_heap = Done 0%nat h' /\ h' 0%nat = Some [52; 51; 0; 9]%N.
Proof. split; [exact ex_malloc|]. split; eexists; repeat split. Qed.
Example C89_realloc_example : realloc_ok (realloc_func ex_funcs) /\ exists h', try_realloc ex_funcs 1 6 ex_heap = Done 1%nat h' /\ h' 1%nat = Some [52; 51; 0; 9; 9; 7]%N.
Proof. split; [exact ex_realloc|]. eexists. split; reflexivity. Qed.
Example C89_array_example : calloc_ok (calloc_func ex_funcs) /\ exists h', gens_array ex_funcs [1; 2] ex_heap = Done 0%nat h' /\ h' 0%nat = Some (repeat 0%N 48).
Proof. split; [exact ex_calloc|]. eexists. split; reflexivity. Qed.
(** Without the bound on the product an array may be shorter than its entries need: 2^61 + 1 objects get 24 bytes. *)
Theorem C89_wrap_refuted : exists g size num h p h' b, calloc_ok (calloc_func g) /\ 0 < size /\ 0 <= num < 2 ^ 64 /\
  objs_new g size num h = Done p h' /\ h' p = Some b /\ Z.of_nat (length b) < num * size.
Proof.
  exists ex_funcs, 24, (2 ^ 61 + 1), ex_heap. eexists _, _, _. split; [exact ex_calloc|]. split; [lia|]. split; [lia|].
  split; [vm_compute; reflexivity|]. split; [reflexivity|]. vm_compute. reflexivity.
Qed.
Print Assumptions C89_wrap_refuted.
Example C89_nothing_example : nothing_is_null ex_funcs /\ ends "Couldn't alloc." (gens_array (A := Z) ex_funcs [] ex_heap).
Proof. split; [exact ex_nothing|reflexivity]. Qed.
(** y^2 = x^3 + 2x + 2 over 3 elements: one point *)
Example C89_lone_example : Ec.curve_ok (Prime 3) 2 2 /\ Whole_Spec.pari_gens (Prime 3) 2 2 (Whole_Example.x_gens (Prime 3) 2 2) /\ Ec.points (Prime 3) 2 2 = 1 /\
  calloc_ok (calloc_func ex_funcs) /\ nothing_is_null ex_funcs.
Proof.
  assert (OK : Ec.curve_ok (Prime 3) 2 2) by (constructor; [split; [apply Primes.isprime_b_ok; vm_compute; reflexivity|lia]|exact I|exact I|vm_compute; discriminate]).
  split; [exact OK|]. split; [apply Whole_Example.x_gens_ok; [exact OK|]; vm_compute; exact I|]. split; [vm_compute; reflexivity|]. split; [exact ex_calloc|exact ex_nothing].
Qed.
(** y^2 = x^3 + x + 1 over 5 elements: 9 points *)
Example C89_generators_example : Ec.curve_ok (Prime 5) 1 1 /\ Whole_Spec.pari_gens (Prime 5) 1 1 (Whole_Example.x_gens (Prime 5) 1 1) /\ length (Whole_Example.x_gens (Prime 5) 1 1) = 1%nat.
Proof.
  assert (OK : Ec.curve_ok (Prime 5) 1 1) by (constructor; [split; [apply Primes.isprime_b_ok; vm_compute; reflexivity|lia]|exact I|exact I|vm_compute; discriminate]).
  split; [exact OK|]. split; [|vm_compute; reflexivity]. apply Whole_Example.x_gens_ok; [exact OK|]. vm_compute. exact I.
Qed.
