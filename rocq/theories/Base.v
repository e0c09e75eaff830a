(** Shared vocabulary of the model: outcomes of C code, checked memory access,
    bounded loops, fixed-width integers. Nothing here models a particular
    function of /repo. *)
From Coq Require Export List Arith ZArith NArith Bool Lia.
From Coq Require Export ZifyBool ZifyNat ZifyN.
Export ListNotations.

(** Outcome of running a piece of C code:
    [Ok a]  : returned normally with [a];
    [UB]    : undefined behaviour (out-of-bounds access, NULL dereference, ...);
    [Fuel]  : the modelled (unbounded) loop used up its fuel;
    [Abort] : the program printed an error and called exit(). *)
Inductive res (A : Type) : Type :=
| Ok (a : A)
| UB
| Fuel
| Abort.
Arguments Ok {A} a.
Arguments UB {A}.
Arguments Fuel {A}.
Arguments Abort {A}.

Definition bind {A B} (m : res A) (k : A -> res B) : res B :=
  match m with
  | Ok a => k a
  | UB => UB
  | Fuel => Fuel
  | Abort => Abort
  end.

Declare Scope res_scope.
Delimit Scope res_scope with res.
Notation "'do' x <- m ; k" := (bind m (fun x => k))
  (at level 200, x pattern, m at level 100, k at level 200, right associativity) : res_scope.
Open Scope res_scope.

Definition isOk {A} (m : res A) : Prop := exists a, m = Ok a.

Lemma bind_ok {A B} (m : res A) (k : A -> res B) b :
  bind m k = Ok b -> exists a, m = Ok a /\ k a = Ok b.
Proof. destruct m; simpl; try discriminate. intros H. exists a. auto. Qed.

(** [for (i = from; i < from + n; ++i) s = f(i, s)] *)
Fixpoint for_from {S} (n i : nat) (f : nat -> S -> res S) (s : S) : res S :=
  match n with
  | O => Ok s
  | Datatypes.S n' => do s' <- f i s; for_from n' (Datatypes.S i) f s'
  end.

(** [for (i = 0; i < n; ++i) s = f(i, s)] *)
Definition for_to {S} (n : nat) (f : nat -> S -> res S) (s : S) : res S := for_from n 0 f s.

(** Invariant rule for the loop. *)
Lemma for_from_inv {S} (P : nat -> S -> Prop) (f : nat -> S -> res S) :
  forall n i s,
    P i s ->
    (forall j t, i <= j < i + n -> P j t -> exists t', f j t = Ok t' /\ P (Datatypes.S j) t') ->
    exists t, for_from n i f s = Ok t /\ P (i + n) t.
Proof.
  induction n as [|n IH]; intros i s H Hstep; simpl.
  - exists s. rewrite Nat.add_0_r. auto.
  - destruct (Hstep i s) as (t & Ht & HP); [lia|assumption|].
    rewrite Ht; simpl.
    destruct (IH (Datatypes.S i) t HP) as (t' & Ht' & HP').
    + intros j u Hj Hu. apply Hstep; [lia|assumption].
    + exists t'. replace (i + Datatypes.S n) with (Datatypes.S i + n) by lia. auto.
Qed.

Lemma for_to_inv {S} (P : nat -> S -> Prop) (f : nat -> S -> res S) n s :
  P 0 s ->
  (forall j t, j < n -> P j t -> exists t', f j t = Ok t' /\ P (Datatypes.S j) t') ->
  exists t, for_to n f s = Ok t /\ P n t.
Proof.
  intros H Hs. destruct (for_from_inv P f n 0 s H) as (t & Ht & HP).
  - intros; apply Hs; [lia|assumption].
  - exists t. auto.
Qed.

(** Checked array access. *)
Definition rd {A} (l : list A) (i : nat) : res A :=
  match nth_error l i with Some a => Ok a | None => UB end.

Fixpoint upd {A} (l : list A) (i : nat) (a : A) : list A :=
  match l, i with
  | [], _ => []
  | _ :: t, O => a :: t
  | h :: t, Datatypes.S j => h :: upd t j a
  end.

Definition wr {A} (l : list A) (i : nat) (a : A) : res (list A) :=
  if i <? length l then Ok (upd l i a) else UB.

Lemma upd_length {A} (l : list A) i a : length (upd l i a) = length l.
Proof. revert i; induction l; destruct i; simpl; auto. Qed.

Lemma upd_nth {A} (d : A) l i a j :
  i < length l -> nth j (upd l i a) d = if j =? i then a else nth j l d.
Proof.
  revert i j; induction l as [|h t IH]; intros i j H; simpl in H; [lia|].
  destruct i, j; simpl; auto. rewrite IH by lia. reflexivity.
Qed.

Lemma rd_nth {A} (d : A) l i : i < length l -> rd l i = Ok (nth i l d).
Proof. intros H. unfold rd. rewrite (nth_error_nth' l d H). reflexivity. Qed.

Lemma rd_oob {A} (l : list A) i : length l <= i -> rd l i = UB.
Proof. intros H. unfold rd. rewrite (proj2 (nth_error_None l i)); auto. Qed.

Lemma wr_ok {A} (l : list A) i a : i < length l -> wr l i a = Ok (upd l i a).
Proof. intros H. unfold wr. destruct (Nat.ltb_spec i (length l)); [auto|lia]. Qed.

Lemma wr_oob {A} (l : list A) i a : length l <= i -> wr l i a = UB.
Proof. intros H. unfold wr. destruct (Nat.ltb_spec i (length l)); [lia|auto]. Qed.

(** Conversion to [size_t] / [unsigned long] on 64-bit Linux. *)
Definition u64 (z : Z) : Z := (z mod 2 ^ 64)%Z.
(** Conversion to [unsigned int]. *)
Definition u32 (z : Z) : Z := (z mod 2 ^ 32)%Z.
(** Conversion to [long] (implementation-defined, modular on gcc). *)
Definition i64 (z : Z) : Z := ((z + 2 ^ 63) mod 2 ^ 64 - 2 ^ 63)%Z.
Definition LONG_MIN : Z := (- 2 ^ 63)%Z.

Lemma u64_small z : (0 <= z < 2 ^ 64)%Z -> u64 z = z.
Proof. intros; apply Z.mod_small; assumption. Qed.

(** Big-endian (most significant first) numeric value of a list of bits. *)
Definition bval (l : list bool) : Z := fold_left (fun a b => 2 * a + Z.b2z b)%Z l 0%Z.
