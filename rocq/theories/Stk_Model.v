(** A machine for the PARI stack discipline: what the C code does with PARI numbers, reduced to
    where they live.

    A number (GEN) is universal (gen_0, gen_1, ...), a clone (gclone, on PARI's heap), or lies on
    the PARI stack. The stack is a list of objects, newest first; every object ever put on it has
    an identifier of its own, so that a pointer to a released object never becomes valid again.
    [avma] is the height of the stack. [avma = m] takes back everything put on the stack since the
    height was [m]; gerepile and its relatives do the same but first copy the objects named.

    Simplifications, for the whole development of C70:
    - values are forgotten: a branch or the number of iterations of a loop whose condition depends
      on values is decided by an oracle [dec], so every combination of answers of PARI, of random
      numbers and of input lines is covered;
    - a PARI function that makes a number from others reads them and puts one new object on the
      stack (the garbage it leaves behind does not matter: it is released together with the
      object). The new object may share parts with its arguments. For arguments on the stack this
      is harmless, they are older, so they outlive it; for clones among its arguments it is
      recorded that the new object depends on them ([Dep]). Integer arithmetic shares nothing and
      is written as [Copy] where that matters;
    - an array or a vector filled element by element is the list of the numbers in it; reading an
      element reads them all;
    - one PARI call is not interrupted half way: a timeout ([cut]) comes between two operations
      (util/timeout.h:46-70 allows it anywhere);
    - PARI errors (pari_err) are not modelled. *)
From Coq Require Import Ascii String.
From Verif Require Import Base.

(** Where a GEN is stored. The fields of curve_t (src/misc/types.h) and of the structures it
    points to; the two cached values PARI keeps inside an elliptic curve over a finite field
    (the number of points and the generators, read by ellff_get_card, ellff_get_gens); statics;
    local variables, by name. *)
Inductive lval :=
| F_seed        (** curve->seed, the structure itself (malloc) *)
| F_ansi        (** curve->seed->ansi.t, s, h *)
| F_ansi_r      (** curve->seed->ansi.r *)
| F_mult        (** curve->seed->brainpool.mult *)
| F_z           (** curve->seed->family.z *)
| F_field | F_a | F_b | F_curve | F_order
| F_card | F_cgens  (** the cached number of points and generators of curve->curve *)
| F_gens        (** point, order, cofactor of all curve->generators[i]->generator *)
| F_pts         (** point, order of all curve->generators[i]->points[j] *)
| F_meta        (** curve->meta *)
| F_full        (** NULL as long as the array curve->generators has entries that are NULL *)
| G_nums_b      (** static b, src/exhaustive/nums.c:29 *)
| G_family_b    (** static b, src/exhaustive/family.c:112 *)
| G_disc        (** disc_table, src/cm/anomalous.c:9 *)
| G_orig        (** the numbers of the curve to invalidate, src/invalid/invalid.c:359 *)
| G_saved       (** the numbers of all curves of the array curves, src/invalid/invalid.c:376, or, in
                    the world of a thread, of those of local_curves it made, invalid_thread.c:75 *)
| V (name : string).

(** A saved stack height: pari_sp variables by name; stack_tops[i] of the engine; btop of the loops
    of src/invalid/invalid.c:138 and invalid_thread.c:37; the empty stack of a thread. *)
Inductive mark := M (name : string) | Top (stage : nat) | Iter | Base.

Definition leqb (a b : lval) : bool :=
  match a, b with
  | F_seed, F_seed | F_ansi, F_ansi | F_ansi_r, F_ansi_r | F_mult, F_mult | F_z, F_z | F_field, F_field
  | F_a, F_a | F_b, F_b | F_curve, F_curve | F_order, F_order | F_card, F_card | F_cgens, F_cgens
  | F_gens, F_gens | F_pts, F_pts | F_meta, F_meta | F_full, F_full | G_nums_b, G_nums_b | G_family_b, G_family_b
  | G_disc, G_disc | G_orig, G_orig | G_saved, G_saved => true
  | V x, V y => String.eqb x y
  | _, _ => false
  end.
Definition meqb (a b : mark) : bool :=
  match a, b with
  | M x, M y => String.eqb x y
  | Top i, Top j => i =? j
  | Iter, Iter | Base, Base => true
  | _, _ => false
  end.

(** A number: universal, a clone (numbered, with the place it was made for), on the stack, or a
    dependency on a clone of a number that shares parts with it. *)
Inductive ref := Univ | Clone (x : lval) (n : nat) | Dep (x : lval) (n : nat) | Stack (n : nat).

(** What can go wrong: a number read after it was released or freed; a NULL pointer followed; the
    stack pointer set to a height above the current one. *)
Inductive fault := Stale (l : lval) | Null (l : lval) | Raised (m : mark).

Record world := mkWorld {
  stk : list nat;                       (** objects on the stack, newest first *)
  next : nat;                           (** the next object's identifier *)
  clones : list (lval * nat);           (** clones not freed *)
  nextc : nat;
  vars : lval -> option (list ref);     (** NULL is [None] *)
  marks : mark -> nat;
  time : nat;                           (** operations and decisions so far *)
  faults : list fault
}.

(** the oldest [h] objects *)
Definition bottom (h : nat) (l : list nat) : list nat := skipn (length l - h) l.

Definition memb (n : nat) (l : list nat) : bool := existsb (Nat.eqb n) l.
Definition is_live_clone (x : lval) (n : nat) (c : list (lval * nat)) : bool :=
  existsb (fun y => leqb (fst y) x && (snd y =? n)) c.
Definition live (w : world) (r : ref) : bool :=
  match r with
  | Univ => true
  | Clone x n | Dep x n => is_live_clone x n (clones w)
  | Stack n => memb n (stk w)
  end.
Definition is_clone (r : ref) : bool := match r with Clone _ _ => true | _ => false end.
(** what a number made from this one may depend on *)
Definition dep (r : ref) : list ref :=
  match r with Clone x n | Dep x n => [Dep x n] | _ => [] end.

Definition put (x : lval) (v : option (list ref)) (w : world) : world :=
  mkWorld (stk w) (next w) (clones w) (nextc w) (fun y => if leqb y x then v else vars w y)
          (marks w) (time w) (faults w).
Definition setmark (m : mark) (h : nat) (w : world) : world :=
  mkWorld (stk w) (next w) (clones w) (nextc w) (vars w)
          (fun y => if meqb y m then h else marks w y) (time w) (faults w).
Definition setstk (s : list nat) (w : world) : world :=
  mkWorld s (next w) (clones w) (nextc w) (vars w) (marks w) (time w) (faults w).
Definition setclones (c : list (lval * nat)) (w : world) : world :=
  mkWorld (stk w) (next w) c (nextc w) (vars w) (marks w) (time w) (faults w).
Definition tick (w : world) : world :=
  mkWorld (stk w) (next w) (clones w) (nextc w) (vars w) (marks w) (S (time w)) (faults w).
Definition blame (f : fault) (w : world) : world :=
  mkWorld (stk w) (next w) (clones w) (nextc w) (vars w) (marks w) (time w) (faults w ++ [f]).
(** a new object *)
Definition alloc (w : world) : world * nat :=
  (mkWorld (next w :: stk w) (S (next w)) (clones w) (nextc w) (vars w) (marks w) (time w) (faults w), next w).
(** a new clone, for x *)
Definition galloc (x : lval) (w : world) : world * nat :=
  (mkWorld (stk w) (next w) ((x, nextc w) :: clones w) (S (nextc w)) (vars w) (marks w) (time w) (faults w), nextc w).

(** what the variable refers to *)
Definition refs (w : world) (x : lval) : list ref := match vars w x with Some l => l | None => [] end.

(** following the pointer [x]: a read *)
Definition use1 (x : lval) (w : world) : world :=
  match vars w x with
  | None => blame (Null x) w
  | Some l => if forallb (live w) l then w else blame (Stale x) w
  end.
Fixpoint use (xs : list lval) (w : world) : world :=
  match xs with [] => w | x :: xs => use xs (use1 x w) end.
(** a read that tests for NULL first *)
Definition peek1 (x : lval) (w : world) : world :=
  match vars w x with None => w | Some _ => use1 x w end.
Fixpoint peek (xs : list lval) (w : world) : world :=
  match xs with [] => w | x :: xs => peek xs (peek1 x w) end.

Definition release (h : nat) (w : world) : world := setstk (bottom h (stk w)) w.
Definition drop_clones (l : list ref) (c : list (lval * nat)) : list (lval * nat) :=
  filter (fun y => negb (existsb (fun r => match r with Clone x n => leqb (fst y) x && (snd y =? n) | _ => false end) l)) c.

(** The operations. *)
Inductive op :=
| New (x : lval) (args : list lval)   (** x = f(args) for a PARI function f making a number *)
| Copy (x y : lval)                   (** x = gcopy(y) *)
| CloneOf (x y : lval)                (** x = gclone(y) *)
| Free (xs : list lval)               (** for each x: if (x && isclone( x )) gunclone( x ); x = NULL *)
| Unclone (xs : list lval)            (** gunclone( x ) for each x, which keep their value *)
| Alias (x y : lval)                  (** x = y, or a component of y *)
| SetNull (x : lval)
| SetUniv (x : lval)                  (** x = gen_0, ..., or memory that is not PARI's *)
| Empty (x : lval)                    (** an array or vector without elements yet *)
| Push (x y : lval)                   (** x[i] = y *)
| Use (xs : list lval)                (** the numbers are read *)
| Mark (m : mark)                     (** pari_sp m = avma *)
| Release (m : mark)                  (** avma = m *)
| Gerepile (m : mark) (xs : list lval) (** gerepileall(m, ..., &x, ...) *)
| Hand (y : lval) (xs : list lval).   (** the record with the fields xs is now reached from y: its numbers
                                          go to y, its clones count as made for y, and the names xs
                                          are free for the fields of another record *)

(** the copies gerepile makes *)
Fixpoint fresh (xs : list lval) (w : world) : world :=
  match xs with
  | [] => w
  | x :: xs => let '(w, i) := alloc w in fresh xs (put x (Some [Stack i]) w)
  end.

Definition check_mark (m : mark) (w : world) : world :=
  if marks w m <=? length (stk w) then w else blame (Raised m) w.

(** a number under its new name *)
Definition handed (y : lval) (xs : list lval) (x : lval) : lval := if existsb (leqb x) xs then y else x.
Definition handed_ref (y : lval) (xs : list lval) (r : ref) : ref :=
  match r with
  | Clone x n => Clone (handed y xs x) n
  | Dep x n => Dep (handed y xs x) n
  | r => r
  end.
Definition hand (y : lval) (xs : list lval) (w : world) : world :=
  mkWorld (stk w) (next w) (map (fun c => (handed y xs (fst c), snd c)) (clones w)) (nextc w)
    (fun z => if leqb z y then Some (map (handed_ref y xs) (refs w y ++ flat_map (refs w) xs))
              else if existsb (leqb z) xs then None
              else option_map (map (handed_ref y xs)) (vars w z))
    (marks w) (time w) (faults w).

Definition run_op (o : op) (w : world) : world :=
  match o with
  | New x args =>
      let w := use args w in
      let deps := flat_map dep (flat_map (refs w) args) in
      let '(w, i) := alloc w in put x (Some (Stack i :: deps)) w
  | Copy x y => let w := use [y] w in let '(w, i) := alloc w in put x (Some [Stack i]) w
  | CloneOf x y => let w := use [y] w in let '(w, i) := galloc x w in put x (Some [Clone x i]) w
  | Free xs =>
      let w := peek xs w in
      let w := setclones (drop_clones (flat_map (refs w) xs) (clones w)) w in
      fold_left (fun w x => put x None w) xs w
  | Unclone xs =>
      let w := use xs w in setclones (drop_clones (flat_map (refs w) xs) (clones w)) w
  | Alias x y => put x (vars w y) w
  | SetNull x => put x None w
  | SetUniv x => put x (Some [Univ]) w
  | Empty x => put x (Some []) w
  | Push x y =>
      match vars w x, vars w y with
      | None, _ => blame (Null x) w
      | Some _, None => blame (Null y) w
      | Some l, Some k => put x (Some (l ++ k)) w
      end
  | Use xs => use xs w
  | Mark m => setmark m (length (stk w)) w
  | Release m => release (marks w m) (check_mark m w)
  | Gerepile m xs => fresh xs (release (marks w m) (check_mark m (use xs w)))
  | Hand y xs => hand y xs w
  end.

(** The curves kept in the array of the method invalid are looked at after every operation: in the
    world of a thread it is the main thread that may print them at any time
    (src/invalid/invalid.c:281-290). *)
Definition watch (w : world) : world := peek [G_saved] w.

(** Programs. [Loop] runs its body as often as the oracle says, [Forever] until it is left. *)
Inductive cmd :=
| Skip
| Op (o : op)
| Seq (c1 c2 : cmd)
| If (c1 c2 : cmd)
| IfNull (x : lval) (c1 c2 : cmd)     (** x == NULL *)
| IfClone (x : lval) (c1 c2 : cmd)    (** isclone( x ), which reads x *)
| Loop (c : cmd)
| Forever (c : cmd)
| Break
| Continue
| Ret (d : Z).

(** [Cut]: a timeout took control away, or the bound on loop iterations was reached. *)
Inductive outcome := Next | Brk | Cont | Returns (d : Z) | Cut.

Section Exec.
Variable dec : nat -> bool.   (** the oracle for decisions *)
Variable cut : nat -> bool.   (** when a timeout comes *)
Variable bound : nat.         (** bound on the iterations of one loop *)

Fixpoint exec (c : cmd) (w : world) : world * outcome :=
  match c with
  | Skip => (w, Next)
  | Op o => if cut (time w) then (tick w, Cut) else (tick (watch (run_op o w)), Next)
  | Seq c1 c2 =>
      let '(w1, r) := exec c1 w in
      match r with Next => exec c2 w1 | _ => (w1, r) end
  | If c1 c2 => if dec (time w) then exec c1 (tick w) else exec c2 (tick w)
  | IfNull x c1 c2 => match vars w x with None => exec c1 w | Some _ => exec c2 w end
  | IfClone x c1 c2 =>
      if existsb is_clone (refs w x) then exec c1 (use [x] w) else exec c2 (use [x] w)
  | Loop c =>
      (fix go (n : nat) (w : world) : world * outcome :=
         match n with
         | O => (w, Cut)
         | S n =>
             if dec (time w) then
               let '(w1, r) := exec c (tick w) in
               match r with Next | Cont => go n w1 | Brk => (w1, Next) | _ => (w1, r) end
             else (tick w, Next)
         end) bound w
  | Forever c =>
      (fix go (n : nat) (w : world) : world * outcome :=
         match n with
         | O => (w, Cut)
         | S n =>
             let '(w1, r) := exec c w in
             match r with Next | Cont => go n w1 | Brk => (w1, Next) | _ => (w1, r) end
         end) bound w
  | Break => (w, Brk)
  | Continue => (w, Cont)
  | Ret d => if cut (time w) then (tick w, Cut) else (w, Returns d)
  end.
End Exec.

(** A program as the list of its statements. *)
Definition seq (cs : list cmd) : cmd := fold_right Seq Skip cs.
Definition DoWhile (c : cmd) : cmd := Seq c (Loop c).
