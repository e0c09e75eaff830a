(** Model of the invalid curve search with several threads: /repo/src/invalid/invalid.c:239-319 and
    /repo/src/invalid/invalid_thread.c.

    A transition system: every access to the data the threads share, every lock, unlock, wait and
    signal is a step of its own, and a schedule is an arbitrary list of steps. What a random curve
    looks like (its order, and whether generators are found for it) is part of the schedule, and so
    are spurious wake-ups of pthread_cond_wait. A thread's curve is known by its order.

    Simplifications: pthread_cond_signal wakes the main thread, the only one that waits;
    exhaustive_gen and exhaustive_gen_retry touch only data of their own thread; memory is not
    exhausted; pthread_create succeeds. *)
From Coq Require Import String.
From Verif Require Import Base Invalid_Model.
Local Open Scope Z_scope.

(** src/invalid/invalid_thread.h:15 *)
Inductive st := FREE | GENERATING | GENERATED.
Definition st_eqb (a b : st) : bool :=
  match a, b with FREE, FREE | GENERATING, GENERATING | GENERATED, GENERATED => true | _, _ => false end.

(** where a thread is; [o]: order of its curve, [nd]: ndivides, [acc]: primes[0 .. nprimes) *)
Inductive pc :=
| PNot                                            (* not created yet *)
| PGetLock | PGet | PGetUnlock (v : nat)          (* invalid_thread.c:14-19 and the test of line 36 *)
| PGen                                            (* 37-50 *)
| PClaimLock (o : Z) (nd : nat)                   (* 51 *)
| PClaim (o : Z) (nd : nat) (i : nat) (acc : list Z)   (* 54-61 *)
| PClaimUnlock (o : Z) (acc : list Z)             (* 62 and the test of line 64 *)
| PPoints (o : Z) (acc : list Z)                  (* 65-68 *)
| PFinLock (o : Z) (acc : list Z)                 (* 70 *)
| PFin (o : Z) (acc : list Z) (i count : nat)     (* 72-78 *)
| PFinAdd (count : nat)                           (* 79 *)
| PSignal                                         (* 80 *)
| PFinUnlock                                      (* 81 *)
| PExit                                           (* 90-94 *)
| PCrash.                                         (* wrote beyond the end of primes[ndivides] *)

(** where the main thread is *)
Inductive mpc :=
| MCreate (j : nat)       (* invalid.c:275-278 *)
| MWait                   (* 281, waiting *)
| MWoken                  (* 281, woken, wants the mutex back *)
| MScan (i : nat)         (* 282-290 *)
| MCheck                  (* 292-293 *)
| MUnlock                 (* 295 *)
| MJoin                   (* 297-299 *)
| MDone
| MCrash.                 (* output of a NULL curve *)

Inductive owner := OMain | OThread (t : nat).

Record glob := mkG {
  g_states : nat -> st;
  g_old : nat -> st;
  g_curves : nat -> option Z;
  g_generated : nat;
  g_mutex : option owner;
  g_pc : nat -> pc;
  g_main : mpc;
  g_out : list out
}.

Definition fupd {A} (f : nat -> A) (i : nat) (a : A) : nat -> A := fun j => if (j =? i)%nat then a else f j.

Section Threads.
  Context (primes : list Z) (threads : nat).
  Let n := length primes.
  Definition pr (i : nat) : Z := nth i primes 0.

  Definition set_pc (t : nat) (p : pc) (g : glob) : glob :=
    mkG (g_states g) (g_old g) (g_curves g) (g_generated g) (g_mutex g) (fupd (g_pc g) t p) (g_main g) (g_out g).
  Definition set_mutex (m : option owner) (g : glob) : glob :=
    mkG (g_states g) (g_old g) (g_curves g) (g_generated g) m (g_pc g) (g_main g) (g_out g).
  Definition set_state (i : nat) (s : st) (g : glob) : glob :=
    mkG (fupd (g_states g) i s) (g_old g) (g_curves g) (g_generated g) (g_mutex g) (g_pc g) (g_main g) (g_out g).
  Definition set_curve (i : nat) (o : Z) (g : glob) : glob :=
    mkG (g_states g) (g_old g) (fupd (g_curves g) i (Some o)) (g_generated g) (g_mutex g) (g_pc g) (g_main g) (g_out g).
  Definition set_generated (k : nat) (g : glob) : glob :=
    mkG (g_states g) (g_old g) (g_curves g) k (g_mutex g) (g_pc g) (g_main g) (g_out g).
  Definition set_main (m : mpc) (g : glob) : glob :=
    mkG (g_states g) (g_old g) (g_curves g) (g_generated g) (g_mutex g) (g_pc g) m (g_out g).
  Definition set_old (i : nat) (s : st) (g : glob) : glob :=
    mkG (g_states g) (fupd (g_old g) i s) (g_curves g) (g_generated g) (g_mutex g) (g_pc g) (g_main g) (g_out g).
  Definition write (o : list out) (g : glob) : glob :=
    mkG (g_states g) (g_old g) (g_curves g) (g_generated g) (g_mutex g) (g_pc g) (g_main g) (g_out g ++ o).

  (** pthread_mutex_lock: [None] when it blocks *)
  Definition lock (w : owner) (g : glob) : option glob :=
    match g_mutex g with None => Some (set_mutex (Some w) g) | Some _ => None end.
  Definition unlock (g : glob) : glob := set_mutex None g.
  (** pthread_cond_signal *)
  Definition signal (g : glob) : glob :=
    match g_main g with MWait => set_main MWoken g | _ => g end.

  (** src/invalid/invalid_thread.c:41-46 *)
  Definition ndivides (o : Z) : nat := length (filter (fun i => dvdis o (pr i)) (seq 0 n)).

  (** One step of thread [t]; [o] and [ok] are what generating a curve gives, when that is the
      step. [None]: it cannot go on now. *)
  Definition tstep (t : nat) (o : Z) (ok : bool) (g : glob) : option glob :=
    match g_pc g t with
    | PNot => None
    (* src/invalid/invalid_thread.c:14-19, 36 *)
    | PGetLock => match lock (OThread t) g with Some g => Some (set_pc t PGet g) | None => None end
    | PGet => Some (set_pc t (PGetUnlock (g_generated g)) g)
    | PGetUnlock v => Some (set_pc t (if (v <? n)%nat then PGen else PExit) (unlock g))
    (* src/invalid/invalid_thread.c:38-50; on failure 85-88 and around *)
    | PGen =>
        let nd := ndivides o in
        Some (set_pc t (if ((0 <? nd)%nat && ok)%bool then PClaimLock o nd else PGetLock) g)
    (* src/invalid/invalid_thread.c:51-64 *)
    | PClaimLock o nd => match lock (OThread t) g with Some g => Some (set_pc t (PClaim o nd n []) g) | None => None end
    | PClaim o nd (S i) acc =>
        if (dvdis o (pr i) && st_eqb (g_states g i) FREE)%bool then
          let g := set_state i GENERATING g in
          if (length acc <? nd)%nat then Some (set_pc t (PClaim o nd i (acc ++ [pr i])) g)
          else Some (set_pc t PCrash g)
        else Some (set_pc t (PClaim o nd i acc) g)
    | PClaim o nd O acc => Some (set_pc t (PClaimUnlock o acc) g)
    | PClaimUnlock o acc => Some (set_pc t (match acc with [] => PGetLock | _ => PPoints o acc end) (unlock g))
    (* src/invalid/invalid_thread.c:65-81 *)
    | PPoints o acc => Some (set_pc t (PFinLock o acc) g)
    | PFinLock o acc => match lock (OThread t) g with Some g => Some (set_pc t (PFin o acc n 0) g) | None => None end
    | PFin o acc (S i) count =>
        match nth_error acc count with
        | Some p =>
            if (p =? pr i)%Z then Some (set_pc t (PFin o acc i (S count)) (set_curve i o (set_state i GENERATED g)))
            else Some (set_pc t (PFin o acc i count) g)
        | None => Some (set_pc t (PFin o acc i count) g)
        end
    | PFin o acc O count => Some (set_pc t (PFinAdd count) g)
    | PFinAdd count => Some (set_pc t PSignal (set_generated (g_generated g + count) g))
    | PSignal => Some (set_pc t PFinUnlock (signal g))
    | PFinUnlock => Some (set_pc t PGetLock (unlock g))
    | PExit => None
    | PCrash => None
    end.

  Definition all_exited (g : glob) : bool :=
    forallb (fun t => match g_pc g t with PExit => true | _ => false end) (seq 0 threads).

  (** One step of the main thread, src/invalid/invalid.c:274-299 *)
  Definition mstep (g : glob) : option glob :=
    match g_main g with
    | MCreate j =>
        if (j <? threads)%nat then Some (set_main (MCreate (S j)) (set_pc j PGetLock g))
        else Some (set_main MWait (unlock g))
    | MWait => None
    | MWoken => match lock OMain g with Some g => Some (set_main (MScan 0) g) | None => None end
    | MScan i =>
        if (i <? n)%nat then
          let s := g_states g i in
          if (negb (st_eqb (g_old g i) s) && st_eqb s GENERATED)%bool then
            match g_curves g i with
            | None => Some (set_main MCrash g)
            | Some _ =>
                let g := write [OCurve i] g in
                let g := if negb (g_generated g =? n)%nat then write [OSep] g else g in
                Some (set_main (MScan (S i)) (set_old i s g))
            end
          else Some (set_main (MScan (S i)) g)
        else Some (set_main MCheck g)
    | MCheck =>
        if (g_generated g =? n)%nat then Some (set_main MUnlock g) else Some (set_main MWait (unlock g))
    | MUnlock => Some (set_main MJoin (unlock g))
    | MJoin => if all_exited g then Some (set_main MDone g) else None
    | MDone => None
    | MCrash => None
    end.

  Inductive event := EThread (t : nat) (o : Z) (ok : bool) | EMain | ESpurious.

  Definition estep (e : event) (g : glob) : option glob :=
    match e with
    | EThread t o ok => if (t <? threads)%nat then tstep t o ok g else None
    | EMain => mstep g
    | ESpurious => match g_main g with MWait => Some (set_main MWoken g) | _ => None end
    end.

  Fixpoint exec (es : list event) (g : glob) : option glob :=
    match es with
    | [] => Some g
    | e :: es => match estep e g with Some g => exec es g | None => None end
    end.

  (** src/invalid/invalid.c:246-274 *)
  Definition start : glob :=
    mkG (fun _ => FREE) (fun _ => FREE) (fun _ => None) 0 (Some OMain) (fun _ => PNot) (MCreate 0) [].
End Threads.
