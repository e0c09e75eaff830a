(** Model of the timeout mechanism: /repo/src/util/timeout.h:46-70 and
    /repo/src/util/timeout.c:13-20, as used by /repo/src/exhaustive/exhaustive.c:366-375
    with a non-zero number of seconds, for one thread (all variables are thread-local and
    the signal is sent to the thread that armed the timer).

    A schedule is a list of actions: the program advances by one atomic step, a timer
    expires, or a pending signal is delivered to the thread. Computation inside the timed
    branch takes no step of its own: any number of the other actions can happen there.
    Not modelled: the signal mask (SIGALRM is unblocked again by the handler). *)
From Verif Require Import Base.
Local Open Scope nat_scope.

(** Where the program is. *)
Inductive pc :=
| Idle        (* not in a timed section *)
| Created     (* after timer_create, timeout.h:52 *)
| Armed       (* after timer_settime, timeout.h:56 *)
| Flagged     (* after timeout_in = true, timeout.h:57 *)
| Body        (* sigsetjmp returned 0, timeout.h:59: the else branch *)
| OnTimeout   (* sigsetjmp returned 1: the if branch *)
| Stopping    (* timeout_in tested by timeout_stop, timeout.h:66 *)
| Cleared     (* after timeout_in = false, timeout.h:67 *)
| Crashed.    (* jumped to an uninitialised buffer *)

(** [section] numbers the timed sections; the timer of section n has number n (the pointer
    timeout_timer always refers to the latest one). *)
Record tstate := mkT {
  at_pc : pc; section : nat; timeout_in : bool; timeout_ptr : option nat;
  armed : list nat; pending : list nat }.

Inductive action := Run | Fire (t : nat) | Deliver (t : nat).

Inductive tevent :=
| Create (t : nat)
| Delete (t : nat)
| Jump (from : pc) (current : nat) (target : option nat) (cause : nat).

Definition remove (t : nat) (l : list nat) : list nat := filter (fun x => negb (x =? t)) l.
Definition mem (t : nat) (l : list nat) : bool := existsb (Nat.eqb t) l.

(** timeout_in is false and timeout_ptr unset initially, timeout.c:8-9 *)
Definition initial : tstate := mkT Idle 0 false None [] [].

Section Exec.
(** whether timer_delete leaves no pending signal behind (unspecified by POSIX; on Linux
    the signal is delivered before the call returns) *)
Variable flush : bool.

Definition exec (s : tstate) (a : action) : tstate * list tevent :=
  match a with
  | Run =>
      match at_pc s with
      | Idle => let n := section s + 1 in
                (mkT Created n (timeout_in s) (timeout_ptr s) (armed s) (pending s), [Create n])
      | Created => (mkT Armed (section s) (timeout_in s) (timeout_ptr s)
                      (section s :: armed s) (pending s), [])
      | Armed => (mkT Flagged (section s) true (timeout_ptr s) (armed s) (pending s), [])
      | Flagged => (mkT Body (section s) (timeout_in s) (Some (section s)) (armed s) (pending s), [])
      | Body | OnTimeout =>
          (mkT (if timeout_in s then Stopping else Idle) (section s) (timeout_in s) (timeout_ptr s)
             (armed s) (pending s), [])
      | Stopping => (mkT Cleared (section s) false (timeout_ptr s) (armed s) (pending s), [])
      | Cleared => (mkT Idle (section s) (timeout_in s) (timeout_ptr s) (remove (section s) (armed s))
                      (if flush then remove (section s) (pending s) else pending s),
                    [Delete (section s)])
      | Crashed => (s, [])
      end
  | Fire t =>
      if mem t (armed s) then
        (mkT (at_pc s) (section s) (timeout_in s) (timeout_ptr s) (remove t (armed s))
           (t :: pending s), [])
      else (s, [])
  | Deliver t =>
      if mem t (pending s) then
        let p := remove t (pending s) in
        if timeout_in s then
          (mkT (match timeout_ptr s with Some _ => OnTimeout | None => Crashed end)
             (section s) (timeout_in s) (timeout_ptr s) (armed s) p,
           [Jump (at_pc s) (section s) (timeout_ptr s) t])
        else (mkT (at_pc s) (section s) (timeout_in s) (timeout_ptr s) (armed s) p, [])
      else (s, [])
  end.

Fixpoint exec_all (s : tstate) (l : list action) : tstate * list tevent :=
  match l with
  | [] => (s, [])
  | a :: l' => let '(s1, e1) := exec s a in let '(s2, e2) := exec_all s1 l' in (s2, e1 ++ e2)
  end.
End Exec.
