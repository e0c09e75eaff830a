(** Model of the generation engine: /repo/src/exhaustive/exhaustive.c:343-448 and 466-488.

    The world [W] stands for everything the stage functions can read or write (the curve,
    statics, randomness, input, timers); the PARI stack pointer [avma] is kept apart
    because the engine itself reads and writes it. Every call of a stage function is
    recorded in a trace. Not modelled: the log and verbose output. *)
From Verif Require Import Base.
Local Open Scope Z_scope.

(** What the timed call of a generator ends with: src/exhaustive/exhaustive.c:366-375.
    [Timeout] is the siglongjmp branch, taken whenever the signal arrives between
    sigsetjmp and timeout_stop (util/timeout.h:46-70), also after the generator returned
    but before timeout_stop. *)
Inductive gout := Ret (diff : Z) | Timeout.

(** The recorded calls. *)
Inductive event :=
| EGen (stage : Z) (avma_in : Z) (o : gout) (avma_out : Z)
| ECheck (stage : Z) (index : nat) (r : Z)
| EUnroll (stage : Z).

(** How the engine stops: a return value; undefined behaviour; an undo hook that did not
    go back (the loop at 412-419 assumes negative results); out of fuel. *)
Inductive stop := Returned (r : Z) | Undef | Stuck | NoFuel.

Definition INT_MIN : Z := - 2 ^ 31.
Definition INT_MAX : Z := 2 ^ 31 - 1.

(** src/exhaustive/exhaustive.h: exhaustive_t, the arguments already applied *)
Record setup (W : Type) := mkSetup {
  generators : Z -> option (W -> Z -> W * Z * gout);
  validators : Z -> option (list (W -> W * Z));
  unrolls : Z -> option (W -> W * Z)
}.
Arguments mkSetup {W}.
Arguments generators {W}.
Arguments validators {W}.
Arguments unrolls {W}.

Section Engine.
Context {W : Type}.
Variable su : setup W.
Variables start_offset end_offset retry : Z.

(** The local variables of the loop, src/exhaustive/exhaustive.c:353-356 *)
Record loc := mkLoc {
  state : Z;
  world : W;
  avma : Z;
  tops : Z -> Z;
  tries : Z -> Z
}.

Definition upd (f : Z -> Z) (i v : Z) : Z -> Z := fun j => if j =? i then v else f j.

(** src/exhaustive/exhaustive.c:379-386; [diff] is the value so far *)
Fixpoint run_checks (s : Z) (i : nat) (cs : list (W -> W * Z)) (w : W) (diff : Z)
  : list event * W * Z :=
  match cs with
  | [] => ([], w, diff)
  | c :: cs' =>
      let '(w', nd) := c w in
      if nd <=? 0 then ([ECheck s i nd], w', nd)
      else let '(ev, w2, d) := run_checks s (S i) cs' w' diff in
           (ECheck s i nd :: ev, w2, d)
  end.

(** src/exhaustive/exhaustive.c:412-419; [n] bounds the iterations by the distance, which
    is enough as long as the hooks go back. *)
Fixpoint unroll_loop (n : nat) (i new_state : Z) (w : W) : list event * option W :=
  if i >? new_state then
    match n with
    | O => ([], None)
    | S n' =>
        match unrolls su i with
        | Some u => let '(w', r) := u w in
                    if r >=? 0 then ([EUnroll i], None)
                    else let '(ev, o) := unroll_loop n' (i + r) new_state w' in
                         (EUnroll i :: ev, o)
        | None => unroll_loop n' (i - 1) new_state w
        end
    end
  else ([], Some w).

(** One iteration, src/exhaustive/exhaustive.c:358-437 *)
Definition step (l : loc) : list event * (loc + stop) :=
  let s := state l in
  let tops' := upd (tops l) s (avma l) in
  match generators su s with
  | None => ([], inr Undef)
  | Some g =>
      let '(w1, av1, o) := g (world l) (avma l) in
      let diff0 := match o with Ret d => d | Timeout => start_offset - s end in
      let ev0 := EGen s (avma l) o av1 in
      let '(ev1, w2, diff) :=
        match validators su s with
        | Some cs => if 0 <? diff0 then run_checks s 0 cs w1 diff0 else ([], w1, diff0)
        | None => ([], w1, diff0)
        end in
      if s + diff >? INT_MAX then (ev0 :: ev1, inr Undef) else
      let new_state := if s + diff <? start_offset then start_offset else s + diff in
      if diff <=? 0 then
        if (diff =? INT_MIN) || (s + diff <? 0) then (ev0 :: ev1, inr (Returned 0)) else
        let tried := tries l s + 1 in
        if negb (retry =? 0) && (tried >=? retry) then (ev0 :: ev1, inr (Returned 0)) else
        let tries' := if retry =? 0 then tries l else upd (tries l) s tried in
        let '(ev2, o2) := unroll_loop (Z.to_nat (s - new_state)) s new_state w2 in
        match o2 with
        | None => (ev0 :: ev1 ++ ev2, inr Stuck)
        | Some w3 => (ev0 :: ev1 ++ ev2,
                      inl (mkLoc new_state w3 (tops' new_state) tops' tries'))
        end
      else (ev0 :: ev1, inl (mkLoc new_state w2 av1 tops' (upd (tries l) s 0)))
  end.

(** What the stage at which the engine stops leaves behind: the world after its generator
    (exhaustive.c:366-375) and its checks (376-388), which is what the caller sees when the
    engine returns from 398 or 409. *)
Definition stopped (l : loc) : W :=
  match generators su (state l) with
  | None => world l
  | Some g =>
      let '(w1, _, o) := g (world l) (avma l) in
      let diff := match o with Ret d => d | Timeout => start_offset - state l end in
      match validators su (state l) with
      | Some cs => if 0 <? diff then snd (fst (run_checks (state l) 0 cs w1 diff)) else w1
      | None => w1
      end
  end.

(** src/exhaustive/exhaustive.c:357-438; the third component is the world at the end *)
Fixpoint run (fuel : nat) (l : loc) : list event * stop * W :=
  if state l <? end_offset then
    match fuel with
    | O => ([], NoFuel, world l)
    | S f =>
        match step l with
        | (ev, inr r) => (ev, r, stopped l)
        | (ev, inl l') => let '(ev', r, w) := run f l' in (ev ++ ev', r, w)
        end
    end
  else ([], Returned 1, world l).

(** src/exhaustive/exhaustive.c:343-443. The world returned is meaningful for
    return values 0 and 1. *)
Definition exhaustive_gen_retry (fuel : nat) (w : W) (av : Z) : list event * stop * W :=
  if start_offset =? end_offset then ([], Returned 2, w)
  else if start_offset >? end_offset then ([], Returned 0, w)
  else run fuel (mkLoc start_offset w av
                   (fun i => if i =? 0 then av else 0) (fun _ => 0)).
End Engine.

(** src/exhaustive/exhaustive.c:445-448 *)
Definition exhaustive_gen {W} (su : setup W) (s e : Z) fuel w av :=
  exhaustive_gen_retry su s e 0 fuel w av.
