(** The invalid-curve method (src/invalid/invalid.c, src/invalid/invalid_thread.c) on the stack
    machine of Stk_Model, with the engine and the stage functions of Stk_Engine and Stk_Gens.

    The curve to invalidate is [G_orig] once it is made, the curves kept are [G_saved]; the fields
    [F_...] are those of the record being filled. Simplifications, beside those of Stk_Model:
    - a thread has a stack of its own, so it has a world of its own. It shares with the main thread the
      curve to invalidate, which it only reads and which stays until the thread has ended
      (invalid.c:297-299, 394), and the curves it publishes, which the main thread may look at from
      then on: after every operation ([watch]);
    - which primes divide an order, which of them still need a curve, and when all have one is
      left to the oracle; other threads are part of it;
    - the memory of the records themselves is the subject of C73. *)
From Coq Require Import Ascii String.
From Verif Require Import Base Str_Model Cli_Model Plan_Model Stk_Model Stk_Gens Stk_Engine.
From Verif Require Engine_Model.
Local Open Scope Z_scope.

(** src/invalid/invalid.c:71-119: the body of the loop, what comes before and after it *)
Definition primes_begin : cmd := seq [Op (Mark (M "l")); Op (New (V "bound") [F_order]); Op (SetUniv (V "product"))].
Definition primes_body : cmd := seq [Op (Use [V "bound"; V "product"]); Op (New (V "product") [V "product"])].
Definition primes_end : cmd := seq [Op (Use [V "bound"; V "product"]); Op (Release (M "l"))].

(** src/obj/curve.c:8-20, src/obj/subgroup.c, src/obj/point.c: curve_new_copy; the copy is reached from y *)
Definition copy_to (y x : lval) : cmd := seq [Op (Copy (V "copy") x); Op (Push y (V "copy"))].
Definition copy_record (y : lval) : cmd :=
  seq [IfNull F_field Skip (copy_to y F_field); IfNull F_a Skip (copy_to y F_a); IfNull F_b Skip (copy_to y F_b);
       IfNull F_curve Skip (seq [read_curve; copy_to y F_curve]); IfNull F_order Skip (copy_to y F_order);
       IfNull F_gens Skip (seq [Op (Use [F_full]); copy_to y F_gens; IfNull F_pts Skip (copy_to y F_pts)])].

(** src/invalid/invalid.c:131-134, 215-217 and invalid_thread.c:32-34 *)
Definition new_invalid : cmd := seq [new_record; Op (Copy F_field G_orig); Op (Copy F_a G_orig)].
(** src/invalid/invalid.c:160-162 and 230-231 *)
Definition give_up : cmd := seq [unroll_prog curve_unroll; Op (Release Iter)].
(** src/invalid/invalid_thread.c:85-88, nfree being above 0 or not *)
Definition undo_all (kept : bool) : cmd :=
  seq [unroll_prog points_unroll; unroll_prog gens_unroll; unroll_prog curve_unroll; if kept then Skip else Op (Release Iter)].

Section Run.
Variable dec : nat -> bool.
Variable cut : nat -> bool.
Variable bound : nat.
Notation plain := (plain dec bound).

(** the engine from one stage to another: src/exhaustive/exhaustive.c:347-430 *)
Definition engine (su : setup_t) (first last retry : Z) (fuel : nat) (w : world) : Engine_Model.stop * world :=
  let '(_, r, w) := Engine_Model.exhaustive_gen_retry (stk_setup dec cut bound su) first last retry fuel w (height w) in (r, w).

(** at most k times *)
Fixpoint several (k : nat) (c : cmd) (w : world) : world :=
  match k with
  | O => w
  | S k => if dec (time w) then several k c (plain c (tick w)) else tick w
  end.

(** src/invalid/invalid.c:321-329 up to the failure *)
Definition original (su : setup_t) (fuel : nat) (w : world) : world * ending :=
  let '(r, w) := engine su 1 7 0 fuel (plain new_record w) in
  match r with
  | Engine_Model.Returned 1 => (w, Made)
  | Engine_Model.Returned 0 => (w, Failed)
  | _ => (w, Unfinished)
  end.

(** One round of src/invalid/invalid.c:137-233, with at most k copies: whether the curve was kept;
    [None] if it has no end in sight. The curve is handed over in line 195. *)
Definition round (su : setup_t) (md : bool) (fuel k : nat) (w : world) : world * option bool :=
  let '(r, w) := engine su 3 6 0 fuel (plain (Op (Mark Iter)) w) in
  match r with
  | Engine_Model.Returned _ =>
      let w := plain (Op (Use [F_order])) w in
      if dec (time w) then
        let '(r, w) := engine su 6 7 1 fuel (tick w) in
        match r with
        | Engine_Model.Returned 0 => (plain give_up w, Some false)
        | Engine_Model.Returned _ =>
            let '(r, w) := engine su 7 9 0 fuel (plain (Op (Use [F_order])) w) in
            match r with
            | Engine_Model.Returned _ =>
                let w := several k (seq [Op (Use [F_order]); copy_record G_saved; Op (Use [G_saved])]) (plain (seq [Op (Use [F_order]); output md]) w) in
                (plain (seq [Op (Hand G_saved all_fields); new_invalid]) w, Some true)
            | _ => (w, None)
            end
        | _ => (w, None)
        end
      else (plain give_up (tick w), Some false)
  | _ => (w, None)
  end.
(** The loop, at most n rounds. ncurves changes only when a curve is kept, so only then the loop can
    end. *)
Fixpoint rounds (su : setup_t) (md : bool) (fuel k n : nat) (w : world) : world * ending :=
  match n with
  | O => (w, Unfinished)
  | S n =>
      match round su md fuel k w with
      | (w, Some true) => if dec (time w) then (tick w, Made) else rounds su md fuel k n (tick w)
      | (w, Some false) => rounds su md fuel k n w
      | (w, None) => (w, Unfinished)
      end
  end.

(** src/invalid/invalid.c:358-374: the curve to invalidate is made and printed, and the primes found *)
Definition prepared (po : setup_t) (md : bool) (fuel k : nat) : world * ending :=
  let '(w, e) := original po fuel nothing in
  match e with
  | Made => (plain primes_end (several k primes_body (plain (seq [output md; primes_begin]) w)), Made)
  | e => (w, e)
  end.

(** invalid_do with one thread: src/invalid/invalid.c:331-400, 121-237; the failure of the original
    curve is lines 323-327, without primes lines 371-374 *)
Definition invalid_single (po pi : setup_t) (md : bool) (fuel k n : nat) : world * ending :=
  let '(w, e) := prepared po md fuel k in
  match e with
  | Made =>
      if dec (time w) then (tick w, Made) else
      let '(w, e) := rounds pi md fuel k n (plain (seq [Op (Hand G_orig all_fields); Op (Empty G_saved); new_invalid]) (tick w)) in
      match e with
      | Made => (plain (seq [curve_free; Op (Free [G_saved]); Op (Free [G_orig])]) w, Made)
      | e => (w, e)
      end
  | Failed => (plain curve_free w, Failed)
  | Unfinished => (w, Unfinished)
  end.

(** invalid_do with several threads, on the stack of the main thread: lines 301-304 copy what
    the threads made, 389-391 and 394 free it *)
Definition invalid_main (po : setup_t) (md : bool) (fuel k : nat) : world * ending :=
  let '(w, e) := prepared po md fuel k in
  match e with
  | Made =>
      if dec (time w) then (tick w, Made) else
      let w := several k (seq [Op (New (V "copy") []); Op (Push G_saved (V "copy"))])
                       (plain (seq [Op (Hand G_orig all_fields); Op (Empty G_saved)]) (tick w)) in
      (plain (seq [Op (Free [G_saved]); Op (Free [G_orig])]) w, Made)
  | Failed => (plain curve_free w, Failed)
  | Unfinished => (w, Unfinished)
  end.

(** One round of src/invalid/invalid_thread.c:36-89 up to line 84: whether nfree is above 0 *)
Definition thread_round (su : setup_t) (fuel k : nat) (w : world) : world * option bool :=
  let '(r, w) := engine su 3 6 0 fuel (plain (Op (Mark Iter)) w) in
  match r with
  | Engine_Model.Returned _ =>
      let w := plain (Op (Use [F_order])) w in
      if dec (time w) then
        let '(r, w) := engine su 6 7 1 fuel (tick w) in
        match r with
        | Engine_Model.Returned 0 => (w, Some false)
        | Engine_Model.Returned _ =>
            let w := plain (Op (Use [F_order])) w in
            if dec (time w) then
              let '(r, w) := engine su 7 9 0 fuel (tick w) in
              match r with
              | Engine_Model.Returned _ => (several k (copy_record G_saved) w, Some true)
              | _ => (w, None)
              end
            else (tick w, Some false)
        | _ => (w, None)
        end
      else (tick w, Some false)
  | _ => (w, None)
  end.
(** lines 36-89 for at most n rounds *)
Fixpoint thread_rounds (su : setup_t) (fuel k n : nat) (w : world) : world * ending :=
  match n with
  | O => (w, Unfinished)
  | S n =>
      if dec (time w) then (tick w, Made) else
      match thread_round su fuel k (tick w) with
      | (w, Some kept) => thread_rounds su fuel k n (plain (undo_all kept) w)
      | (w, None) => (w, Unfinished)
      end
  end.
(** lines 21-89 on the stack of the thread *)
Definition thread_search (pi : setup_t) (fuel k n : nat) : world * ending :=
  thread_rounds pi fuel k n (plain (seq [Op (Mark Base); Op (SetUniv G_orig); Op (Empty G_saved); new_invalid]) nothing).
(** with line 90, and what the main thread does with its curves: src/invalid/invalid.c:301-308 *)
Definition invalid_thread (pi : setup_t) (fuel k n : nat) : world * ending :=
  let '(w, e) := thread_search pi fuel k n in
  match e with
  | Made => (plain (seq [curve_free; Op (Use [G_saved]); Op (Free [G_saved]); Op (Release Base)]) w, Made)
  | e => (w, e)
  end.
End Run.
