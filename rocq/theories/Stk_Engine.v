(** The engine of Engine_Model run over the stack machine of Stk_Model, with the programs of
    Stk_Gens for the functions a plan names, and the loop over the curves
    (src/exhaustive/exhaustive.c:466-488). *)
From Coq Require Import Ascii String.
From Verif Require Import Base Str_Model Cli_Model Plan_Model Stk_Model Stk_Gens.
From Verif Require Engine_Model.
Local Open Scope Z_scope.

Section Run.
Variable dec : nat -> bool.   (** the values: see Stk_Model *)
Variable cut : nat -> bool.   (** the timeouts *)
Variable bound : nat.         (** on the iterations of one loop *)

Definition height (w : world) : Z := Z.of_nat (List.length (stk w)).
(** avma = av *)
Definition set_avma (s : nat) (av : Z) (w : world) : world :=
  let h := Z.to_nat av in
  release h (if (h <=? List.length (stk w))%nat then w else blame (Raised (Top s)) w).

(** The timed call of the generator at the stage s: src/exhaustive/exhaustive.c:360 (the stack
    pointer is saved) and 366-375. The stack pointer the engine keeps is set before; reaching the
    bound counts as a timeout. *)
Definition gen_call (s : nat) (g : gen_f) (w : world) (av : Z) : world * Z * Engine_Model.gout :=
  let '(w1, r) := exec dec cut bound (gen_prog g) (run_op (Mark (Top s)) (set_avma s av w)) in
  (w1, height w1,
   match r with
   | Returns d => Engine_Model.Ret d
   | Stk_Model.Cut => Engine_Model.Timeout
   | _ => Engine_Model.Ret Engine_Model.INT_MIN
   end).
(** The call of a check, src/exhaustive/exhaustive.c:380. What a check leaves on the stack is taken
    off, as Engine_Model has it. No timeout comes here. A check that reaches the bound ends the
    generation. *)
Definition check_call (c : check_f) (w : world) : world * Z :=
  let '(w1, r) := exec dec (fun _ => false) bound (check_prog c) (run_op (Mark (M "ctop")) w) in
  match r with
  | Returns d => (run_op (Release (M "ctop")) w1, d)
  | _ => (w1, Engine_Model.INT_MIN)
  end.
(** The call of an undo hook, src/exhaustive/exhaustive.c:414; all of them return -1. *)
Definition unroll_call (u : unroll_f) (w : world) : world * Z :=
  (fst (exec dec (fun _ => false) bound (unroll_prog u) w), -1).

(** a plan as a setup of the engine *)
Definition stk_setup (su : setup_t) : Engine_Model.setup world :=
  Engine_Model.mkSetup
    (fun i => option_map (gen_call (Z.to_nat i)) (nth (Z.to_nat i) (s_gens su) None))
    (fun i => option_map (map check_call) (nth (Z.to_nat i) (s_checks su) None))
    (fun i => option_map unroll_call (nth (Z.to_nat i) (s_unrolls su) None)).

Definition plain (c : cmd) (w : world) : world := fst (exec dec (fun _ => false) bound c w).

(** How the loop ends: all curves made; the generation of one failed; no end in sight. *)
Inductive ending := Made | Failed | Unfinished.
(** src/exhaustive/exhaustive.c:469-483 for [n] curves: the world in the end. When the generation
    of a curve fails, the world is the one the engine leaves, before line 473. *)
Fixpoint curves (su : setup_t) (md : bool) (fuel : nat) (n : nat) (w : world) : world * ending :=
  match n with
  | O => (w, Made)
  | S n =>
      let w := plain new_record w in
      let '(_, r, w) := Engine_Model.exhaustive_gen (stk_setup su) 0 9 fuel w (height w) in
      match r with
      | Engine_Model.Returned 1 => curves su md fuel n (plain (seq [output md; curve_free]) w)
      | Engine_Model.Returned 0 => (w, Failed)
      | _ => (w, Unfinished)
      end
  end.
(** src/exhaustive/exhaustive.c:466-488 and 458-464: with line 473 and the end *)
Definition exhaustive_generate (su : setup_t) (md : bool) (fuel n : nat) (w : world) : world :=
  let '(w, e) := curves su md fuel n w in
  match e with
  | Made => plain free_statics w
  | Failed => plain free_statics (plain curve_free w)
  | Unfinished => w
  end.

(** The world at the start: nothing allocated, all variables NULL; for the anomalous method the
    table of discriminants is on the stack (src/cm/anomalous.c:11-25, called from
    src/cm/cm.c:214). *)
Definition nothing : world :=
  mkWorld [] 0 [] 0 (fun _ => None) (fun _ => 0%nat) 0 [].
Definition start (anomalous : bool) : world :=
  if anomalous then run_op (New G_disc []) nothing else nothing.
End Run.
