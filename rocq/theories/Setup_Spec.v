(** What is asked of the memory of a setup, said without the code. *)
From Verif Require Import Base Cli_Model Plan_Model Setup_Model.
Local Open Scope Z_scope.

(** block numbers not given out yet are not in use *)
Definition fresh (h : heap) : Prop := forall i, (next h <= i)%nat -> cells h i = None.

(** the same blocks with the same contents *)
Definition same (h h' : heap) : Prop := forall i, cells h' i = cells h i.

(** [m] gives [a], takes back all it allocates and leaves everything else as it is *)
Definition quiet_at {A} (m : M A) (a : A) (h : heap) : Prop :=
  exists h', m h = Ok (a, h') /\ same h h' /\ fresh h' /\ (next h <= next h')%nat.

(** what the engine finds in memory [h] when it runs the setup [su] is the plan [p]: at each of the
    nine stages the generator's argument, the checks in order and their argument *)
Definition shows (h : heap) (su : setup) (p : setup_t) : Prop :=
  forall i, (i < 9)%nat ->
    stage_arg (gen_argss su) i h = Ok (option_map (pair 1) (nth i (s_gargs p) None), h) /\
    stage_checks (validators su) i h = Ok (nth i (s_checks p) None, h) /\
    stage_arg (check_argss su) i h = Ok (option_map (pair 1) (nth i (s_cargs p) None), h).

(** a run that ends with [a] and after which the memory is as before *)
Definition balanced {A} (m : M A) (a : A) (h : heap) : Prop := exists h', m h = Ok (a, h') /\ same h h'.

(** a block that the run allocated is left at its end *)
Definition leaks {A} (m : M A) (h : heap) : Prop :=
  exists a h' i c, m h = Ok (a, h') /\ cells h i = None /\ cells h' i = Some c.
