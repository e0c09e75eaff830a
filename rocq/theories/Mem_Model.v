(** Model of src/util/memory.c and of the arrays of src/obj/obj.h. Blocks of memory are numbered; a pointer is the number
    of a block and points to its start (no caller has another one), NULL is [None]. *)
From Coq Require Import String.
From Verif Require Import Base.
Local Open Scope Z_scope.

(** the bytes of every block in use *)
Definition heap : Type := nat -> option (list N).
Definition upd (h : heap) (p : nat) (b : list N) : heap := fun q => if (q =? p)%nat then Some b else h q.
(** what an allocating function does: a block, NULL, or PARI's error e_MEM, which ends the program *)
Inductive got := Got (p : nat) (h : heap) | Null (h : heap) | Raised.
(** src/util/memory.c:11-17, the functions in use *)
Record funcs := mkFuncs {
  malloc_func : Z -> heap -> got; calloc_func : Z -> heap -> got; realloc_func : nat -> Z -> heap -> got;
  free_func : option nat -> heap -> option heap }.
(** how a call ends: exit(code) with what perror is given *)
Inductive out (A : Type) := Done (a : A) (h : heap) | Exits (code : Z) (what : string) | Error | Undefined.
Arguments Done {A}. Arguments Exits {A}. Arguments Error {A}. Arguments Undefined {A}.
Definition EXIT_FAILURE : Z := 1.

(** src/util/memory.c:33-40 *)
Definition alloc (fn : Z -> heap -> got) (size : Z) (h : heap) : out nat :=
  match fn size h with Got p h => Done p h | Null _ => Exits EXIT_FAILURE "Couldn't alloc." | Raised => Error end.
(** src/util/memory.c:42-44 *)
Definition try_malloc (g : funcs) (size : Z) (h : heap) : out nat := alloc (malloc_func g) size h.
Definition try_calloc (g : funcs) (size : Z) (h : heap) : out nat := alloc (calloc_func g) size h.
(** src/util/memory.c:46-53; [ptr] is no NULL pointer, see the callers *)
Definition try_realloc (g : funcs) (ptr : nat) (size : Z) (h : heap) : out nat :=
  match realloc_func g ptr size h with Got p h => Done p h | Null _ => Exits EXIT_FAILURE "Couldn't realloc." | Raised => Error end.
(** memcpy(3): both blocks are in use, long enough and different *)
Definition memcpy (dst src : nat) (len : Z) (h : heap) : option heap :=
  match h dst, h src with
  | Some d, Some s =>
      if (len <=? Z.of_nat (length d)) && (len <=? Z.of_nat (length s)) && negb (dst =? src)%nat
      then Some (upd h dst (firstn (Z.to_nat len) s ++ skipn (Z.to_nat len) d)) else None
  | _, _ => None
  end.
(** src/util/memory.c:60-64 *)
Definition try_memdup (g : funcs) (mem : nat) (len : Z) (h : heap) : out nat :=
  match try_malloc g len h with
  | Done p h => match memcpy p mem len h with Some h => Done p h | None => Undefined end
  | Exits c w => Exits c w
  | Error => Error
  | Undefined => Undefined
  end.
(** strlen(3): a NUL inside of the block *)
Fixpoint strlen (b : list N) : option nat :=
  match b with [] => None | c :: t => if N.eqb c 0 then Some 0%nat else option_map Datatypes.S (strlen t) end.
(** src/util/memory.c:55-58 *)
Definition try_strdup (g : funcs) (str : nat) (h : heap) : out nat :=
  match h str with
  | Some b => match strlen b with Some len => try_memdup g str (u64 (Z.of_nat len + 1)) h | None => Undefined end
  | None => Undefined
  end.
(** src/util/memory.c:66 *)
Definition try_free (g : funcs) (ptr : option nat) (h : heap) : out unit :=
  match free_func g ptr h with Some h => Done tt h | None => Undefined end.
(** src/util/memory.c:68-75 *)
Definition set_mem_funcs m c r f (g : funcs) : funcs := mkFuncs m c r f.

(** src/obj/obj.h:19-21: num * sizeof(obj_type), in size_t *)
Definition objs_new (g : funcs) (size num : Z) (h : heap) : out nat := try_calloc g (u64 (num * size)) h.
(** sizeof(subgroup_t), src/misc/types.h:72-76 *)
Definition sizeof_subgroup : Z := 24.
(** src/gen/gens.c:22-24, the array that gens_put makes for the generators *)
Definition gens_array {A} (g : funcs) (generators : list A) (h : heap) : out nat := objs_new g sizeof_subgroup (Z.of_nat (length generators)) h.
