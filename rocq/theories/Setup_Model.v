(** Model of the memory of a setup: /repo/src/exhaustive/arg.c, /repo/src/exhaustive/check.c,
    exhaustive_clear, exhaustive_cinit and exhaustive_ainit
    (/repo/src/exhaustive/exhaustive.c:28-44, 260-326), the reading of arguments and checks by the
    engine (/repo/src/exhaustive/exhaustive.c:357-383), cm_ainit, cm_cinit, cm_init, cm_quit and
    cm_do (/repo/src/cm/cm.c:97-258), anomalous_init and anomalous_quit
    (/repo/src/cm/anomalous.c:11-16, 131-140), invalid_do and what surrounds its search
    (/repo/src/invalid/invalid.c:61-69, 239-400), exhaustive_do (/repo/src/exhaustive/exhaustive.c:488-512).

    Plan_Model.v has the same functions with the arrays as plain lists: which function and which
    argument is put where. Here the arrays are arrays of pointers, the arguments and the checks are
    blocks of memory, and what is asked is who frees them.

    Memory is a set of numbered blocks as in Own_Model.v: an access to a block that is not there or
    is of another kind is [UB], so is freeing it, so is dereferencing NULL; numbers are not used
    again. An array of pointers in a C function's frame is a block that cannot be freed with
    try_free and goes away when the function returns.

    Simplifications: allocation does not fail (try_calloc exits otherwise); realloc always moves the
    block; the function pointers and the numbers and strings of the configuration are values, not
    blocks; the table of discriminants has no contents. Not modelled: the clones of family.c,
    field.c, equation.c and nums.c that exhaustive_quit drops. *)
From Coq Require Import Ascii String.
From Verif Require Import Base Str_Model Cli_Model Input_Model Plan_Model CmOrder_Model.
Local Open Scope Z_scope.

Notation ptr := (option nat).

(** where [args] of an arg_t points to: NULL, into the configuration, or to a block *)
Inductive target := TNull | TCfg (a : arg_t) | TBlk (i : nat).

Inductive cell :=
| CArg (args : target) (nargs : Z) (allocd : ptr)        (* src/misc/types.h: arg_t *)
| CCheck (checks : ptr) (nchecks : nat)                  (* src/misc/types.h: check_t *)
| CFuns (l : list (option check_f))                      (* an array of function pointers *)
| CText (s : str)                                        (* a string *)
| CNum (n : Z)                                           (* a size_t *)
| CTable (l : list ptr)                                  (* disc_table *)
| CData                                                  (* something whose contents do not matter *)
| CSlots (l : list ptr).                                 (* an array of pointers in a frame *)

Record heap := mkHeap { next : nat; cells : nat -> option cell }.

Definition set (f : nat -> option cell) (i : nat) (c : option cell) : nat -> option cell :=
  fun j => if (j =? i)%nat then c else f j.

(** a computation on the memory *)
Notation M A := (heap -> res (A * heap)).
Definition ret {A} (a : A) : M A := fun h => Ok (a, h).
Definition mbind {A B} (m : M A) (k : A -> M B) : M B :=
  fun h => match m h with Ok (a, h') => k a h' | UB => UB | Fuel => Fuel | Abort => Abort end.
Notation "'let*' x := m 'in' k" := (mbind m (fun x => k))
  (at level 200, x pattern, m at level 100, k at level 200, right associativity).

Definition new (c : cell) : M nat :=
  fun h => Ok (next h, mkHeap (S (next h)) (set (cells h) (next h) (Some c))).
Definition free (i : nat) : M unit :=
  fun h => match cells h i with Some _ => Ok (tt, mkHeap (next h) (set (cells h) i None)) | None => UB end.
Definition load (i : nat) : M cell :=
  fun h => match cells h i with Some c => Ok (c, h) | None => UB end.
Definition store (i : nat) (c : cell) : M unit :=
  fun h => match cells h i with Some _ => Ok (tt, mkHeap (next h) (set (cells h) i (Some c))) | None => UB end.
Definition ub {A} : M A := fun _ => UB.
Definition lift {A} (m : res A) : M A :=
  fun h => match m with Ok a => Ok (a, h) | UB => UB | Fuel => Fuel | Abort => Abort end.

(** try_free, src/util/memory.c:71: of something malloc gave, not of an array in a frame *)
Definition try_free (i : nat) : M unit :=
  let* c := load i in match c with CSlots _ => ub | _ => free i end.

(** for (size_t i = k; i < k + n; ++i) f(i) *)
Fixpoint loop (n k : nat) (f : nat -> M unit) : M unit :=
  match n with O => ret tt | S n => let* _ := f k in loop n (S k) f end.

(** [a[i]] and [a[i] = p] for an array of pointers in a frame *)
Definition slots (a : nat) : M (list ptr) :=
  let* c := load a in match c with CSlots l => ret l | _ => ub end.
Definition slot_get (a i : nat) : M ptr := let* l := slots a in lift (rd l i).
Definition slot_set (a i : nat) (p : ptr) : M unit :=
  let* l := slots a in let* l' := lift (wr l i p) in store a (CSlots l').

Definition load_arg (i : nat) : M (target * Z * ptr) :=
  let* c := load i in match c with CArg t n p => ret (t, n, p) | _ => ub end.
Definition load_check (i : nat) : M (ptr * nat) :=
  let* c := load i in match c with CCheck p n => ret (p, n) | _ => ub end.
Definition load_funs (p : ptr) : M (nat * list (option check_f)) :=
  match p with
  | None => ub
  | Some i => let* c := load i in match c with CFuns l => ret (i, l) | _ => ub end
  end.

(** src/exhaustive/arg.c:8 *)
Definition arg_new : M nat := new (CArg TNull 0 None).

(** [arg->args = t; arg->nargs = n], the two assignments that always come together *)
Definition arg_set (i : nat) (t : target) (n : Z) : M unit :=
  let* (_, _, d) := load_arg i in store i (CArg t n d).
(** [arg->allocd = p] *)
Definition arg_own (i : nat) (p : ptr) : M unit :=
  let* (t, n, _) := load_arg i in store i (CArg t n p).

(** src/exhaustive/arg.c:10-19, applied to [&a[i]] *)
Definition arg_free (a i : nat) : M unit :=
  let* p := slot_get a i in
  match p with
  | None => ret tt
  | Some x =>
      let* (t, n, d) := load_arg x in
      let* _ := match d with
                | Some y => let* _ := try_free y in arg_own x None
                | None => ret tt
                end in
      let* _ := try_free x in
      slot_set a i None
  end.

(** try_realloc to [n] function pointers: the new ones are not set *)
Definition realloc_funs (p : ptr) (n : nat) : M nat :=
  let* (i, l) := load_funs p in
  let* j := new (CFuns (firstn n l ++ repeat None (n - length l))) in
  let* _ := try_free i in
  ret j.

(** src/exhaustive/check.c:17-21: the arguments up to the NULL *)
Fixpoint check_more (x : nat) (l : list check_f) : M unit :=
  match l with
  | [] => ret tt
  | f :: l =>
      let* (p, n) := load_check x in
      let n := S n in
      let* q := realloc_funs p n in
      let* _ := store x (CCheck (Some q) n) in
      let* (_, fs) := load_funs (Some q) in
      let* fs := lift (wr fs (n - 1) (Some f)) in
      let* _ := store q (CFuns fs) in
      check_more x l
  end.

(** src/exhaustive/check.c:8-25 *)
Definition check_new (one : check_f) (l : list check_f) : M nat :=
  let* x := new (CCheck None 0) in
  let* q := new (CFuns [None]) in
  let* _ := store x (CCheck (Some q) 0) in
  let* (_, fs) := load_funs (Some q) in
  let* fs := lift (wr fs 0 (Some one)) in
  let* _ := store q (CFuns fs) in
  let* _ := store x (CCheck (Some q) 1) in
  let* _ := check_more x l in
  ret x.

(** src/exhaustive/check.c:27-35, applied to [&a[i]] *)
Definition check_free (a i : nat) : M unit :=
  let* p := slot_get a i in
  match p with
  | None => ret tt
  | Some x =>
      let* (q, _) := load_check x in
      let* _ := match q with Some y => try_free y | None => ret tt end in
      let* _ := try_free x in
      slot_set a i None
  end.

(** the parts of an exhaustive_t that are memory (src/exhaustive/exhaustive.h); NULL is possible *)
Record setup := mkS { validators : ptr; gen_argss : ptr; check_argss : ptr }.

(** OFFSET_END, src/misc/types.h *)
Definition OFFSET_END : nat := 9.

(** src/exhaustive/exhaustive.c:28-44 *)
Definition exhaustive_clear (su : setup) : M unit :=
  let* _ := match validators su with Some a => loop OFFSET_END 0 (check_free a) | None => ret tt end in
  let* _ := match gen_argss su with Some a => loop OFFSET_END 0 (arg_free a) | None => ret tt end in
  match check_argss su with Some a => loop OFFSET_END 0 (arg_free a) | None => ret tt end.

(** src/exhaustive/exhaustive.c:357-359 and the use [*(T * )args->args] in the generators: what the
    generator of stage [i] finds, with [nargs]; [None] when it is given NULL *)
Definition stage_arg (a : ptr) (i : nat) : M (option (Z * arg_t)) :=
  match a with
  | None => ret None
  | Some a =>
      let* p := slot_get a i in
      match p with
      | None => ret None
      | Some x =>
          let* (t, n, _) := load_arg x in
          match t with
          | TNull => ub
          | TCfg v => ret (Some (n, v))
          | TBlk j => let* c := load j in
                      match c with
                      | CText s => ret (Some (n, Order (Some s)))
                      | CNum k => ret (Some (n, Discr k))
                      | _ => ub
                      end
          end
      end
  end.

(** src/exhaustive/exhaustive.c:374-382, when all of them pass: the checks called, in order *)
Fixpoint read_checks (q : ptr) (n k : nat) : M (list check_f) :=
  match n with
  | O => ret []
  | S n =>
      let* (_, l) := load_funs q in
      let* f := lift (rd l k) in
      match f with
      | None => ub
      | Some f => let* r := read_checks q n (S k) in ret (f :: r)
      end
  end.
Definition stage_checks (a : ptr) (i : nat) : M (option (list check_f)) :=
  match a with
  | None => ret None
  | Some a =>
      let* p := slot_get a i in
      match p with
      | None => ret None
      | Some x => let* (q, n) := load_check x in let* r := read_checks q n 0 in ret (Some r)
      end
  end.


(** src/exhaustive/exhaustive.c:262-263 and the like: [check_t *x = check_new(...); a[i] = x;] *)
Definition put_check (a i : nat) (one : check_f) (l : list check_f) : M unit :=
  let* x := check_new one l in slot_set a i (Some x).

(** src/exhaustive/exhaustive.c:260-292 *)
Definition cinit (c : config) (a : nat) : M unit :=
  let* _ := put_check a CURVE curve_check_nonzero [] in
  let* _ := (if is_some (c_hex_check c) then put_check a POINTS hex_check_param [] else ret tt) in
  if c_method c =? METHOD_SEED then
    if (c_seed_algo c =? SEED_BRAINPOOL) || (c_seed_algo c =? SEED_BRAINPOOL_RFC) then
      let* _ := put_check a ORDER brainpool_check_order [] in
      put_check a GENERATORS gens_check_anomalous [brainpool_check_gens]
    else if c_seed_algo c =? SEED_NUMS then
      put_check a GENERATORS gens_check_anomalous [brainpool_check_gens]
    else ret tt
  else ret tt.

(** src/exhaustive/exhaustive.c:296-299 and the like: one argument that points into the configuration *)
Definition put_arg (a i : nat) (v : arg_t) : M unit :=
  let* x := arg_new in
  let* _ := arg_set x (TCfg v) 1 in
  slot_set a i (Some x).

(** src/exhaustive/exhaustive.c:320-325 and src/cm/cm.c:133-138 *)
Definition hex_init (c : config) (ca : nat) : M unit :=
  match c_hex_check c with Some s => put_arg ca POINTS (Hex s) | None => ret tt end.

(** src/exhaustive/exhaustive.c:294-326 *)
Definition ainit (c : config) (ga ca : nat) : M unit :=
  let* _ := (if c_points_type c =? POINTS_RANDOM then put_arg ga POINTS (Amount (c_points_amount c)) else ret tt) in
  let* _ := (if c_cofactor c then
               let* o := arg_new in
               let* g := arg_new in
               let* _ := arg_set o (TCfg (Cofactor (c_cofactor_value c))) 1 in
               let* _ := arg_set g (TCfg (Cofactor (c_cofactor_value c))) 1 in
               let* _ := slot_set ga ORDER (Some o) in
               slot_set ga GENERATORS (Some g)
             else ret tt) in
  let* _ := (if c_smooth c then put_arg ga ORDER (Smooth (c_smooth_value c)) else ret tt) in
  hex_init c ca.

(** the arrays in the frame of a method, src/exhaustive/exhaustive.c:491-501, src/cm/cm.c:235-245 *)
Definition frame_in : M (nat * nat * nat) :=
  let* ga := new (CSlots (repeat None OFFSET_END)) in
  let* v := new (CSlots (repeat None OFFSET_END)) in
  let* ca := new (CSlots (repeat None OFFSET_END)) in
  ret (v, ga, ca).
Definition frame_out (f : nat * nat * nat) : M unit :=
  let '(v, ga, ca) := f in
  let* _ := free ga in let* _ := free v in free ca.

(** src/exhaustive/exhaustive.c:450-456, the memory of it *)
Definition exhaustive_init (c : config) (f : nat * nat * nat) : M setup :=
  let '(v, ga, ca) := f in
  let* _ := cinit c v in
  let* _ := ainit c ga ca in
  ret (mkS (Some v) (Some ga) (Some ca)).

(** src/exhaustive/exhaustive.c:488-512; [body] is exhaustive_generate with its result *)
Definition exhaustive_do (c : config) (body : setup -> M Z) : M Z :=
  let* f := frame_in in
  let* su := exhaustive_init c f in
  let* r := body su in
  let* _ := exhaustive_clear su in
  let* _ := frame_out f in
  ret r.

(** the string a char pointer points to *)
Definition text_at (t : target) : M str :=
  match t with
  | TCfg (Order (Some s)) => ret s
  | TBlk i => let* c := load i in match c with CText s => ret s | _ => ub end
  | _ => ub
  end.

(** src/cm/cm.c:97-139 *)
Definition cm_ainit (c : config) (order_s : target) (ga ca : nat) : M unit :=
  let* _ := (if c_method c =? METHOD_CM then
               let* u := arg_new in
               let* o := arg_new in
               let* s := text_at order_s in
               let* t := new (CText s) in
               let* _ := arg_set u (TBlk t) 1 in
               let* _ := arg_set o (TBlk t) 1 in
               let* _ := arg_own o (Some t) in
               let* _ := slot_set ga CURVE (Some u) in
               slot_set ga ORDER (Some o)
             else ret tt) in
  let* _ := (if c_method c =? METHOD_ANOMALOUS then
               let* f := arg_new in
               let* e := arg_new in
               let* i := new (CNum 0) in
               let* _ := store i (CNum 3) in
               let* _ := arg_set f (TBlk i) 1 in
               let* _ := arg_set e (TBlk i) 1 in
               let* _ := arg_own e (Some i) in
               let* _ := slot_set ga FIELD (Some f) in
               slot_set ga B (Some e)
             else ret tt) in
  let* _ := (if c_points_type c =? POINTS_RANDOM then put_arg ga POINTS (Amount (c_points_amount c)) else ret tt) in
  hex_init c ca.

(** src/cm/cm.c:141-149 *)
Definition cm_cinit (c : config) (a : nat) : M unit :=
  let* _ := put_check a CURVE curve_check_nonzero [] in
  if is_some (c_hex_check c) then put_check a POINTS hex_check_param [] else ret tt.

(** src/cm/anomalous.c:11-16: disc_table *)
Fixpoint new_discs (n : nat) : M (list ptr) :=
  match n with
  | O => ret []
  | S n => let* i := new CData in let* l := new_discs n in ret (Some i :: l)
  end.
Definition anomalous_init : M ptr :=
  let* t := new (CTable (repeat None 5)) in
  let* l := new_discs 5 in
  let* _ := store t (CTable l) in
  ret (Some t).

(** src/cm/anomalous.c:131-140 *)
Fixpoint free_discs (l : list ptr) : M unit :=
  match l with
  | [] => ret tt
  | p :: l => let* _ := match p with Some i => try_free i | None => ret tt end in free_discs l
  end.
Definition anomalous_quit (table : ptr) : M unit :=
  match table with
  | None => ret tt
  | Some t => let* c := load t in
              match c with CTable l => let* _ := free_discs l in try_free t | _ => ub end
  end.

Section Cm.
  (** pari_sprintf("%Pi", order) *)
  Context (print : Z -> str).

  (** src/cm/cm.c:154-212: NULL ([TNull]) for the other methods, [None] when 1 is returned.
      addprimes and isprime are left out. *)
  Definition cm_order (c : config) : M (option target) :=
    if c_method c =? METHOD_CM then
      match c_cm_order c with
      | None => ub
      | Some arg =>
          let* delims := lift (str_cnt arg ",") in
          let* (order, order_s) :=
            (if (delims =? 0)%nat then ret (strtoi arg, TCfg (Order (Some arg)))
             else
               let* s := new (CText arg) in
               let* factors := lift (split_factors (delims + 1) [] arg []) in
               let order := fold_left Z.mul factors 1 in
               let* _ := try_free s in
               let* t := new (CText (print order)) in
               ret (order, TBlk t)) in
          if order =? 0 then ret None
          else if c_bits c <? Z.log2 order then ret None
          else ret (Some order_s)
      end
    else ret (Some TNull).

  (** src/cm/cm.c:151-223: the setup and disc_table, or [None] when 1 is returned *)
  Definition cm_init (c : config) (f : nat * nat * nat) : M (option (setup * ptr)) :=
    let '(v, ga, ca) := f in
    let* o := cm_order c in
    match o with
    | None => ret None
    | Some order_s =>
        let* table := (if c_method c =? METHOD_ANOMALOUS then anomalous_init else ret None) in
        let* _ := cm_ainit c order_s ga ca in
        let* _ := cm_cinit c v in
        ret (Some (mkS (Some v) (Some ga) (Some ca), table))
    end.

  (** src/cm/cm.c:225-258 *)
  Definition cm_do (c : config) (body : setup -> M Z) : M Z :=
    let* f := frame_in in
    let* i := cm_init c f in
    match i with
    | None => let* _ := frame_out f in ret 1
    | Some (su, table) =>
        let* r := body su in
        let* _ := (if c_method c =? METHOD_ANOMALOUS then anomalous_quit table else ret tt) in
        let* _ := exhaustive_clear su in
        let* _ := frame_out f in
        ret r
    end.
End Cm.

(** src/invalid/invalid.c:239-318: what invalid_curves_threaded allocates around its work *)
Definition threaded (body : M unit) : M unit :=
  let* generated := new CData in
  let* states := new CData in
  let* old_states := new CData in
  let* local_curves := new CData in
  let* _ := body in
  let* _ := try_free generated in
  let* _ := try_free states in
  let* _ := try_free old_states in
  try_free local_curves.

(** src/invalid/invalid.c:320-400. [original]: exhaustive_gen on the original curve and whether it
    succeeds; [primes]: the number of primes found; [search]: the search. The curves themselves are
    the business of Own_Model.v; here a curve is one block. The exit of line 326 gives [None]. *)
Definition invalid_do (c : config) (original : setup -> M bool) (primes : M nat) (search : setup -> M unit) : M (option Z) :=
  let* f := frame_in in
  let '(v, ga, ca) := f in
  let* _ := put_check v CURVE curve_check_nonzero [] in
  let original_setup := mkS (Some v) (Some ga) (Some ca) in
  let invalid_setup := mkS (Some v) (Some ga) (Some ca) in
  let* curve := new CData in
  let* ok := original original_setup in
  if negb ok then
    let* _ := exhaustive_clear original_setup in
    let* _ := try_free curve in
    let* _ := frame_out f in
    ret None
  else
    let* n := primes in
    let* ps := new CData in
    if (n =? 0)%nat then let* _ := frame_out f in ret (Some 1)
    else
      let* curves := new CData in
      let* _ := (if c_threads c =? 1 then search invalid_setup else threaded (search invalid_setup)) in
      let* _ := try_free curves in
      let* _ := try_free ps in
      let* _ := try_free curve in
      let* _ := exhaustive_clear original_setup in
      let* _ := exhaustive_clear invalid_setup in
      let* _ := frame_out f in
      ret (Some 0).
