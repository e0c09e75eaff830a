(** Model of the memory of curves: /repo/src/obj/curve.c, /repo/src/obj/point.c,
    /repo/src/obj/subgroup.c, the macros of /repo/src/obj/obj.h, /repo/src/gen/seed.c:10-67,
    bits_copy and bits_free (/repo/src/util/bits.c:49-67), the unroll functions
    (/repo/src/gen/gens.c:134-139, /repo/src/gen/point.c:174-182, /repo/src/gen/curve.c:55-61) and
    /repo/src/math/twists.c:9-36.

    Memory is a set of numbered blocks. A block is what one call of an allocating function gives:
    a structure, an array of pointers, a buffer, a PARI object on the stack, or a PARI clone. Any
    access to a block that is not there, or that is of another kind, is [UB], and so is freeing it;
    so is dereferencing NULL. Block numbers are never used again, so an access after free is never
    mistaken for an access to something newer.

    Simplifications: the value of a PARI object is one integer; the blocks of the PARI stack stay
    (the stack pointer is modelled in Engine_Model.v); a t_ELL carries the list of objects PARI
    caches in it; gcopy and gclone of a t_ELL put those inside the new object, where they are no
    blocks of their own; obj_free frees those that are clones; allocation does not fail. The arrays
    of [OBJS] are as long as asked for (the code asks for num * sizeof(obj_type), which is more). *)
From Verif Require Import Base.
Local Open Scope Z_scope.

Notation ptr := (option nat).

(** src/misc/config.h:58-66 *)
Inductive seedt := SNone | SAnsi | SBrainpool | SBrainpoolRfc | SFips | SNums | SFamily.

(** the union of src/misc/types.h:43-60 *)
Inductive upart :=
| UZero                                                        (* as calloc leaves it *)
| UAnsi (t s h r : ptr)
| UBrain (update_seed : bool) (w v : Z) (seed_a seed_b : ptr) (mult : ptr)
| UFamily (z : ptr).

(** src/misc/types.h:38-61 *)
Record seed_s := mkSeed { s_seed : ptr; s_hash20 : ptr; s_type : seedt; s_part : upart }.
(** src/misc/types.h:23-28 *)
Record bits_s := mkBits { b_bits : ptr; b_sign : bool; b_bitlen : Z; b_allocated : Z }.
(** src/misc/types.h:69-73 *)
Record point_s := mkPoint { p_point : ptr; p_order : ptr; p_cofactor : ptr }.
(** src/misc/types.h:81-85 *)
Record sub_s := mkSub { g_generator : ptr; g_npoints : nat; g_points : ptr }.
(** src/misc/types.h:90-97 *)
Record meta_s := mkMeta { m_j : ptr; m_disc : ptr; m_cm : ptr; m_trace : ptr; m_emb : ptr; m_cond : ptr }.
(** src/misc/types.h:111-121 *)
Record curve_s := mkCurve {
  c_seed : ptr; c_field : ptr; c_a : ptr; c_b : ptr; c_curve : ptr; c_order : ptr;
  c_generators : ptr; c_ngens : nat; c_meta : meta_s }.

Inductive cell :=
| CGen (clone : bool) (v : Z) (cache : list nat)
| CBytes (l : list Z)
| CBits (b : bits_s)
| CSeed (s : seed_s)
| CPoint (p : point_s)
| CArr (l : list ptr)
| CSub (g : sub_s)
| CCurve (c : curve_s).

Record heap := mkHeap { next : nat; cells : nat -> option cell }.

Definition set (f : nat -> option cell) (i : nat) (c : option cell) : nat -> option cell :=
  fun j => if (j =? i)%nat then c else f j.

(** a computation on the memory *)
Notation M A := (heap -> res (A * heap)).
Definition ret {A} (a : A) : M A := fun h => Ok (a, h).
Definition mbind {A B} (m : M A) (k : A -> M B) : M B :=
  fun h => match m h with Ok (a, h') => k a h' | UB => UB | Fuel => Fuel | Abort => Abort end.
Notation "'let*' x := m 'in' k" := (mbind m (fun x => k))
  (at level 200, x pattern, m at level 100, k at level 200, right associativity).

(** allocation, release, reading and writing of a block *)
Definition new (c : cell) : M nat :=
  fun h => Ok (next h, mkHeap (S (next h)) (set (cells h) (next h) (Some c))).
Definition free (i : nat) : M unit :=
  fun h => match cells h i with Some _ => Ok (tt, mkHeap (next h) (set (cells h) i None)) | None => UB end.
Definition load (i : nat) : M cell :=
  fun h => match cells h i with Some c => Ok (c, h) | None => UB end.
Definition store (i : nat) (c : cell) : M unit :=
  fun h => match cells h i with Some _ => Ok (tt, mkHeap (next h) (set (cells h) i (Some c))) | None => UB end.
Definition ub {A} : M A := fun _ => UB.

(** try_free, src/util/memory.c:71: of something malloc gave, never of a PARI object *)
Definition try_free (i : nat) : M unit :=
  let* c := load i in match c with CGen _ _ _ => ub | _ => free i end.

Definition load_gen (p : ptr) : M (bool * Z * list nat) :=
  match p with
  | None => ub
  | Some i => let* c := load i in match c with CGen b v l => ret (b, v, l) | _ => ub end
  end.
Definition load_bits (p : ptr) : M bits_s :=
  match p with None => ub | Some i => let* c := load i in match c with CBits b => ret b | _ => ub end end.
Definition load_bytes (p : ptr) : M (list Z) :=
  match p with None => ub | Some i => let* c := load i in match c with CBytes b => ret b | _ => ub end end.
Definition load_seed (p : ptr) : M seed_s :=
  match p with None => ub | Some i => let* c := load i in match c with CSeed b => ret b | _ => ub end end.
Definition load_point (p : ptr) : M point_s :=
  match p with None => ub | Some i => let* c := load i in match c with CPoint b => ret b | _ => ub end end.
Definition load_arr (p : ptr) : M (list ptr) :=
  match p with None => ub | Some i => let* c := load i in match c with CArr b => ret b | _ => ub end end.
Definition load_sub (p : ptr) : M sub_s :=
  match p with None => ub | Some i => let* c := load i in match c with CSub b => ret b | _ => ub end end.
Definition load_curve (p : ptr) : M curve_s :=
  match p with None => ub | Some i => let* c := load i in match c with CCurve b => ret b | _ => ub end end.

(** PARI's isclone, gunclone, gcopy, gclone, obj_free *)
Definition isclone (p : ptr) : M bool := let* (b, _, _) := load_gen p in ret b.
Definition gunclone (p : ptr) : M unit :=
  let* (b, _, _) := load_gen p in
  match p with Some i => if b then free i else ub | None => ub end.
Definition gcopy (p : ptr) : M ptr :=
  let* (_, v, _) := load_gen p in let* i := new (CGen false v []) in ret (Some i).
Definition gclone (p : ptr) : M ptr :=
  let* (_, v, _) := load_gen p in let* i := new (CGen true v []) in ret (Some i).
(** the idiom [if (x && isclone(x)) gunclone(x)] *)
Definition drop (p : ptr) : M unit :=
  match p with
  | None => ret tt
  | Some _ => let* b := isclone p in if b then gunclone p else ret tt
  end.
Fixpoint drop_all (l : list nat) : M unit :=
  match l with [] => ret tt | i :: l => let* _ := drop (Some i) in drop_all l end.
Definition obj_free (p : ptr) : M unit :=
  let* (b, v, l) := load_gen p in
  let* _ := drop_all l in
  match p with Some i => store i (CGen b v []) | None => ub end.

(** the idiom [if (src->x) dest->x = gcopy(src->x)], where [dest->x] is [d] before *)
Definition opt {A} (f : ptr -> M A) (p : ptr) (d : A) : M A :=
  match p with None => ret d | Some _ => f p end.

(** src/util/bits.c:49-57 *)
Definition bits_copy (p : ptr) : M ptr :=
  let* b := load_bits p in
  let* q := (if b_allocated b =? 0 then ret None
             else let* l := load_bytes (b_bits b) in
                  if Z.of_nat (length l) <? b_allocated b then ub
                  else let* i := new (CBytes (firstn (Z.to_nat (b_allocated b)) l)) in ret (Some i)) in
  let* i := new (CBits (mkBits q (b_sign b) (b_bitlen b) (b_allocated b))) in
  ret (Some i).

(** src/util/bits.c:59-67; the result is what the pointer is afterwards *)
Definition bits_free (p : ptr) : M ptr :=
  match p with
  | None => ret None
  | Some i =>
      let* b := load_bits p in
      let* _ := match b_bits b with Some j => try_free j | None => ret tt end in
      let* _ := try_free i in
      ret None
  end.

(** src/gen/seed.c:10-21 *)
Definition seed_new : M ptr := let* i := new (CSeed (mkSeed None None SNone UZero)) in ret (Some i).
Definition put_seed (p : ptr) (s : seed_s) : M unit :=
  match p with Some i => store i (CSeed s) | None => ub end.
Definition seed_copy (src dest : ptr) : M ptr :=
  let* s := load_seed src in
  let* _ := match s_seed s with
            | None => ret tt
            | Some _ => let* q := bits_copy (s_seed s) in
                        let* d := load_seed dest in
                        put_seed dest (mkSeed q (s_hash20 d) (s_type d) (s_part d))
            end in
  let* _ := match s_hash20 s with
            | None => ret tt
            | Some _ => let* l := load_bytes (s_hash20 s) in
                        if (length l <? 20)%nat then ub
                        else let* i := new (CBytes (firstn 20 l)) in
                             let* d := load_seed dest in
                             put_seed dest (mkSeed (s_seed d) (Some i) (s_type d) (s_part d))
            end in
  ret dest.
(** src/gen/seed.c:23-26; seed_new_clone (28-35) is the same *)
Definition seed_new_copy (src : ptr) : M ptr := let* r := seed_new in seed_copy src r.
Definition seed_new_clone (src : ptr) : M ptr := let* r := seed_new in seed_copy src r.

(** src/gen/seed.c:37-62 *)
Definition seed_free (p : ptr) : M ptr :=
  match p with
  | None => ret None
  | Some i =>
      let* s := load_seed p in
      let* q := bits_free (s_seed s) in
      let* _ := put_seed p (mkSeed q (s_hash20 s) (s_type s) (s_part s)) in
      let* s := load_seed p in
      let* _ := match s_hash20 s with Some j => try_free j | None => ret tt end in
      let* _ := match s_type s with
                | SBrainpool | SBrainpoolRfc =>
                    match s_part s with
                    | UBrain u w v sa sb m =>
                        let* sa := bits_free sa in
                        let* _ := put_seed p (mkSeed (s_seed s) (s_hash20 s) (s_type s) (UBrain u w v sa sb m)) in
                        let* sb := bits_free sb in
                        put_seed p (mkSeed (s_seed s) (s_hash20 s) (s_type s) (UBrain u w v sa sb m))
                    | UZero => ret tt        (* both pointers are NULL *)
                    | _ => ub                (* another member of the union *)
                    end
                | _ => ret tt
                end in
      let* _ := try_free i in
      ret None
  end.

(** point.c: [cp] is gcopy or gclone. src/obj/point.c:10-22 with point_new of src/obj/obj.h:11 *)
Definition point_new_with (cp : ptr -> M ptr) (src : ptr) : M ptr :=
  let* i := new (CPoint (mkPoint None None None)) in
  let* s := load_point src in
  let* x := opt cp (p_point s) None in
  let* _ := store i (CPoint (mkPoint x None None)) in
  let* y := opt cp (p_order s) None in
  let* _ := store i (CPoint (mkPoint x y None)) in
  let* z := opt cp (p_cofactor s) None in
  let* _ := store i (CPoint (mkPoint x y z)) in
  ret (Some i).

(** src/obj/point.c:24-38 *)
Definition point_free (p : ptr) : M ptr :=
  match p with
  | None => ret None
  | Some i =>
      let* s := load_point p in
      let* _ := drop (p_point s) in
      let* _ := drop (p_order s) in
      let* _ := drop (p_cofactor s) in
      let* _ := try_free i in
      ret None
  end.

(** the loop of [OBJS], src/obj/obj.h:25-40: from index [i], [n] more *)
Fixpoint arr_copy (cp : ptr -> M ptr) (n i : nat) (src : ptr) (dest : nat) : M unit :=
  match n with
  | O => ret tt
  | S n =>
      let* l := load_arr src in
      match nth_error l i with
      | None => ub
      | Some q =>
          let* r := cp q in
          let* d := load_arr (Some dest) in
          let* _ := (if (i <? length d)%nat then store dest (CArr (upd d i r)) else ub) in
          arr_copy cp n (S i) src dest
      end
  end.
(** src/obj/obj.h:41-48 with 22-24 *)
Definition arr_new_with (cp : ptr -> M ptr) (src : ptr) (num : nat) : M ptr :=
  let* i := new (CArr (repeat None num)) in
  let* _ := arr_copy cp num 0 src i in
  ret (Some i).

(** the loops of points_free_deep and subgroups_free_deep, src/obj/point.c:49-51 and
    src/obj/subgroup.c:55-57: [fr(&arr[i])] for [n] indices from [i] *)
Fixpoint arr_free_loop (fr : ptr -> M ptr) (n i : nat) (a : nat) : M unit :=
  match n with
  | O => ret tt
  | S n =>
      let* l := load_arr (Some a) in
      match nth_error l i with
      | None => ub
      | Some q =>
          let* r := fr q in
          let* l := load_arr (Some a) in
          let* _ := store a (CArr (upd l i r)) in
          arr_free_loop fr n (S i) a
      end
  end.
(** src/obj/point.c:40-54, src/obj/subgroup.c:46-60 *)
Definition arr_free_deep (fr : ptr -> M ptr) (p : ptr) (n : nat) : M ptr :=
  match p with
  | None => ret None
  | Some a =>
      let* _ := arr_free_loop fr n 0 a in
      let* _ := try_free a in
      ret None
  end.
Definition points_free_deep := arr_free_deep point_free.

(** src/obj/subgroup.c:7-23 with subgroup_new *)
Definition sub_new_with (cp : ptr -> M ptr) (src : ptr) : M ptr :=
  let* i := new (CSub (mkSub None 0 None)) in
  let* s := load_sub src in
  let* g := opt (point_new_with cp) (g_generator s) None in
  let* _ := store i (CSub (mkSub g 0 None)) in
  let* _ := match g_points s with
            | None => ret tt
            | Some _ =>
                let* a := arr_new_with (point_new_with cp) (g_points s) (g_npoints s) in
                store i (CSub (mkSub g (g_npoints s) a))
            end in
  ret (Some i).

(** src/obj/subgroup.c:25-40 *)
Definition sub_free_deep (p : ptr) : M ptr :=
  match p with
  | None => ret None
  | Some i =>
      let* s := load_sub p in
      let* q := points_free_deep (g_points s) (g_npoints s) in
      let* _ := store i (CSub (mkSub (g_generator s) (g_npoints s) q)) in
      let* s := load_sub p in
      let* g := point_free (g_generator s) in
      let* _ := store i (CSub (mkSub g (g_npoints s) (g_points s))) in
      let* _ := try_free i in
      ret None
  end.
Definition subs_free_deep := arr_free_deep sub_free_deep.

Definition zero_meta : meta_s := mkMeta None None None None None None.
Definition put_curve (p : ptr) (c : curve_s) : M unit :=
  match p with Some i => store i (CCurve c) | None => ub end.

(** curve_new_copy and curve_new_clone: src/obj/curve.c:5-33 *)
Definition curve_new_with (cp seedcp : ptr -> M ptr) (src : ptr) : M ptr :=
  let* i := new (CCurve (mkCurve None None None None None None None 0 zero_meta)) in
  let* s := load_curve src in
  let* sd := opt seedcp (c_seed s) None in
  let* _ := store i (CCurve (mkCurve sd None None None None None None 0 zero_meta)) in
  let* f := opt cp (c_field s) None in
  let* _ := store i (CCurve (mkCurve sd f None None None None None 0 zero_meta)) in
  let* a := opt cp (c_a s) None in
  let* _ := store i (CCurve (mkCurve sd f a None None None None 0 zero_meta)) in
  let* b := opt cp (c_b s) None in
  let* _ := store i (CCurve (mkCurve sd f a b None None None 0 zero_meta)) in
  let* e := opt cp (c_curve s) None in
  let* _ := store i (CCurve (mkCurve sd f a b e None None 0 zero_meta)) in
  let* o := opt cp (c_order s) None in
  let* _ := store i (CCurve (mkCurve sd f a b e o None 0 zero_meta)) in
  let* _ := match c_generators s with
            | None => ret tt
            | Some _ =>
                let* g := arr_new_with (sub_new_with cp) (c_generators s) (c_ngens s) in
                store i (CCurve (mkCurve sd f a b e o g (c_ngens s) zero_meta))
            end in
  ret (Some i).
Definition curve_new_copy := curve_new_with gcopy seed_new_copy.
Definition curve_new_clone := curve_new_with gclone seed_new_clone.

Definition with_seed (p : ptr) (c : curve_s) : curve_s :=
  mkCurve p (c_field c) (c_a c) (c_b c) (c_curve c) (c_order c) (c_generators c) (c_ngens c) (c_meta c).
Definition with_generators (p : ptr) (c : curve_s) : curve_s :=
  mkCurve (c_seed c) (c_field c) (c_a c) (c_b c) (c_curve c) (c_order c) p (c_ngens c) (c_meta c).
Definition with_curve (p : ptr) (c : curve_s) : curve_s :=
  mkCurve (c_seed c) (c_field c) (c_a c) (c_b c) p (c_order c) (c_generators c) (c_ngens c) (c_meta c).

(** src/obj/curve.c:35-64 *)
Definition curve_free (p : ptr) : M ptr :=
  match p with
  | None => ret None
  | Some i =>
      let* c := load_curve p in
      let* q := seed_free (c_seed c) in
      let* _ := store i (CCurve (with_seed q c)) in
      let* c := load_curve p in
      let* q := subs_free_deep (c_generators c) (c_ngens c) in
      let* _ := store i (CCurve (with_generators q c)) in
      let* c := load_curve p in
      let* _ := match c_curve c with
                | None => ret tt
                | Some _ => let* _ := obj_free (c_curve c) in drop (c_curve c)
                end in
      let* _ := drop (c_field c) in
      let* _ := drop (c_a c) in
      let* _ := drop (c_b c) in
      let* _ := drop (c_order c) in
      let* _ := try_free i in
      ret None
  end.

(** src/gen/seed.c:64-67 *)
Definition seed_unroll (p : ptr) : M unit :=
  let* c := load_curve p in
  let* q := seed_free (c_seed c) in
  let* c := load_curve p in
  put_curve p (with_seed q c).

(** src/gen/curve.c:55-61 *)
Definition curve_unroll (p : ptr) : M unit :=
  let* c := load_curve p in
  match c_curve c with
  | None => ret tt
  | Some _ =>
      let* _ := obj_free (c_curve c) in
      let* c := load_curve p in
      put_curve p (with_curve None c)
  end.

(** src/gen/gens.c:134-139 *)
Definition gens_unroll (p : ptr) : M unit :=
  let* c := load_curve p in
  match c_generators c with
  | None => ret tt
  | Some _ =>
      let* q := subs_free_deep (c_generators c) (c_ngens c) in
      let* c := load_curve p in
      put_curve p (with_generators q c)
  end.

(** src/gen/point.c:176-179: [n] generators from [i] *)
Fixpoint points_unroll_loop (n i : nat) (p : ptr) : M unit :=
  match n with
  | O => ret tt
  | S n =>
      let* c := load_curve p in
      let* l := load_arr (c_generators c) in
      match nth_error l i with
      | None => ub
      | Some q =>
          let* s := load_sub q in
          let* r := points_free_deep (g_points s) (g_npoints s) in
          let* s := load_sub q in
          let* _ := match q with Some j => store j (CSub (mkSub (g_generator s) (g_npoints s) r)) | None => ub end in
          points_unroll_loop n (S i) p
      end
  end.
(** src/gen/point.c:174-182 *)
Definition points_unroll (p : ptr) : M unit :=
  let* c := load_curve p in
  match c_generators c with
  | None => ret tt
  | Some _ => points_unroll_loop (c_ngens c) 0 p
  end.

(** src/math/twists.c:9-36 on a curve over a prime field. What PARI computes -- the twist and its
    coefficients -- is given: [tw], [ta], [tb], [ord]. *)
Definition twist_rand (tw ta tb ord : Z) (p : ptr) : M unit :=
  let* c := load_curve p in
  let* f := gcopy (c_field c) in
  let* e := new (CGen false tw []) in
  let* a := new (CGen false ta []) in
  let* b := new (CGen false tb []) in
  let* o := match c_order c with
            | None => ret None
            | Some _ => let* o := new (CGen false ord []) in ret (Some o)
            end in
  let* _ := put_curve p (mkCurve (c_seed c) f (Some a) (Some b) (Some e)
                           (match o with Some _ => o | None => c_order c end)
                           (c_generators c) (c_ngens c) (c_meta c)) in
  let* c := load_curve p in
  let* q := seed_free (c_seed c) in
  let* _ := put_curve p (with_seed q c) in
  let* c := load_curve p in
  let* q := subs_free_deep (c_generators c) (c_ngens c) in
  put_curve p (with_generators q c).
