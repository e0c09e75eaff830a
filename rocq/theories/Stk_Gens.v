(** The stage functions, checks and undo hooks as programs over the PARI stack. Function by
    function; a C function called by another one is written out where it is called. *)
From Coq Require Import Ascii String.
From Verif Require Engine_Model.
From Verif Require Import Base Plan_Model Stk_Model.
Local Open Scope string_scope.

Definition INT_MIN : Z := Engine_Model.INT_MIN.

(** [avma = ltop; return d] if the oracle says so *)
Definition fail_if (m : mark) (d : Z) : cmd := If (seq [Op (Release m); Ret d]) Skip.
(** x = gerepilecopy(m, y) *)
Definition gerepilecopy (m : mark) (x y : lval) : cmd :=
  seq [Op (Alias (V "g") y); Op (Gerepile m [V "g"]); Op (Alias x (V "g"))].

(** PARI's cached values are read along with the curve. *)
Definition read_curve : cmd :=
  seq [Op (Use [F_curve]); IfNull F_card Skip (Op (Use [F_card])); IfNull F_cgens Skip (Op (Use [F_cgens]))].
(** x = f(curve->curve, args) *)
Definition on_curve (x : lval) (args : list lval) : cmd := Seq read_curve (Op (New x (F_curve :: args))).
(** x = ellff_get_card(curve->curve): the cached value; if there is none it is computed and a
    clone of it is kept (PARI's obj_checkbuild) *)
Definition get_card (x : lval) : cmd :=
  seq [read_curve; IfNull F_card (seq [on_curve (V "card") []; Op (CloneOf F_card (V "card"))]) Skip; Op (Alias x F_card)].
(** x = ellff_get_gens(curve->curve), likewise *)
Definition get_gens (x : lval) : cmd :=
  seq [read_curve; IfNull F_cgens (seq [on_curve (V "group") []; Op (CloneOf F_cgens (V "group"))]) Skip; Op (Alias x F_cgens)].

(** ** util/random.c, io/input.c, math/poly.c, math/subgroup.c, helpers of gen/field.c *)

(** src/util/random.c:44-57 *)
Definition random_prime (x : lval) : cmd :=
  seq [Op (Mark (M "rp_l")); Op (New (V "range") []); Op (Mark (M "rp_b"));
       DoWhile (seq [Op (New (V "p") [V "range"]); Op (Gerepile (M "rp_b") [V "p"]); Op (Use [V "p"])]);
       gerepilecopy (M "rp_l") x (V "p")].
(** src/util/random.c:59-64 *)
Definition random_int (x : lval) : cmd :=
  seq [Op (Mark (M "ri_l")); Op (New (V "range") []); Op (New (V "rnd") [V "range"]); gerepilecopy (M "ri_l") x (V "rnd")].
(** src/util/random.c:66-74; the lower bound is always gen_0 or gen_1 *)
Definition random_range (x upper : lval) : cmd :=
  seq [Op (Mark (M "rr_l")); Op (SetUniv (V "lower")); Op (Use [V "lower"; upper]);
       If (Op (Copy x (V "lower")))
          (seq [Op (New (V "range") [V "lower"; upper]); Op (New (V "rnd") [V "range"]); gerepilecopy (M "rr_l") x (V "rnd")])].
(** src/io/input.c:13-52 *)
Definition input_i (x : lval) : cmd :=
  If (Op (SetUniv x))
     (seq [Op (Mark (M "ii_l")); Op (New (V "in") []); Op (Use [V "in"]); Op (New (V "size") []); Op (Use [V "in"; V "size"]);
           If (gerepilecopy (M "ii_l") x (V "in")) (Op (SetUniv x))]).
(** src/io/input.c:54-66 *)
Definition input_prime (x : lval) : cmd := seq [input_i x; Op (Use [x]); If Skip (Op (SetUniv x))].
(** src/math/poly.c:2743-2757: poly_gen, poly_find_gen *)
Definition poly_find_gen (x : lval) : cmd :=
  seq [Op (Mark (M "pg_l")); Op (New (V "coeffs") []); Op (New (V "poly") [V "coeffs"]); Op (New (V "ff") [V "poly"]);
       gerepilecopy (M "pg_l") x (V "ff")].
(** src/gen/field.c:146-163 *)
Definition field_elementi (x e : lval) : cmd :=
  seq [Op (Use [e]);
       If (Op (Alias x e))
          (If (Op (New x [e]))
              (seq [Op (Mark (M "fe_l")); Op (New (V "coeffs") [e]); Op (New (V "vec") [V "coeffs"]); Op (New (V "n") [V "vec"]);
                    gerepilecopy (M "fe_l") x (V "n")]))].
(** src/gen/field.c:165-179 *)
Definition field_ielement (x e : lval) : cmd :=
  seq [Op (Use [F_field]);
       If (Op (New x [e; F_field]))
          (seq [Op (Mark (M "fi_l")); Op (New (V "coeffs") [e]); Op (New (V "poly") [V "coeffs"]); Op (New (V "fq") [V "poly"; F_field]);
                gerepilecopy (M "fi_l") x (V "fq")])].
(** src/math/subgroup.c:73-79 *)
Definition subgroups_prime (x order : lval) : cmd :=
  seq [Op (Use [order]); If (Op (New x [order])) (seq [Op (New (V "factors") [order]); Op (New x [V "factors"])])].
(** src/math/subgroup.c:14-34 *)
Definition subgroups_divisors (x order : lval) : cmd :=
  seq [Op (New (V "factors") [order]); Op (Use [V "factors"]); Op (New x []); Loop (Op (Push x (V "factors")))].
(** src/math/subgroup.c:44-71 from line 48 on *)
Definition subgroups_2n_factors (x factors : lval) : cmd :=
  seq [Op (Mark (M "sg_l")); Op (Use [factors]);
       Op (New (V "amount") []); Op (New (V "groups") [V "amount"]);
       Loop (seq [Op (Mark (M "sg_b")); Op (SetUniv (V "result"));
                  Loop (If (Op (New (V "result") [V "result"; factors])) Skip);
                  If (Op (Push (V "groups") (V "result"))) (Op (Release (M "sg_b")))]);
       Op (New (V "set") [V "groups"]); gerepilecopy (M "sg_l") x (V "set")].
(** src/math/subgroup.c:81-87: NULL for a prime, or from line 47 *)
Definition subgroups_nonprime (x order : lval) : cmd :=
  seq [Op (Use [order]);
       If (Op (SetNull x))
          (seq [subgroups_divisors (V "divs") order; If (Op (SetNull x)) (subgroups_2n_factors x (V "divs"))])].
(** src/math/subgroup.c:89-95. Line 47 returns NULL for the order 1, having no prime factor; the
    order 1 is left out *)
Definition subgroups_all (x order : lval) : cmd :=
  seq [Op (Use [order]); If (Op (New x [order])) (seq [subgroups_divisors (V "divs") order; subgroups_2n_factors x (V "divs")])].
(** src/gen/gens.c:106-111 *)
Definition get_embedding (x p order : lval) : cmd := seq [Op (Use [p; order]); Op (New x [p; order])].

(** ** gen/field.c, gen/equation.c *)

(** src/gen/field.c:11-34; field_binaryr leaves the program when there is no polynomial, the
    generation ends here *)
Definition P_field_gen_random : cmd :=
  If (seq [random_prime F_field; Ret 1]) (If (seq [poly_find_gen F_field; Ret 1]) (Ret INT_MIN)).
(** src/gen/field.c:36-100 *)
Definition P_field_gen_input : cmd :=
  seq [Op (Mark (M "l"));
       If (seq [input_prime (V "p"); Op (Use [V "p"]); fail_if (M "l") 0; fail_if (M "l") INT_MIN;
                Op (Alias F_field (V "p")); Ret 1])
          (seq [input_i (V "m"); Op (Use [V "m"]); fail_if (M "l") 0;
                input_i (V "e1"); Op (Use [V "e1"; V "m"]); fail_if (M "l") 0;
                input_i (V "e2"); Op (Use [V "e2"; V "m"]); fail_if (M "l") 0;
                input_i (V "e3"); Op (Use [V "e3"; V "m"]); fail_if (M "l") 0;
                Op (Use [V "e1"; V "e2"; V "e3"]); fail_if (M "l") 0;
                Op (New (V "v") []); Op (Use [V "m"; V "e1"; V "e2"; V "e3"]);
                Op (New (V "poly") [V "v"]); Op (Use [V "poly"]); fail_if (M "l") 0;
                Op (New (V "ff") [V "poly"]); gerepilecopy (M "l") F_field (V "ff"); Ret 1])].
(** src/gen/equation.c:9-12 and 63-66 *)
Definition P_gen_random (x : lval) : cmd := seq [Op (New x [F_field]); Ret 1].
(** src/gen/equation.c:14-32 and 68-86 *)
Definition P_gen_input (x : lval) : cmd :=
  seq [Op (Mark (M "l")); input_i (V "inp"); Op (Use [V "inp"]); fail_if (M "l") 0; fail_if (M "l") INT_MIN;
       field_ielement (V "elem") (V "inp"); fail_if (M "l") 0; Op (Alias x (V "elem")); Ret 1].
(** src/gen/equation.c:53-61 and 107-115 *)
Definition P_gen_const (x : lval) : cmd := seq [Op (SetUniv x); Ret 1].

(** ** gen/curve.c, math/twists.c *)

(** src/gen/curve.c:8-35 up to its [return 1]; a new curve has nothing cached *)
Definition new_curve (e : lval) : cmd := seq [Op (SetNull F_card); Op (SetNull F_cgens); Op (Alias F_curve e)].
Definition curve_any_then (k : cmd) : cmd :=
  seq [Op (Mark (M "l")); Op (Use [F_field]); Op (New (V "v") [F_a; F_b]); Op (New (V "crv") [V "v"; F_field]); Op (Use [V "crv"]);
       fail_if (M "l") (-3); Op (Gerepile (M "l") [V "crv"]); new_curve (V "crv"); k].
Definition P_curve_gen_any : cmd := curve_any_then (Ret 1).

(** src/obj/point.c:21-51, src/obj/subgroup.c:26-57: the headers of the numbers are read (isclone) *)
Definition free_gens : cmd := IfNull F_gens Skip (Op (Free [F_gens; F_pts])).
(** src/gen/seed.c:36-62 *)
Definition free_seed : cmd :=
  seq [Op (SetNull F_seed); Op (SetNull F_ansi); Op (SetNull F_ansi_r); Op (SetNull F_mult); Op (SetNull F_z)].
(** src/math/twists.c:9-36, to and of being the same curve *)
Definition twist_rand : cmd :=
  seq [Op (Copy F_field F_field); on_curve (V "v") []; Op (New (V "crv") [V "v"; F_field]); new_curve (V "crv");
       Op (Use [F_curve]); Op (Alias F_a F_curve); Op (Alias F_b F_curve);
       IfNull F_order Skip
         (seq [Op (New (V "q") [F_field]); Op (New (V "ord") [V "q"; F_order]); Op (Alias F_order (V "ord")); Op (Alias F_card F_order)]);
       free_seed; free_gens].
(** src/gen/curve.c:37-45 *)
Definition P_curve_gen_any_twist : cmd := curve_any_then (seq [twist_rand; Ret 1]).

(** ** gen/order.c *)

(** src/gen/order.c:24-34 *)
Definition order_any_from (m : mark) : cmd :=
  seq [get_card (V "ord");
       IfClone (V "ord") (gerepilecopy m F_order (V "ord")) (seq [Op (Release m); Op (Alias F_order (V "ord"))])].
Definition P_order_gen_any : cmd := seq [Op (Mark (M "l")); order_any_from (M "l"); Ret 1].
(** src/gen/order.c:36-47 *)
Definition P_order_gen_sea : cmd :=
  seq [Op (Mark (M "l")); on_curve (V "order") []; Op (Use [V "order"]); fail_if (M "l") (-4);
       gerepilecopy (M "l") F_order (V "order"); Op (Alias F_card (V "order")); Ret 1].
(** src/gen/order.c:49-67 *)
Definition P_order_gen_cofactor : cmd :=
  seq [Op (Mark (M "l")); get_card (V "order"); Op (Use [V "order"]); fail_if (M "l") (-4);
       Op (New (V "res") [V "order"]); Op (Use [V "res"]); fail_if (M "l") (-4);
       gerepilecopy (M "l") F_order (V "order"); Op (Alias F_card F_order); Ret 1].
(** src/gen/order.c:69-90 *)
Definition P_order_gen_smooth : cmd :=
  seq [Op (Mark (M "l")); get_card (V "order"); Op (New (V "factors") [V "order"]);
       Loop (seq [Op (New (V "bits") [V "factors"]); fail_if (M "l") (-4)]);
       gerepilecopy (M "l") F_order (V "order"); Op (Alias F_card (V "order")); Ret 1].
(** src/gen/order.c:92-103 *)
Definition P_order_gen_prime : cmd :=
  seq [Op (Mark (M "l")); on_curve (V "order") []; Op (Use [V "order"]); fail_if (M "l") (-4);
       gerepilecopy (M "l") F_order (V "order"); Op (Alias F_card F_order); Ret 1].
(** src/gen/order.c:105-121 *)
Definition P_order_gen_koblitz : cmd :=
  seq [Op (Mark (M "l")); Op (Use [F_a]);
       If (seq [Op (New (V "order") []); gerepilecopy (M "l") F_order (V "order"); Op (Alias F_card F_order)])
          (order_any_from (M "l"));
       Ret 1].

(** ** gen/gens.c *)

(** src/gen/gens.c:12-20 *)
Definition gens_point (g : lval) : cmd :=
  seq [Op (Copy (V "point") g); Op (Push F_gens (V "point")); on_curve (V "po") [V "point"]; Op (Push F_gens (V "po"));
       Op (New (V "cof") [F_order; V "po"]); Op (Push F_gens (V "cof"))].
(** subgroups_new(len) for len > 1: the entries are NULL until the loop after it has set them
    (src/misc/types.h, OBJS) *)
Definition subgroups_new : cmd := seq [Op (SetNull F_full); Op (Empty F_gens)].
(** the loop of src/gen/gens.c:26-28: PARI gives no generator, one, or two *)
Definition gens_points (g : lval) : cmd := If (seq [gens_point g; If (gens_point g) Skip]) Skip.
(** src/gen/gens.c:22-30 *)
Definition gens_put (g : lval) : cmd := seq [subgroups_new; gens_points g; Op (SetUniv F_full)].
(** src/gen/gens.c:32-36 *)
Definition P_gens_gen_any : cmd := seq [get_gens (V "gens"); Op (Use [V "gens"]); gens_put (V "gens"); Ret 1].
(** src/gen/gens.c:38-47 *)
Definition P_gens_gen_one : cmd :=
  seq [Op (Mark (M "l")); get_gens (V "gens"); Op (Use [V "gens"]); fail_if (M "l") (-5); gens_put (V "gens"); Ret 1].
(** src/gen/gens.c:49-94 *)
Definition P_gens_gen_cofactor : cmd :=
  seq [Op (Mark (M "l")); Op (New (V "order") [F_order]); get_gens (V "gens"); Op (Use [V "gens"]); Op (SetNull (V "p"));
       Loop (seq [Op (Alias (V "gen") (V "gens")); on_curve (V "go") [V "gen"]; Op (Use [V "order"; V "go"]);
                  If (seq [Op (Copy (V "pp") (V "gen")); Op (New (V "c") []); Op (Empty (V "p")); Op (Push (V "p") (V "pp"));
                           Op (Push (V "p") (V "go")); Op (Push (V "p") (V "c")); Break]) Skip;
                  If (seq [Op (New (V "res") [V "go"]); Op (New (V "c") []); on_curve (V "mul") [V "gen"; V "c"]; Op (Copy (V "pp") (V "mul"));
                           Op (New (V "c") []); Op (Empty (V "p")); Op (Push (V "p") (V "pp"));
                           Op (Push (V "p") (V "res")); Op (Push (V "p") (V "c")); Break]) Skip]);
       IfNull (V "p") (seq [Op (Release (M "l")); Ret (-5)])
         (seq [subgroups_new; Loop (gens_point (V "gens")); Op (Push F_gens (V "p")); Op (SetUniv F_full); Ret 1])].

(** ** gen/point.c *)

Definition points_new : cmd := IfNull F_pts (Op (Empty F_pts)) Skip.
(** src/gen/point.c:11-24 *)
Definition P_point_gen_random : cmd :=
  seq [Op (New (V "n") []); random_range (V "which") (V "n"); Op (Use [V "which"; F_full]);
       random_range (V "mul") F_gens; on_curve (V "pt") [F_gens; V "mul"]; on_curve (V "po") [V "pt"];
       points_new; Op (Push F_pts (V "pt")); Op (Push F_pts (V "po")); Ret 1].
(** src/gen/point.c:26-65 *)
Definition P_points_gen_random : cmd :=
  seq [Loop (seq [Op (New (V "n") []); random_range (V "which") (V "n"); Op (Use [V "which"])]);
       Loop (If Continue
              (seq [points_new;
                    Loop (seq [Op (Use [F_full; F_gens]);
                               If (seq [Op (Copy (V "pt") F_gens); Op (New (V "po") [])])
                                  (seq [random_range (V "mul") F_gens; on_curve (V "pt") [F_gens; V "mul"]; on_curve (V "po") [V "pt"]]);
                               Op (Push F_pts (V "pt")); Op (Push F_pts (V "po"))])]));
       Ret 1].
(** src/gen/point.c:67-93 *)
Definition points_from_orders (orders : lval) : cmd :=
  seq [Op (Use [orders]); points_new;
       Loop (seq [Op (Mark (M "pf")); Op (Use [F_full; F_gens; orders]); Op (SetNull (V "pt"));
                  If (Op (Copy (V "pt") F_gens))
                     (If (seq [Op (New (V "mul") [F_gens; orders]); on_curve (V "pt") [F_gens; V "mul"]]) Skip);
                  IfNull (V "pt") Skip
                    (seq [Op (Gerepile (M "pf") [V "pt"]); Op (Push F_pts (V "pt")); Op (Copy (V "po") orders); Op (Push F_pts (V "po"))])])].
(** src/gen/point.c:95-137. A generator that got points in a run cut short gets new ones when the function
    runs again on the same curve, for the same primes divide its order: the old ones are
    forgotten at the start *)
Definition P_points_gen_trial : cmd :=
  seq [Op (SetNull F_pts); Op (New (V "orders") []); Loop (seq [Op (New (V "n") []); Op (Push (V "orders") (V "n"))]);
       Op (Empty (V "per_gen"));
       Loop (Loop (seq [Op (Use [F_full; F_gens; V "orders"]);
                        If (If (seq [Op (New (V "vec") [V "orders"]); Op (Push (V "per_gen") (V "vec"))])
                               (Op (New (V "vec") [V "per_gen"; V "orders"]))) Skip]));
       Loop (If (points_from_orders (V "per_gen")) Skip); Ret 1].
(** src/gen/point.c:139-148, 150-159, 161-172 *)
Definition P_points_gen_prime : cmd :=
  seq [Loop (seq [Op (Use [F_full]); subgroups_prime (V "primes") F_gens; points_from_orders (V "primes")]); Ret 1].
Definition P_points_gen_allgroups : cmd :=
  seq [Loop (seq [Op (Use [F_full]); subgroups_all (V "primes") F_gens; points_from_orders (V "primes")]); Ret 1].
Definition P_points_gen_nonprime : cmd :=
  seq [Loop (seq [Op (Use [F_full]); subgroups_nonprime (V "primes") F_gens; IfNull (V "primes") Skip (points_from_orders (V "primes"))]); Ret 1].

(** ** gen/metadata.c:9-46 *)
Definition meta_put (xs : list string) : cmd := seq (Op (Empty F_meta) :: map (fun x => Op (Push F_meta (V x))) xs).
Definition P_metadata_gen : cmd :=
  seq [Op (Mark (M "l")); read_curve; field_elementi (V "j") F_curve; field_elementi (V "disc") F_curve; Op (Use [F_field]);
       If (seq [get_embedding (V "embedding") F_field F_order; Op (New (V "frobenius") [F_field; F_order]);
                Op (New (V "d_f") [V "frobenius"; F_field]); Op (Copy (V "cm_disc") (V "d_f")); Op (Copy (V "conductor") (V "d_f"));
                Op (Gerepile (M "l") (map V ["j"; "disc"; "embedding"; "frobenius"; "cm_disc"; "conductor"]));
                meta_put ["j"; "disc"; "embedding"; "frobenius"; "cm_disc"; "conductor"]; Ret 1])
          (seq [Op (New (V "q") [F_field]); Op (New (V "frobenius") [V "q"; F_order]);
                Op (Gerepile (M "l") (map V ["j"; "disc"; "frobenius"])); meta_put ["j"; "disc"; "frobenius"]; Ret 1])].

(** ** exhaustive/ansi.c *)

(** src/exhaustive/ansi.c:30-37 and the end of each seed function *)
Definition seed_tsh : cmd :=
  seq [Op (Mark (M "tsh")); Op (New (V "t") []); Op (New (V "s") [V "t"]); Op (New (V "h") [V "t"; V "s"]);
       Op (Gerepile (M "tsh") [V "t"; V "s"; V "h"]);
       Op (Empty F_ansi); Op (Push F_ansi (V "t")); Op (Push F_ansi (V "s")); Op (Push F_ansi (V "h")); Op (SetUniv F_seed)].
(** src/exhaustive/ansi.c:39-46 *)
Definition P_ansi_gen_seed_random : cmd := seq [random_int (V "rs"); Op (Use [V "rs"]); seed_tsh; Ret 1].
(** src/exhaustive/ansi.c:48-55 *)
Definition P_ansi_gen_seed_argument : cmd := seq [seed_tsh; Ret 1].
(** src/exhaustive/ansi.c:57-74 *)
Definition P_ansi_gen_seed_input : cmd :=
  seq [Op (Mark (M "l")); Op (New (V "str") []); Op (Use [V "str"]); fail_if (M "l") 0; Op (Use [V "str"]); seed_tsh; Ret 1].
(** src/exhaustive/ansi.c:76-106 *)
Definition seed_process : cmd :=
  seq [Op (Mark (M "sp_l")); Op (Use [F_seed; F_ansi]); Op (New (V "seedi") []); Op (New (V "two_g") []);
       Loop (seq [Op (Mark (M "sp_b")); Op (New (V "inner") [V "seedi"]); Op (New (V "inner") [V "inner"; V "two_g"]);
                  Op (Use [V "inner"]); Op (Release (M "sp_b"))]);
       Op (Release (M "sp_l"))].
(** src/exhaustive/ansi.c:108-143 *)
Definition ansi_gen_equation_fp : cmd :=
  seq [Op (Mark (M "l")); Op (Use [F_seed; F_ansi]); seed_process; Op (Use [F_ansi]); Op (SetUniv (V "r"));
       Loop (seq [Op (New (V "Wi") []); Op (New (V "r") [V "r"; V "Wi"])]);
       Op (Alias F_ansi_r (V "r")); Op (New (V "r_inv") [V "r"; F_field]);
       DoWhile (seq [random_int (V "a"); Op (New (V "b2") [V "a"; V "r_inv"]); Op (Use [V "b2"; F_field])]);
       Op (New (V "b") [V "b2"; F_field]); Op (Alias F_a (V "a")); Op (Alias F_b (V "b"));
       Op (Gerepile (M "l") [F_ansi_r; F_a; F_b]); Ret 1].
(** src/exhaustive/ansi.c:145-164 *)
Definition ansi_gen_equation_f2m : cmd :=
  seq [Op (Mark (M "l")); Op (Use [F_seed; F_ansi]); seed_process; Op (New (V "ib") []); Op (Use [V "ib"]); fail_if (M "l") (-3);
       random_int (V "a"); field_ielement F_a (V "a"); field_ielement F_b (V "ib");
       Op (Gerepile (M "l") [F_a; F_b]); Ret 1].
(** src/exhaustive/ansi.c:166-176 *)
Definition P_ansi_gen_equation : cmd := If ansi_gen_equation_fp (If ansi_gen_equation_f2m (Ret INT_MIN)).

(** ** exhaustive/brainpool.c, exhaustive/brainpool_rfc.c *)

(** src/exhaustive/brainpool.c:22-28, 30-38 and 40-60: numbers that are released again *)
Definition scratch (m : string) : cmd :=
  seq [Op (Mark (M m)); Op (New (V m) []); Op (Use [V m]); Op (Release (M m))].
Definition seed_wv : cmd := seq [scratch "wv"; Op (SetUniv F_seed)].
Definition update_seed : cmd := seq [Op (Use [F_seed]); scratch "us"].
Definition brainpool_hash : cmd := seq [Op (Use [F_seed]); scratch "bh"].
(** src/exhaustive/brainpool.c:67-73, 75-81, 83-99; brainpool_rfc.c:18-28 *)
Definition P_brainpool_gen_seed : cmd := seq [seed_wv; Ret 1].
Definition P_brainpool_gen_seed_input : cmd :=
  seq [Op (Mark (M "l")); Op (New (V "str") []); Op (Use [V "str"]); fail_if (M "l") 0; Op (Use [V "str"]); seed_wv; Ret 1].
(** src/exhaustive/brainpool.c:101-143; the first iteration of the inner loop (p == c) is
    written separately. Line 117 releases the p that line 119 reads. *)
Definition P_brainpool_gen_field : cmd :=
  seq [Op (Mark (M "btop")); Op (Use [F_seed]);
       Forever (seq [If update_seed Skip; brainpool_hash; Op (New (V "c") []);
                     Op (Alias (V "p") (V "c")); Op (Mark (M "bbtop"));
                     Op (New (V "p1") [V "p"]); Op (New (V "p") [V "p1"]); Op (Use [V "p"]);
                     Loop (seq [Op (Release (M "bbtop")); Op (New (V "p1") [V "p"]); Op (New (V "p") [V "p1"]); Op (Use [V "p"])]);
                     Op (New (V "lower") []); Op (New (V "upper") []); Op (Use [V "p"; V "lower"; V "upper"]);
                     If (seq [update_seed; Op (Release (M "btop")); Continue]) Skip;
                     Op (Use [V "p"]);
                     If (seq [update_seed; Op (Release (M "btop")); Continue]) Skip;
                     Op (Copy F_field (V "p")); Op (Gerepile (M "btop") [F_field]); Break]);
       Ret 1].
(** the part of brainpool.c:145-210 and brainpool_rfc.c:32-97 up to z; [retry] is
    [brainpool_update_seed(seed->seed); avma = btop; continue] *)
Definition retry : cmd := seq [update_seed; Op (Release (M "btop")); Continue].
Definition bp_az : cmd :=
  seq [If update_seed Skip; brainpool_hash; Op (New (V "a") []); Op (New (V "am") [V "a"; F_field]); If retry Skip;
       Op (New (V "z") [V "am"; F_field]); If retry Skip].
Definition bp_done : cmd :=
  seq [Op (New (V "mod_a") [V "a"; F_field]); Op (New (V "mod_b") [V "b"; F_field]); Op (New (V "disc") [V "mod_a"; V "mod_b"]); If retry Skip;
       Op (Alias F_a (V "mod_a")); Op (Alias F_b (V "mod_b")); Op (Gerepile (M "btop") [F_a; F_b]); Break].
(** src/exhaustive/brainpool.c:145-210 *)
Definition P_brainpool_gen_equation : cmd :=
  seq [Op (Mark (M "btop")); Op (Use [F_seed]);
       Forever (seq [bp_az; update_seed; brainpool_hash; Op (New (V "b") []); Op (Use [V "b"; F_field]); If retry Skip; bp_done]);
       Ret 1].
(** src/exhaustive/brainpool_rfc.c:32-97 *)
Definition P_brainpool_rfc_gen_equation : cmd :=
  seq [Op (Mark (M "btop")); Op (Use [F_seed]);
       Forever (seq [bp_az; Op (SetNull (V "b")); Op (Mark (M "bbtop"));
                     DoWhile (seq [IfNull (V "b") Skip (Op (Release (M "bbtop"))); update_seed; brainpool_hash;
                                   Op (New (V "b") []); Op (Use [V "b"; F_field])]);
                     bp_done]);
       Ret 1].
(** src/exhaustive/brainpool.c:212-255; the numbers of the only generator, then its multiple *)
Definition P_brainpool_gen_gens : cmd :=
  seq [Op (Mark (M "l")); update_seed; brainpool_hash; Op (New (V "k") []); Op (SetUniv (V "x")); on_curve (V "Qy") [V "x"];
       Loop (seq [Op (New (V "x") [V "x"]); on_curve (V "Qy") [V "x"]]);
       If (Op (New (V "P") [V "x"; V "Qy"])) (seq [Op (Release (M "l")); Ret INT_MIN]);
       subgroups_new; Op (SetUniv F_full);
       on_curve (V "gp") [V "P"; V "k"]; Op (Push F_gens (V "gp"));
       on_curve (V "go") [V "gp"]; Op (Push F_gens (V "go"));
       Op (New (V "gc") [F_order; V "go"]); Op (Push F_gens (V "gc"));
       Op (Alias F_mult (V "k"));
       Op (Gerepile (M "l") [F_gens; F_mult]); Ret 1].

(** ** exhaustive/nums.c *)

(** src/exhaustive/nums.c:11-22 *)
Definition P_nums_gen_field : cmd :=
  seq [Op (Mark (M "l")); Op (New (V "base") []); Op (New (V "c") []); Op (New (V "p") [V "base"; V "c"]);
       Loop (seq [Op (New (V "c") [V "c"]); Op (New (V "p") [V "base"; V "c"])]);
       gerepilecopy (M "l") F_field (V "p"); Ret 1].
(** src/exhaustive/nums.c:24-27 *)
Definition P_nums_gen_a : cmd := seq [Op (New (V "m3") []); Op (New F_a [V "m3"; F_field]); Ret 1].
(** src/exhaustive/nums.c:32-61 and family.c:115-140, [b] being the static. Between gunclone and
    gclone it points to the number that has been freed *)
Definition iterate_b (b : lval) : cmd :=
  IfNull b
    (seq [Op (SetUniv (V "one")); Op (CloneOf b (V "one")); Op (New F_b [F_field]); Ret 1])
    (If (seq [Op (Copy (V "bn") b); Op (Unclone [b]); Op (CloneOf b (V "bn")); Op (New (V "bm") [V "bn"; F_field]);
              gerepilecopy (M "l") F_b (V "bm"); Ret 1])
        (seq [Op (Unclone [b]); Op (SetUniv (V "one")); Op (CloneOf b (V "one")); Op (New (V "bm") [F_field]);
              gerepilecopy (M "l") F_b (V "bm"); Ret 1])).
Definition P_nums_gen_b : cmd := seq [Op (Mark (M "l")); iterate_b G_nums_b].
(** src/exhaustive/nums.c:63-76 *)
Definition P_nums_gen_order : cmd :=
  seq [Op (Mark (M "l")); on_curve (V "order") []; Op (New (V "frobenius") [F_field; V "order"]);
       Op (New (V "twist") [V "order"; V "frobenius"]); Op (Use [V "order"; V "twist"]); fail_if (M "l") (-2);
       gerepilecopy (M "l") F_order (V "order"); Op (Alias F_card F_order); Ret 1].
(** src/exhaustive/nums.c:78-104 *)
Definition P_nums_gen_gens : cmd :=
  seq [Op (Mark (M "l")); Op (New (V "x") []); on_curve (V "Qy") [V "x"];
       Loop (seq [Op (New (V "x") [V "x"]); on_curve (V "Qy") [V "x"]]);
       Op (New (V "xm") [V "x"; F_field]); Op (New (V "P") [V "xm"; V "Qy"]);
       subgroups_new; Op (SetUniv F_full); Op (Push F_gens (V "P"));
       on_curve (V "go") [V "P"]; Op (Push F_gens (V "go"));
       Op (New (V "gc") [F_order; V "go"]); Op (Push F_gens (V "gc"));
       Op (Gerepile (M "l") [F_gens]); Ret 1].

(** ** exhaustive/family.c; the closures of family_init (clones kept to the end) are not shown *)

(** src/exhaustive/family.c:77-85 and 87-93 *)
Definition family_put_z : cmd := seq [Op (SetUniv F_seed); Op (Alias F_z (V "z")); Op (Use [F_z]); Ret 1].
Definition P_family_gen_seed_random : cmd := seq [random_int (V "z"); family_put_z].
Definition P_family_gen_seed_input : cmd := seq [input_i (V "z"); family_put_z].
(** src/exhaustive/family.c:95-110 *)
Definition P_family_gen_field : cmd :=
  seq [Op (Mark (M "l")); Op (Use [F_seed]); Op (New (V "n") [F_z]); Op (New (V "pz") [V "n"]); Op (Use [V "pz"]); fail_if (M "l") (-1);
       Op (New (V "rz") [V "n"]); Op (Use [V "rz"]); fail_if (M "l") (-1); gerepilecopy (M "l") F_field (V "pz"); Ret 1].
(** src/exhaustive/family.c:115-140 *)
Definition P_family_gen_equation_iter : cmd := seq [Op (New F_a [F_field]); Op (Mark (M "l")); iterate_b G_family_b].
(** src/exhaustive/family.c:155-172 *)
Definition P_family_gen_order : cmd :=
  seq [Op (Mark (M "l")); Op (Use [F_seed]); Op (New (V "n") [F_z]); Op (New (V "rz") [V "n"]);
       get_card (V "ord"); Op (Use [V "ord"; V "rz"]);
       If (seq [IfClone (V "ord") (gerepilecopy (M "l") F_order (V "ord")) (seq [Op (Release (M "l")); Op (Alias F_order (V "ord"))]); Ret 1])
          (seq [Op (Release (M "l")); Ret (-2)])].

(** ** cm *)

(** src/cm/cm_any.c:214-248: cm_construct_curve_subgroup *)
Definition cm_construct_curve_subgroup (x : lval) (args : list lval) : cmd :=
  seq [Op (Mark (M "cs_l")); Op (New (V "H") args); Op (New (V "roots") (V "H" :: args)); Op (SetNull (V "res")); Op (Use [V "roots"]);
       If (Op (Release (M "cs_l")))
          (seq [Op (Mark (M "cs_b"));
                Loop (seq [Op (New (V "e") (V "roots" :: args));
                           If (seq [Op (Release (M "cs_b")); Continue]) Skip;
                           Op (New (V "card") [V "e"]); Op (CloneOf (V "ecard") (V "card")); Op (Use (V "ecard" :: args));
                           If (seq [Op (Gerepile (M "cs_l") [V "e"]); Op (Alias (V "res") (V "e")); Break]) Skip;
                           Op (Release (M "cs_b"))]);
                IfNull (V "res") (Op (Release (M "cs_l"))) Skip]);
       Op (Alias x (V "res"))].
(** src/exhaustive/family.c:142-153 *)
Definition P_family_gen_equation_cm : cmd :=
  seq [Op (Use [F_seed]); Op (New (V "n") [F_z]); Op (New (V "rz") [V "n"]);
       cm_construct_curve_subgroup (V "E") [V "rz"; F_field];
       IfNull (V "E") (Ret (-3)) (seq [Op (Use [V "E"]); Op (Alias F_a (V "E")); Op (Alias F_b (V "E")); Ret 1])].
(** src/cm/cm_any.c:136-212: cm_construct_curve *)
Definition cm_construct_curve (x : lval) (args : list lval) : cmd :=
  seq [Op (Mark (M "cc_l")); Op (New (V "H") args); Op (New (V "r") (V "H" :: args)); Op (SetNull (V "res")); Op (Use [V "r"]);
       If (Op (Release (M "cc_l")))
          (seq [Loop (seq [Op (New (V "e") (V "r" :: args)); If Continue Skip;
                           If (seq [Op (New (V "g") [V "e"]); Op (New (V "mul") (V "e" :: V "g" :: args));
                                    If Skip (seq [Op (New (V "t") [V "e"]); Op (New (V "e") (V "t" :: args))]);
                                    Op (Gerepile (M "cc_l") [V "e"]); Op (Alias (V "res") (V "e")); Break])
                              (seq [Op (New (V "to") args); Op (New (V "t") [V "e"]); Op (New (V "twist") (V "t" :: args));
                                    Op (New (V "gcd") (V "to" :: args)); Op (New (V "om") (V "gcd" :: args)); Op (New (V "tm") [V "to"; V "gcd"]);
                                    Forever (seq [Op (New (V "op") [V "e"]); Op (New (V "mul") [V "e"; V "op"; V "om"]); If Break Skip;
                                                  Op (New (V "mul") [V "e"; V "op"; V "tm"]); If (seq [Op (Alias (V "e") (V "twist")); Break]) Skip;
                                                  Op (New (V "tp") [V "twist"]); Op (New (V "mul") [V "e"; V "tp"; V "tm"]); If Break Skip;
                                                  Op (New (V "mul") [V "e"; V "tp"; V "om"]); If (seq [Op (Alias (V "e") (V "twist")); Break]) Skip]);
                                    Op (Gerepile (M "cc_l") [V "e"]); Op (Alias (V "res") (V "e")); Break])]);
                IfNull (V "res") (Op (Release (M "cc_l"))) Skip]);
       Op (Alias x (V "res"))].
(** src/cm/cm_any.c:17-53: good_qdisc_minimal; the structure q with p and d is one variable. The
    iteration of the inner loop that returns is written after the others. *)
Definition good_qdisc_minimal (q order : lval) : cmd :=
  let trace := seq [Op (New (V "trace") [V "K"; V "alphas"]); Op (New (V "cand") [order; V "trace"]); Op (Use [V "cand"])] in
  seq [Op (Mark (M "gq")); Op (New (V "dd") []);
       Forever (seq [Op (Use [V "dd"]);
                     If (seq [Op (New (V "dd") [V "dd"]); Continue]) Skip;
                     Op (New (V "D") [V "dd"]); Op (New (V "K") [V "D"]); Op (New (V "alphas") [V "K"; order]);
                     Loop trace;
                     If (seq [trace; Op (Empty q); Op (Push q (V "cand")); Op (Push q (V "D")); Op (Gerepile (M "gq") [q]); Break]) Skip;
                     Op (New (V "d1") [V "dd"]); Op (Gerepile (M "gq") [V "d1"]); Op (Alias (V "dd") (V "d1"))])].
Definition cm_put (p : lval) : cmd :=
  seq [Op (Alias F_field p); Op (Use [V "E"]); Op (Alias F_a (V "E")); Op (Alias F_b (V "E")); new_curve (V "E"); Ret 1].
(** src/cm/cm_any.c:250-269 *)
Definition P_cm_gen_curve_any : cmd :=
  seq [Op (Mark (M "l")); Op (New (V "order") []); good_qdisc_minimal (V "q") (V "order"); Op (Use [V "q"]);
       cm_construct_curve (V "E") [V "order"; V "q"];
       IfNull (V "E") (seq [Op (Release (M "l")); Ret (-3)]) (cm_put (V "q"))].
(** src/cm/cm_prime.c:14-51: add_primes. [Sp] is the array; it is malloc'ed *)
Definition add_primes (r order : lval) : cmd :=
  seq [Op (New (V "logN") [order]); Op (New (V "rlog") [r; V "logN"]); Op (New (V "rplog") [r; V "logN"]);
       Op (New (V "iter") [V "rlog"; V "rplog"]);
       Loop (seq [Op (New (V "prime") [V "iter"]); Op (Use [order; V "prime"]);
                  If (seq [Op (New (V "pstar") [V "prime"]); Op (Push (V "Sp") (V "pstar"))]) Skip])].
(** src/cm/cm_prime.c:65-137: qdisc_next; qdisc->t, never read, is left out *)
Definition qdisc_next : cmd :=
  seq [Op (New (V "logN'") [V "order"]); Op (New (V "rlog2") [V "qr"; V "logN'"]); Op (New (V "imax") []); Op (Use [V "qi"; V "imax"]);
       If (seq [add_primes (V "qr") (V "order"); Op (New (V "imax") [])]) Skip;
       Op (Mark (M "qb"));
       Op (SetNull (V "found"));
       Forever (seq [Loop (seq [Op (Use [V "qi"; V "imax"]); Op (SetUniv (V "pprod"));
                                Loop (If (Op (New (V "pprod") [V "pprod"; V "Sp"])) Skip);
                                Op (New (V "absp") [V "pprod"]); Op (Use [V "absp"; V "rlog2"]);
                                If (seq [Op (New (V "x") [V "absp"; V "order"]);
                                         If (seq [Op (New (V "i1") [V "qi"]); Op (Gerepile (M "qb") [V "i1"]); Op (Alias (V "qi") (V "i1")); Continue]) Skip;
                                         Op (New (V "pp1") [V "order"; V "x"]); Op (New (V "pp2") [V "order"; V "x"]);
                                         Op (Use [V "pp1"; V "pp2"]);
                                         If (seq [If (Op (Alias (V "qp") (V "pp1"))) (Op (Alias (V "qp") (V "pp2")));
                                                  Op (Alias (V "qD") (V "pprod")); Op (New (V "qi") [V "qi"]);
                                                  Op (SetUniv (V "found")); Break]) Skip]) Skip;
                                Op (New (V "i1") [V "qi"]); Op (Gerepile (M "qb") [V "i1"]); Op (Alias (V "qi") (V "i1"))]);
                     IfNull (V "found") Skip Break;
                     Op (New (V "qr") [V "qr"]); add_primes (V "qr") (V "order");
                     Op (New (V "rlog2") [V "qr"; V "logN'"]); Op (New (V "imax") []); Op (Mark (M "qb"))])].
(** src/cm/cm_prime.c:53-63 and 141-160 *)
Definition P_cm_gen_curve_prime : cmd :=
  seq [Op (New (V "order") []); Op (SetUniv (V "qD")); Op (SetUniv (V "qp")); Op (SetUniv (V "qr")); Op (SetUniv (V "qi")); Op (Empty (V "Sp"));
       Forever (seq [qdisc_next; cm_construct_curve (V "E") [V "order"; V "qD"; V "qp"]; IfNull (V "E") Skip Break]);
       cm_put (V "qp")].
(** src/cm/cm_any.c:271-276 *)
Definition P_cm_gen_order : cmd := seq [Op (New F_order []); Ret 1].
(** src/cm/anomalous.c:40-71 *)
Definition anomalous_prime (x : lval) : cmd :=
  seq [Op (Mark (M "ap_l")); Op (New (V "last") [G_disc]); Op (New (V "lower") [V "last"; G_disc]); Op (New (V "upper") [V "last"; G_disc]);
       Op (New (V "lb") [V "lower"]); Op (New (V "ub") [V "upper"]); Op (New (V "range") [V "lb"; V "ub"]); Op (Mark (M "ap_b"));
       DoWhile (seq [Op (New (V "b") [V "range"]); Op (New (V "middle") [G_disc; V "b"]); Op (New (V "first") [V "middle"; V "b"]);
                     Op (New (V "p") [V "first"; V "middle"; V "last"]); Op (Gerepile (M "ap_b") [V "p"; V "last"]); Op (Use [V "p"])]);
       gerepilecopy (M "ap_l") x (V "p")].
(** src/cm/anomalous.c:73-89; the NULL returned if the Kronecker symbol is 0 is left out *)
Definition anomalous_c (x : lval) : cmd :=
  seq [Op (Mark (M "ac_l")); Op (Use [G_disc; F_field]); Op (Mark (M "ac_b"));
       DoWhile (seq [Op (New (V "c") [F_field]); Op (Gerepile (M "ac_b") [V "c"]); Op (Use [V "c"; F_field])]);
       gerepilecopy (M "ac_l") x (V "c")].
(** src/cm/anomalous.c:91-105 *)
Definition P_anomalous_gen_field : cmd :=
  seq [Op (Mark (M "l")); DoWhile (seq [anomalous_prime (V "ap"); Op (Gerepile (M "l") [V "ap"]); Op (Use [G_disc; V "ap"])]);
       gerepilecopy (M "l") F_field (V "ap"); Ret 1].
(** src/cm/anomalous.c:107-122; the NULL of anomalous_c is the subject of C49 *)
Definition P_anomalous_gen_equation : cmd :=
  seq [Op (Mark (M "l")); anomalous_c (V "cc"); Op (New (V "au") [G_disc; F_field]); Op (New (V "al") [G_disc; F_field]);
       Op (New (V "aa") [V "au"; V "al"]); Op (New F_a [V "cc"; V "aa"]); Op (New F_b [V "cc"; V "aa"]);
       Op (Gerepile (M "l") [F_a; F_b]); Ret 1].
(** src/cm/anomalous.c:124-129; obj_insert keeps a clone *)
Definition P_anomalous_gen_order : cmd := seq [Op (Copy F_order F_field); Op (Use [F_curve]); Op (CloneOf F_card F_order); Ret 1].
(** src/cm/supersingular.c:7-38 *)
Definition P_supersingular_gen_equation : cmd :=
  seq [Op (Use [F_field]); If (Ret (-2)) Skip;
       If (seq [Op (New (V "t") [F_field]); Op (New F_a [V "t"; F_field]); Op (New (V "t") []); Op (New F_b [V "t"; F_field]); Ret 1]) Skip;
       Op (New (V "q") []); Loop (Op (New (V "q") [V "q"; F_field]));
       If (seq [Op (New (V "t") []); Op (New F_a [V "t"; F_field]); Op (New (V "t") []); Op (New F_b [V "t"; F_field]); Ret 1])
          (seq [Op (New (V "H") [V "q"]); Op (New (V "r") [V "H"; F_field]); Op (New F_a [V "r"; F_field]); Op (New F_b [F_a]); Ret 1])].
(** src/cm/supersingular.c:40-45 *)
Definition P_supersingular_gen_order : cmd := seq [Op (New F_order [F_field]); Op (Use [F_curve]); Op (CloneOf F_card F_order); Ret 1].

(** The function a plan names. *)
Definition gen_prog (g : gen_f) : cmd :=
  match g with
  | gen_skip => Ret 1   (** src/misc/types.c:11 *)
  | field_gen_random => P_field_gen_random | field_gen_input => P_field_gen_input
  | a_gen_random => P_gen_random F_a | a_gen_input => P_gen_input F_a | a_gen_zero | a_gen_one => P_gen_const F_a
  | b_gen_random => P_gen_random F_b | b_gen_input => P_gen_input F_b | b_gen_one => P_gen_const F_b
  | ansi_gen_seed_argument => P_ansi_gen_seed_argument | ansi_gen_seed_random => P_ansi_gen_seed_random
  | ansi_gen_seed_input => P_ansi_gen_seed_input | ansi_gen_equation => P_ansi_gen_equation
  | brainpool_gen_seed_argument | brainpool_gen_seed_random
  | brainpool_rfc_gen_seed_argument | brainpool_rfc_gen_seed_random => P_brainpool_gen_seed
  | brainpool_gen_seed_input | brainpool_rfc_gen_seed_input => P_brainpool_gen_seed_input
  | brainpool_gen_field => P_brainpool_gen_field | brainpool_gen_equation => P_brainpool_gen_equation
  | brainpool_gen_gens => P_brainpool_gen_gens | brainpool_rfc_gen_equation => P_brainpool_rfc_gen_equation
  | nums_gen_field => P_nums_gen_field | nums_gen_a => P_nums_gen_a | nums_gen_b => P_nums_gen_b
  | nums_gen_order => P_nums_gen_order | nums_gen_gens => P_nums_gen_gens
  | family_gen_seed_random => P_family_gen_seed_random | family_gen_seed_input => P_family_gen_seed_input
  | family_gen_field => P_family_gen_field | family_gen_equation_cm => P_family_gen_equation_cm
  | family_gen_equation_iter => P_family_gen_equation_iter | family_gen_order => P_family_gen_order
  | order_gen_prime => P_order_gen_prime | order_gen_cofactor => P_order_gen_cofactor | order_gen_smooth => P_order_gen_smooth
  | order_gen_koblitz => P_order_gen_koblitz | order_gen_any => P_order_gen_any
  | gens_gen_one => P_gens_gen_one | gens_gen_cofactor => P_gens_gen_cofactor | gens_gen_any => P_gens_gen_any
  | curve_gen_any => P_curve_gen_any | curve_gen_any_twist => P_curve_gen_any_twist | metadata_gen => P_metadata_gen
  | points_gen_random => P_points_gen_random | point_gen_random => P_point_gen_random | points_gen_prime => P_points_gen_prime
  | points_gen_nonprime => P_points_gen_nonprime | points_gen_allgroups => P_points_gen_allgroups | points_gen_trial => P_points_gen_trial
  | cm_gen_curve_prime => P_cm_gen_curve_prime | cm_gen_curve_any => P_cm_gen_curve_any | cm_gen_order => P_cm_gen_order
  | anomalous_gen_field => P_anomalous_gen_field | anomalous_gen_equation => P_anomalous_gen_equation
  | anomalous_gen_order => P_anomalous_gen_order
  | supersingular_gen_equation => P_supersingular_gen_equation | supersingular_gen_order => P_supersingular_gen_order
  end.

(** ** Checks *)

Definition check_prog (f : check_f) : cmd :=
  match f with
  | curve_check_nonzero => (** src/gen/curve.c:47-53 *)
      seq [Op (Use [F_curve]); If (Ret (-3)) (Ret 1)]
  | hex_check_param => (** src/gen/hex.c:12-41 and 43-124, at the stage POINTS *)
      seq [IfNull F_seed Skip (Op (Use [F_seed])); If (Op (Use [F_field])) Skip; field_elementi (V "ha") F_a; field_elementi (V "hb") F_b; Op (Use [V "ha"; V "hb"; F_order]);
           Loop (seq [Op (Use [F_full]); field_elementi (V "hx") F_gens; field_elementi (V "hy") F_gens; Op (Use [V "hx"; V "hy"])]);
           IfNull F_pts Skip (Loop (seq [field_elementi (V "hx") F_pts; field_elementi (V "hy") F_pts; Op (Use [V "hx"; V "hy"])]));
           If (Ret 1) (Ret (-6))]
  | brainpool_check_order => (** src/exhaustive/brainpool.c:269-275 *)
      seq [Op (Use [F_order; F_field]); If (Ret 1) (Ret (-4))]
  | gens_check_anomalous => (** src/gen/gens.c:96-104 *)
      seq [Loop (seq [Op (Use [F_full; F_field; F_gens]); If (Ret (-5)) Skip]); Ret 1]
  | brainpool_check_gens => (** src/exhaustive/brainpool.c:257-267 *)
      seq [Op (Use [F_full]); Op (Mark (M "l")); Op (New (V "min") [F_gens]); get_embedding (V "emb") F_field F_gens; Op (Use [V "min"; V "emb"]);
           fail_if (M "l") (-5); Op (Release (M "l")); Ret 1]
  end.

(** ** Undo hooks *)

(** PARI's obj_free: frees what is cached *)
Definition obj_free : cmd := seq [Op (Use [F_curve]); Op (Free [F_card; F_cgens])].
Definition unroll_prog (u : unroll_f) : cmd :=
  match u with
  | unroll_skip => Skip                (** src/misc/types.c:15 *)
  | seed_unroll => free_seed           (** src/gen/seed.c:64-67 *)
  | curve_unroll =>                    (** src/gen/curve.c:55-61; without a curve nothing is cached *)
      IfNull F_curve (seq [Op (SetNull F_card); Op (SetNull F_cgens)]) (seq [obj_free; Op (SetNull F_curve)])
  | gens_unroll => free_gens           (** src/gen/gens.c:134-139 *)
  | points_unroll =>                   (** src/gen/point.c:174-182 *)
      IfNull F_gens Skip (seq [Op (Use [F_full]); Op (Free [F_pts])])
  end.

(** ** The curve record *)

Definition all_fields : list lval :=
  [F_seed; F_ansi; F_ansi_r; F_mult; F_z; F_field; F_a; F_b; F_curve; F_order; F_card; F_cgens; F_gens; F_pts; F_meta; F_full].

(** src/obj/curve.c:36-65: curve_free *)
Definition curve_free : cmd :=
  seq [free_seed; free_gens; IfNull F_curve Skip (seq [obj_free; Op (SetNull F_curve)]);
       Op (Free [F_field]); Op (Free [F_a]); Op (Free [F_b]); Op (Free [F_order])].

(** src/io/output.c:51-176: what printing a curve reads; [md] is cfg->metadata *)
Definition output (md : bool) : cmd :=
  seq [Op (Use [F_field]); IfNull F_seed Skip (Op (Use [F_seed])); Op (Use [F_a; F_b; F_order]);
       IfNull F_gens Skip (Op (Use [F_full; F_gens])); IfNull F_pts Skip (Op (Use [F_pts]));
       if md then IfNull F_meta Skip (Op (Use [F_meta])) else Skip].
(** src/misc/obj.h, curve_new: a record full of NULL *)
Definition new_record : cmd := seq (map (fun x => Op (SetNull x)) all_fields).
(** src/exhaustive/nums.c:107-111 and src/exhaustive/family.c:174-194: nums_quit and family_quit *)
Definition free_statics : cmd := seq [Op (Free [G_nums_b]); Op (Free [G_family_b])].
