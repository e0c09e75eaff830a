(** What is known at the start of every stage, for every procedure, and the check that the stages
    keep it. *)
From Coq Require Import Ascii String.
From Verif Require Import Base Str_Model Cli_Model Plan_Model Plan_Spec Stk_Model Stk_Gens Stk_Check.

(** stack_tops from i on, before the stage s *)
Definition tops_from (i s : nat) : list mark := map Top (List.seq i (s - i)).
(** a number made at the stage k *)
Definition made (x : lval) (k : nat) (dep : list lval) (s : nat) : list (lval * aval) :=
  if k <? s then [(x, AVal false [] dep (Some (tops_from (S k) s)))] else [].
Definition seeded (p : procedure) : bool :=
  match p with PAnsi | PBrainpool | PBrainpoolRfc | PFamily => true | _ => false end.
(** the stage at which what is there before the stage s was made; the twist is a new curve over a
    copy of the field *)
Definition stage_field (p : procedure) (s : nat) : nat :=
  match p with PCm => 4 | PTwist => if s <=? 4 then 1 else 4 | _ => 1 end.
Definition stage_a (p : procedure) (s : nat) : nat :=
  match p with PCm => 4 | PTwist => if s <=? 4 then 2 else 4 | PPlain | PNums => 2 | _ => 3 end.
Definition stage_b (p : procedure) (s : nat) : nat :=
  match p with PCm => 4 | PTwist => if s <=? 4 then 3 else 4 | _ => 3 end.

(** the statics *)
Definition statics (p : procedure) (ms : list mark) : list (lval * aval) :=
  [(G_nums_b, match p with PNums => AVal true [G_nums_b] [] (Some ms) | _ => ANull end);
   (G_family_b, match p with PFamily => AVal true [G_family_b] [] (Some ms) | _ => ANull end)]
  ++ [(G_saved, ANull)]
  ++ match p with PAnomalous => [(G_disc, AVal false [] [] (Some ms))] | _ => [] end.
Definition table (p : procedure) (s : nat) : astate :=
  St (  (if seeded p then made F_seed 0 [] s else [(F_seed, ANull)])
     ++ match p with PAnsi => made F_ansi 0 [] s | PFamily => made F_z 0 [] s | _ => [] end
     ++ made F_field (stage_field p s) [] s ++ made F_a (stage_a p s) [] s ++ made F_b (stage_b p s) [] s
     ++ (if s <=? 4 then [(F_curve, ANull); (F_card, ANull); (F_cgens, ANull)]
         else made F_curve 4 [] s ++ [(F_card, AVal true [F_card] [] (Some (tops_from 6 s))); (F_cgens, AVal true [F_cgens] [] (Some (tops_from 5 s)))])
     ++ (if s <=? 5 then [(F_order, AVal true [] [] None)] else made F_order 5 [] s)
     ++ (if s <=? 6 then [(F_gens, ANull)] else made F_gens 6 [F_cgens] s ++ made F_full 6 [] s)
     ++ (if s <=? 7 then [(F_pts, ANull)] else [(F_pts, AVal true [] [F_cgens] (Some (tops_from 8 s)))])
     ++ statics p (tops_from 0 s))
     (map (fun i => (Top i, tops_from i s)) (List.seq 0 s)).
(** with the metadata *)
Definition at_stage (p : procedure) (md : bool) (s : nat) : astate :=
  if (s =? 9) && md then St ((F_meta, AVal false [] [] (Some [])) :: avs (table p 9)) (ams (table p 9)) else table p s.

(** ** The stages of the plans, see Plan_Spec.want *)
Definition orders : list gen_f := [order_gen_prime; order_gen_cofactor; order_gen_smooth; order_gen_koblitz; order_gen_any].
Definition points : list gen_f := [point_gen_random; points_gen_random; points_gen_prime; points_gen_nonprime; points_gen_allgroups; gen_skip].
Definition gens_at (p : procedure) (s : nat) : list gen_f :=
  match s with
  | 0 => match p with
         | PAnsi => [ansi_gen_seed_argument; ansi_gen_seed_random; ansi_gen_seed_input]
         | PBrainpool => [brainpool_gen_seed_argument; brainpool_gen_seed_random; brainpool_gen_seed_input]
         | PBrainpoolRfc => [brainpool_rfc_gen_seed_argument; brainpool_rfc_gen_seed_random; brainpool_rfc_gen_seed_input]
         | PFamily => [family_gen_seed_random; family_gen_seed_input]
         | _ => [gen_skip]
         end
  | 1 => match p with
         | PPlain | PTwist | PAnsi | PSupersingular => [field_gen_random; field_gen_input]
         | PBrainpool | PBrainpoolRfc => [brainpool_gen_field]
         | PNums => [nums_gen_field] | PFamily => [family_gen_field] | PAnomalous => [anomalous_gen_field] | PCm => [gen_skip]
         end
  | 2 => match p with
         | PPlain | PTwist => [a_gen_one; a_gen_zero; a_gen_random; a_gen_input]
         | PNums => [nums_gen_a] | _ => [gen_skip]
         end
  | 3 => match p with
         | PPlain | PTwist => [b_gen_one; b_gen_random; b_gen_input]
         | PAnsi => [ansi_gen_equation] | PBrainpool => [brainpool_gen_equation] | PBrainpoolRfc => [brainpool_rfc_gen_equation]
         | PNums => [nums_gen_b] | PFamily => [family_gen_equation_cm; family_gen_equation_iter]
         | PAnomalous => [anomalous_gen_equation] | PSupersingular => [supersingular_gen_equation] | PCm => [gen_skip]
         end
  | 4 => match p with PTwist => [curve_gen_any_twist] | PCm => [cm_gen_curve_prime; cm_gen_curve_any] | _ => [curve_gen_any] end
  | 5 => match p with
         | PPlain | PTwist | PAnsi => orders
         | PBrainpool | PBrainpoolRfc => [order_gen_prime]
         | PNums => [nums_gen_order] | PFamily => [family_gen_order] | PCm => [cm_gen_order]
         | PAnomalous => [anomalous_gen_order] | PSupersingular => [supersingular_gen_order]
         end
  | 6 => match p with
         | PPlain | PTwist | PAnsi => [gens_gen_one; gens_gen_cofactor; gens_gen_any]
         | PBrainpool | PBrainpoolRfc => [brainpool_gen_gens]
         | PNums => [nums_gen_gens] | PFamily => [gens_gen_any]
         | PCm | PAnomalous | PSupersingular => [gens_gen_one; gens_gen_any]
         end
  | 7 => points
  | _ => []
  end.
Definition checks_lists (p : procedure) (s : nat) : list (list check_f) :=
  match s with
  | 4 => [[curve_check_nonzero]]
  | 5 => [match p with PBrainpool | PBrainpoolRfc => [brainpool_check_order] | _ => [] end]
  | 6 => [match p with PBrainpool | PBrainpoolRfc | PNums => [gens_check_anomalous; brainpool_check_gens] | _ => [] end]
  | 7 => [[]; [hex_check_param]]
  | _ => [[]]
  end.
(** the undo hooks above the stage 0 *)
Definition hook (i : nat) : option unroll_f :=
  match i with
  | 1 | 2 | 3 | 5 => Some unroll_skip | 4 => Some curve_unroll | 6 => Some gens_unroll | 7 => Some points_unroll
  | _ => None
  end.

Section Check.
Variable fg : list lval.
Variable cuts : bool.
Variable tab : nat -> astate.     (** what is known before a stage *)
Variable first : nat.             (** the stage the engine starts at *)
Variable once : bool.             (** whether the first failure ends the run: retry is 1, otherwise 0 *)
Variable lost : option astate.    (** what is known if the run fails; None: it does not *)

(** the hooks of the stages i, i-1, ..., n+1 *)
Fixpoint hooks (i n : nat) (a : astate) : option astate :=
  match i with
  | O => Some a
  | S j =>
      if n <? i then
        match hook i with
        | None => hooks j n a
        | Some u => match aexec fg false (unroll_prog u) a with
                    | Some (Outs (Some b) None None None []) => hooks j n b
                    | _ => None
                    end
        end
      else Some a
  end.
(** going back from s to n *)
Definition goes_back (s n : nat) (a : astate) : bool :=
  match hooks s n a with
  | None => false
  | Some b => has (Top n) b && aleq (arelease (Top n) b) (tab n)
  end.
Definition stops (a : astate) : bool := match lost with Some l => aleq a l | None => false end.
Definition fails (s : nat) (d : Z) (a : astate) : bool :=
  if (d =? INT_MIN)%Z || (Z.of_nat s + d <? 0)%Z || once then stops a
  else (d <=? 0)%Z && goes_back s (Nat.max first (Z.to_nat (Z.of_nat s + d))) a.
(** the checks, aiming at the state [goal] *)
Fixpoint checks (goal : astate) (s : nat) (cs : list check_f) (a : astate) : bool :=
  match cs with
  | [] => aleq a goal
  | c :: cs =>
      match aop fg (Mark (M "ctop")) a with
      | None => false
      | Some a0 =>
          match aexec fg false (check_prog c) a0 with
          | Some (Outs None None None ct rt) =>
              match ct with None => true | Some b => stops b end &&
              forallb (fun e => match aop fg (Release (M "ctop")) (snd e) with
                                | None => false
                                | Some b => if (fst e <=? 0)%Z then fails s (fst e) b else checks goal s cs b
                                end) rt
          | _ => false
          end
      end
  end.
Definition after (goal : astate) (s : nat) (cs : list check_f) (d : Z) (a : astate) : bool :=
  if (d <=? 0)%Z then fails s d a else (d =? 1)%Z && checks goal s cs a.
Definition stage_ok (goal : astate) (s : nat) (g : gen_f) (cs : list check_f) : bool :=
  match aop fg (Mark (Top s)) (tab s) with
  | None => false
  | Some a0 =>
      match aexec fg cuts (gen_prog g) a0 with
      | Some (Outs None None None ct rt) =>
          match ct with None => true | Some b => fails s (Z.of_nat first - Z.of_nat s) b end &&
          forallb (fun e => after goal s cs (fst e) (snd e)) rt
      | _ => false
      end
  end.
End Check.

Section Cases.
Variable fg : list lval.
Variable cuts : bool.
Variable p : procedure.
(** the stages of all plans of the procedure, with the state aimed at *)
Definition cases : list (nat * gen_f * list check_f * astate) :=
  flat_map (fun s => flat_map (fun g => map (fun cs => (s, g, cs, table p (S s))) (checks_lists p s)) (gens_at p s)) (List.seq 0 8)
  ++ [(8, gen_skip, [], at_stage p false 9); (8, metadata_gen, [], at_stage p true 9)].
Definition whatever : option astate := Some (St [] []).
Definition case_ok (c : nat * gen_f * list check_f * astate) : bool :=
  let '(s, g, cs, goal) := c in stage_ok fg cuts (table p) 0 false whatever goal s g cs.
Definition bad_cases : list (nat * gen_f * list check_f) := map fst (filter (fun c => negb (case_ok c)) cases).

(** between the curves *)
Definition rest : astate := St (statics p []) [].
Definition leads (c : cmd) (a b : astate) : bool :=
  match aexec fg false c a with Some (Outs (Some a') None None None []) => aleq a' b | _ => false end.
Definition curves_ok : bool :=
  leads new_record rest (table p 0) && leads free_statics rest rest &&
  forallb (fun md => leads (seq [output md; curve_free]) (at_stage p md 9) rest) [true; false].
End Cases.
