(** A checker for the programs of Stk_Model: an abstract interpreter that tells, for every run of
    a program whatever the oracle answers, which numbers are still there. Nothing here is part of
    the model; what counts is [aexec_sound]. *)
From Coq Require Import Ascii String.
From Verif Require Import Base Stk_Model.

Fixpoint linb (x : lval) (l : list lval) : bool :=
  match l with [] => false | y :: l => leqb x y || linb x l end.
Fixpoint minb (x : mark) (l : list mark) : bool :=
  match l with [] => false | y :: l => meqb x y || minb x l end.
Definition lunion (l k : list lval) : list lval := l ++ filter (fun x => negb (linb x l)) k.
Definition minter (l k : list mark) : list mark := filter (fun m => minb m k) l.
Definition lincl (l k : list lval) : bool := forallb (fun x => linb x k) l.
Definition mincl (l k : list mark) : bool := forallb (fun m => minb m k) l.
Definition madd (m : mark) (l : list mark) : list mark := if minb m l then l else m :: l.

(** What is known of a variable: it is NULL; or: it may be NULL, its clones and its dependencies
    come from these places, and - if [life] is there - everything it refers to is live, what lies on the
    stack being older than these marks. *)
Inductive aval := ANull | AVal (nul : bool) (own dep : list lval) (life : option (list mark)).
(** Variables; marks that are not above the stack, and marks not below them. *)
Record astate := St { avs : list (lval * aval); ams : list (mark * list mark) }.

Fixpoint aget (x : lval) (l : list (lval * aval)) : option aval :=
  match l with [] => None | (y, v) :: l => if leqb x y then Some v else aget x l end.
Fixpoint mget (m : mark) (l : list (mark * list mark)) : option (list mark) :=
  match l with [] => None | (y, v) :: l => if meqb m y then Some v else mget m l end.
Definition arem (x : lval) (l : list (lval * aval)) : list (lval * aval) := filter (fun e => negb (leqb (fst e) x)) l.
Definition aset (x : lval) (v : aval) (a : astate) : astate := St ((x, v) :: arem x (avs a)) (ams a).

Definition vjoin (v k : aval) : aval :=
  match v, k with
  | ANull, ANull => ANull
  | ANull, AVal _ o d f | AVal _ o d f, ANull => AVal true o d f
  | AVal n o d f, AVal n' o' d' f' =>
      AVal (n || n') (lunion o o') (lunion d d')
           (match f, f' with Some m, Some m' => Some (minter m m') | _, _ => None end)
  end.
Definition vleq (v k : aval) : bool :=
  match v, k with
  | ANull, ANull => true
  | ANull, AVal n _ _ _ => n
  | AVal _ _ _ _, ANull => false
  | AVal n o d f, AVal n' o' d' f' =>
      implb n n' && lincl o o' && lincl d d' &&
      match f, f' with _, None => true | Some m, Some m' => mincl m' m | None, Some _ => false end
  end.
Definition ajoin (a b : astate) : astate :=
  St (flat_map (fun e => match aget (fst e) (avs b) with Some v => [(fst e, vjoin (snd e) v)] | None => [] end) (avs a))
     (flat_map (fun e => match mget (fst e) (ams b) with Some l => [(fst e, minter (snd e) l)] | None => [] end) (ams a)).
Definition aleq (a b : astate) : bool :=
  forallb (fun e => match aget (fst e) (avs a) with Some v => vleq v (snd e) | None => false end) (avs b) &&
  forallb (fun e => match mget (fst e) (ams a) with Some l => mincl (snd e) l | None => false end) (ams b).

Section Ops.
Variable fg : list lval.   (** variables that may be read when stale; F_full when NULL *)
Definition stale_ok (x : lval) : bool := linb x fg && negb (leqb x F_full).
Definition null_ok (x : lval) : bool := linb x fg && leqb x F_full.

Definition ause1 (a : astate) (x : lval) : bool :=
  match aget x (avs a) with
  | Some (AVal n _ _ f) => (negb n || null_ok x) && match f with Some _ => true | None => stale_ok x end
  | Some ANull => null_ok x
  | None => false
  end.
Definition apeek1 (a : astate) (x : lval) : bool :=
  match aget x (avs a) with
  | Some ANull => true
  | Some (AVal _ _ _ f) => match f with Some _ => true | None => stale_ok x end
  | None => false
  end.
Definition aown (a : astate) (x : lval) : list lval :=
  match aget x (avs a) with Some (AVal _ o _ _) => o | _ => [] end.
Definition adep (a : astate) (x : lval) : list lval :=
  match aget x (avs a) with Some (AVal _ o d _) => lunion o d | _ => [] end.
Definition alive (a : astate) (x : lval) : bool :=
  match aget x (avs a) with Some (AVal _ _ _ (Some _)) => true | _ => false end.
Definition akill (k : list lval) (v : aval) : aval :=
  match v with
  | ANull => ANull
  | AVal n o d f => if existsb (fun x => linb x o || linb x d) k then AVal n o d None else v
  end.
Definition afree (xs : list lval) (a : astate) : astate :=
  let k := flat_map (aown a) xs in
  St (map (fun e => (fst e, akill k (snd e))) (avs a)) (ams a).
Definition arelease (m : mark) (a : astate) : astate :=
  St (map (fun e => (fst e, match snd e with
                            | AVal n o d (Some ms) => AVal n o d (if minb m ms then Some ms else None)
                            | v => v
                            end)) (avs a))
     (filter (fun e => minb m (snd e)) (ams a)).
Definition has (m : mark) (a : astate) : bool := match mget m (ams a) with Some _ => true | None => false end.
Definition everywhere (a : astate) : option (list mark) := Some (map fst (ams a)).

(** after Hand *)
Definition ahand (y : lval) (xs : list lval) (v : aval) : aval :=
  match v with ANull => ANull | AVal n o d f => AVal n (map (handed y xs) o) (map (handed y xs) d) f end.
Definition apiece (a : astate) (y : lval) (xs : list lval) (x : lval) : aval :=
  match aget x (avs a) with
  | Some (AVal _ o d f) => AVal false (map (handed y xs) o) (map (handed y xs) d) f
  | _ => AVal false [] [] (everywhere a)
  end.
Definition known (a : astate) (x : lval) : bool := match aget x (avs a) with Some _ => true | None => false end.

Definition aop (o : op) (a : astate) : option astate :=
  match o with
  | New x args =>
      if forallb (ause1 a) args then
        let d := flat_map (adep a) args in
        Some (aset x (AVal false [] d (if forallb (alive a) args || match d with [] => true | _ => false end then Some [] else None)) a)
      else None
  | Copy x y => if ause1 a y then Some (aset x (AVal false [] [] (Some [])) a) else None
  | CloneOf x y => if ause1 a y then Some (aset x (AVal false [x] [] (everywhere a)) a) else None
  | Free xs =>
      if forallb (apeek1 a) xs then Some (fold_left (fun a x => aset x ANull a) xs (afree xs a)) else None
  | Unclone xs => if forallb (ause1 a) xs then Some (afree xs a) else None
  | Alias x y => match aget y (avs a) with Some v => Some (aset x v a) | None => Some (St (arem x (avs a)) (ams a)) end
  | SetNull x => Some (aset x ANull a)
  | SetUniv x | Empty x => Some (aset x (AVal false [] [] (everywhere a)) a)
  | Push x y =>
      match aget x (avs a), aget y (avs a) with
      | Some (AVal false o d f), Some (AVal false o' d' f') =>
          Some (aset x (vjoin (AVal false o d f) (AVal false o' d' f')) a)
      | _, _ => None
      end
  | Use xs => if forallb (ause1 a) xs then Some a else None
  | Mark m =>
      Some (St (map (fun e => (fst e, match snd e with AVal n o d (Some ms) => AVal n o d (Some (madd m ms)) | v => v end)) (avs a))
               ((m, [m]) :: map (fun e => (fst e, madd m (snd e))) (filter (fun e => negb (meqb (fst e) m)) (ams a))))
  | Release m => if has m a then Some (arelease m a) else None
  | Gerepile m xs =>
      if forallb (ause1 a) xs && has m a then
        Some (fold_left (fun a x => aset x (AVal false [] [] (Some [])) a) xs (arelease m a))
      else None
  | Hand y xs =>
      if forallb (known a) (y :: xs) && negb (linb y xs) then
        let v := fold_left (fun v x => vjoin v (apiece a y xs x)) xs (apiece a y xs y) in
        Some (St ((y, v) :: arem y (map (fun e => (fst e, if linb (fst e) xs then ANull else ahand y xs (snd e))) (avs a))) (ams a))
      else None
  end.
End Ops.

(** Outcomes of a program: the state after it, at a break, at a continue, where it may be cut, and
    at its returns. *)
Record outs := Outs { o_nx : option astate; o_bk : option astate; o_cn : option astate; o_ct : option astate; o_rt : list (Z * astate) }.
Definition ojoin (x y : option astate) : option astate :=
  match x, y with None, y => y | x, None => x | Some a, Some b => Some (ajoin a b) end.
Fixpoint rput (d : Z) (a : astate) (l : list (Z * astate)) : list (Z * astate) :=
  match l with [] => [(d, a)] | (d', b) :: l => if (d =? d')%Z then (d', ajoin a b) :: l else (d', b) :: rput d a l end.
Definition rjoin (l k : list (Z * astate)) : list (Z * astate) := fold_right (fun e acc => rput (fst e) (snd e) acc) k l.
Definition merge (x y : outs) : outs :=
  Outs (ojoin (o_nx x) (o_nx y)) (ojoin (o_bk x) (o_bk y)) (ojoin (o_cn x) (o_cn y)) (ojoin (o_ct x) (o_ct y)) (rjoin (o_rt x) (o_rt y)).
Definition is_local (x : lval) : bool := match x with V _ => true | _ => false end.
Definition is_top (m : mark) : bool := match m with M _ => false | _ => true end.
(** without the local variables, which nobody can read after a cut *)
Definition proj (a : astate) : astate :=
  St (filter (fun e => negb (is_local (fst e))) (avs a)) (filter (fun e => is_top (fst e)) (ams a)).

(** a state kept by the body [f] of a loop, above [inv], and the outcomes of the body from there *)
Fixpoint settle (f : astate -> option outs) (n : nat) (inv : astate) : option (astate * outs) :=
  match n with
  | O => None
  | S n =>
      match f inv with
      | None => None
      | Some o =>
          match ojoin (o_nx o) (o_cn o) with
          | None => Some (inv, o)
          | Some b => if aleq b inv then Some (inv, o) else settle f n (ajoin inv b)
          end
      end
  end.

Section Exec.
Variable fg : list lval.
Variable cuts : bool.      (** whether timeouts come *)

Definition at_cut (a : astate) : option astate := if cuts then Some (proj a) else None.
(** x is no clone *)
Definition unowned (x : lval) (a : astate) : astate :=
  match aget x (avs a) with Some (AVal n o d f) => aset x (AVal n [] d f) a | _ => a end.

Fixpoint aexec (c : cmd) (a : astate) : option outs :=
  match c with
  | Skip => Some (Outs (Some a) None None None [])
  | Op o => match aop fg o a with
            | Some b => if apeek1 fg b G_saved then Some (Outs (Some b) None None (at_cut a) []) else None
            | None => None
            end
  | Seq c1 c2 =>
      match aexec c1 a with
      | None => None
      | Some o =>
          match o_nx o with
          | None => Some o
          | Some b => match aexec c2 b with
                      | None => None
                      | Some o2 => Some (merge (Outs None (o_bk o) (o_cn o) (o_ct o) (o_rt o)) o2)
                      end
          end
      end
  | If c1 c2 =>
      match aexec c1 a, aexec c2 a with Some x, Some y => Some (merge x y) | _, _ => None end
  | IfNull x c1 c2 =>
      match aget x (avs a) with
      | Some ANull => aexec c1 a
      | Some (AVal false _ _ _) => aexec c2 a
      | Some (AVal true o d f) =>
          match aexec c1 (aset x ANull a), aexec c2 (aset x (AVal false o d f) a) with
          | Some p, Some q => Some (merge p q) | _, _ => None end
      | None =>
          match aexec c1 a, aexec c2 a with Some p, Some q => Some (merge p q) | _, _ => None end
      end
  | IfClone x c1 c2 =>
      if ause1 fg a x then
        match aexec c1 a, aexec c2 (unowned x a) with Some p, Some q => Some (merge p q) | _, _ => None end
      else None
  | Loop c =>
      match settle (aexec c) 6 a with
      | None => None
      | Some (inv, o) => Some (Outs (ojoin (Some inv) (o_bk o)) None None (ojoin (o_ct o) (Some (proj inv))) (o_rt o))
      end
  | Forever c =>
      match settle (aexec c) 6 a with
      | None => None
      | Some (inv, o) => Some (Outs (o_bk o) None None (ojoin (o_ct o) (Some (proj inv))) (o_rt o))
      end
  | Break => Some (Outs None (Some a) None None [])
  | Continue => Some (Outs None None (Some a) None [])
  | Ret d => Some (Outs None None None (at_cut a) [(d, a)])
  end.
End Exec.
