(** What the generation engine is supposed to do, as properties of the sequence of calls
    it makes. Uses only the event and outcome types of the model. *)
From Verif Require Import Base Engine_Model.
Local Open Scope Z_scope.

Definition stage_of (e : event) : Z :=
  match e with EGen s _ _ _ => s | ECheck s _ _ => s | EUnroll s => s end.

(** One successful execution of stage [k] with [n] checks, all of which passed. *)
Inductive passed (k : Z) (n : nat) : list event -> Prop :=
| Passed a d b rs :
    0 < d -> length rs = n -> Forall (fun r => 0 < r) rs ->
    passed k n (EGen k a (Ret d) b :: map (fun '(i, r) => ECheck k i r) (combine (seq 0 n) rs)).

(** [n] stages from [k] on are complete at the end of [tr]: there is an execution of [k]
    that passed all its checks, after which no event concerns [k] or an earlier stage, and
    the rest completes the following stages. *)
Fixpoint complete (checks : Z -> nat) (n : nat) (k : Z) (tr : list event) : Prop :=
  match n with
  | O => tr = []
  | S m => exists before block after,
      tr = before ++ block ++ after /\
      Forall (fun e => k <= stage_of e) before /\
      passed k (checks k) block /\
      Forall (fun e => k < stage_of e) after /\
      complete checks m (k + 1) after
  end.

(** The events with which a stage asks to go back: the stage and the distance. *)
Definition asks (start : Z) (e : event) : option (Z * Z) :=
  match e with
  | EGen s _ (Ret d) _ => if d <=? 0 then Some (s, d) else None
  | EGen s _ Timeout _ => Some (s, start - s)
  | ECheck s _ r => if r <=? 0 then Some (s, r) else None
  | EUnroll _ => None
  end.

(** The undo hooks of the stages from [hi] down to [hi - n + 1]. *)
Fixpoint undo (hook : Z -> bool) (n : nat) (hi : Z) : list event :=
  match n with
  | O => []
  | S m => (if hook hi then [EUnroll hi] else []) ++ undo hook m (hi - 1)
  end.

Definition starts_with_gen (s : Z) (tr : list event) : Prop :=
  exists a o b rest, tr = EGen s a o b :: rest.

(** Whether the checks recorded from here on (up to the next other call) all passed. *)
Fixpoint checks_pass (tr : list event) : bool :=
  match tr with
  | ECheck _ _ r :: tr' => if r <=? 0 then false else checks_pass tr'
  | _ => true
  end.

(** Failed executions of stage [k] since its last successful one. *)
Fixpoint streak (k : Z) (acc : nat) (tr : list event) : nat :=
  match tr with
  | [] => acc
  | EGen s _ o _ :: tr' =>
      streak k (if s =? k then
                  match o with
                  | Ret d => if (0 <? d) && checks_pass tr' then O else S acc
                  | Timeout => S acc
                  end
                else acc) tr'
  | _ :: tr' => streak k acc tr'
  end.

(** The PARI stack pointer left by the last execution of stage [k]. *)
Fixpoint last_exit (k : Z) (acc : option Z) (tr : list event) : option Z :=
  match tr with
  | [] => acc
  | EGen s _ _ b :: tr' => last_exit k (if s =? k then Some b else acc) tr'
  | _ :: tr' => last_exit k acc tr'
  end.

(** Well-behaved stage functions: undo hooks go back one stage, generators go forward by
    at most one stage (as all those in /repo do). *)
Definition hooks_ok {W} (su : setup W) : Prop :=
  forall i u w, unrolls su i = Some u -> snd (u w) = -1.
Definition forward_one {W} (su : setup W) : Prop :=
  forall i g w a, generators su i = Some g ->
    match snd (g w a) with Ret d => d <= 1 | Timeout => True end.
Definition hook {W} (su : setup W) (i : Z) : bool :=
  match unrolls su i with Some _ => true | None => false end.
Definition nchecks {W} (su : setup W) (i : Z) : nat :=
  match validators su i with Some cs => length cs | None => 0%nat end.
