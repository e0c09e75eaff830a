(** What a JSON text is and what it denotes: the grammar of RFC 8259, sections 2, 4, 5 and 7, over
    bytes, restricted to the kinds of value ecgen writes (objects, arrays and strings). Independent of
    the code. *)
From Coq Require Import Ascii String.
From Verif Require Import Base.

(** a JSON document; the members of an object are listed in the order of the text *)
Inductive jval :=
| JStr (s : list ascii)
| JArr (l : list jval)
| JObj (m : list (list ascii * jval)).

(** section 2: insignificant whitespace *)
Definition white (c : ascii) : Prop := c = " "%char \/ c = "009"%char \/ c = "010"%char \/ c = "013"%char.
Definition ws (t : list ascii) : Prop := Forall white t.

(** section 7: the characters of a string between the quotation marks, and what they stand for. A
    \u escape is given a meaning only for the control characters. *)
Definition hexd (c : ascii) : option nat :=
  let n := nat_of_ascii c in
  if (48 <=? n)%nat && (n <=? 57)%nat then Some (n - 48)%nat
  else if (97 <=? n)%nat && (n <=? 102)%nat then Some (n - 87)%nat
  else if (65 <=? n)%nat && (n <=? 70)%nat then Some (n - 55)%nat
  else None.
Inductive quoted : list ascii -> list ascii -> Prop :=
| q_end : quoted [] []
| q_plain c t s : (32 <= nat_of_ascii c)%nat -> c <> """"%char -> c <> "\"%char -> quoted t s -> quoted (c :: t) (c :: s)
| q_quote t s : quoted t s -> quoted ("\"%char :: """"%char :: t) (""""%char :: s)
| q_back t s : quoted t s -> quoted ("\"%char :: "\"%char :: t) ("\"%char :: s)
| q_slash t s : quoted t s -> quoted ("\"%char :: "/"%char :: t) ("/"%char :: s)
| q_b t s : quoted t s -> quoted ("\"%char :: "b"%char :: t) ("008"%char :: s)
| q_f t s : quoted t s -> quoted ("\"%char :: "f"%char :: t) ("012"%char :: s)
| q_n t s : quoted t s -> quoted ("\"%char :: "n"%char :: t) ("010"%char :: s)
| q_r t s : quoted t s -> quoted ("\"%char :: "r"%char :: t) ("013"%char :: s)
| q_t t s : quoted t s -> quoted ("\"%char :: "t"%char :: t) ("009"%char :: s)
| q_u x y a b t s : hexd x = Some a -> hexd y = Some b -> (16 * a + b < 32)%nat -> quoted t s ->
    quoted ("\"%char :: "u"%char :: "0"%char :: "0"%char :: x :: y :: t) (ascii_of_nat (16 * a + b) :: s).

(** sections 4 and 5; the text of a value comes without whitespace around it, [padded] allows it *)
Inductive value : list ascii -> jval -> Prop :=
| v_str t s : quoted t s -> value (""""%char :: t ++ [""""%char]) (JStr s)
| v_arr0 w : ws w -> value ("["%char :: w ++ ["]"%char]) (JArr [])
| v_arr t l : elements t l -> value ("["%char :: t ++ ["]"%char]) (JArr l)
| v_obj0 w : ws w -> value ("{"%char :: w ++ ["}"%char]) (JObj [])
| v_obj t m : members t m -> value ("{"%char :: t ++ ["}"%char]) (JObj m)
with elements : list ascii -> list jval -> Prop :=
| e_one w t w' v : ws w -> value t v -> ws w' -> elements (w ++ t ++ w') [v]
| e_more w t w' v u l : ws w -> value t v -> ws w' -> elements u l -> elements (w ++ t ++ w' ++ ","%char :: u) (v :: l)
with members : list ascii -> list (list ascii * jval) -> Prop :=
| m_one w k s w1 w2 t w' v : ws w -> quoted k s -> ws w1 -> ws w2 -> value t v -> ws w' ->
    members (w ++ """"%char :: k ++ """"%char :: w1 ++ ":"%char :: w2 ++ t ++ w') [(s, v)]
| m_more w k s w1 w2 t w' v u m : ws w -> quoted k s -> ws w1 -> ws w2 -> value t v -> ws w' -> members u m ->
    members (w ++ """"%char :: k ++ """"%char :: w1 ++ ":"%char :: w2 ++ t ++ w' ++ ","%char :: u) ((s, v) :: m).

(** a JSON text: a value with whitespace around it *)
Definition json (t : list ascii) (v : jval) : Prop :=
  exists w u w', ws w /\ value u v /\ ws w' /\ t = w ++ u ++ w'.

(** no object has two members of the same name *)
Fixpoint distinct (v : jval) : Prop :=
  match v with
  | JStr _ => True
  | JArr l => fold_right (fun x P => distinct x /\ P) True l
  | JObj m => NoDup (map fst m) /\ fold_right (fun x P => distinct (snd x) /\ P) True m
  end.

(** a bound for the length of an indented text: six bytes for a character, four for a level of
    indentation *)
Definition sum_of (l : list Z) : Z := fold_right Z.add 0%Z l.
Definition quoted_room (s : list ascii) : Z := (6 * Z.of_nat (length s) + 2)%Z.
Fixpoint room (v : jval) (depth : Z) : Z :=
  match v with
  | JStr s => quoted_room s
  | JArr l => (4 * depth + 3 + sum_of (map (fun x => 4 * (depth + 1) + 2 + room x (depth + 1)) l))%Z
  | JObj m => (4 * depth + 3 + sum_of (map (fun x => 4 * (depth + 1) + 4 + quoted_room (fst x) + room (snd x) (depth + 1)) m))%Z
  end.
