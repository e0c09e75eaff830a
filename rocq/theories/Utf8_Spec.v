(** Well-formed UTF-8: the grammar of RFC 3629, section 4. *)
From Coq Require Import Ascii.
From Verif Require Import Base Json_Spec.

Definition within (low high : nat) (c : ascii) : Prop := (low <= nat_of_ascii c <= high)%nat.
Definition tail (c : ascii) : Prop := within 128 191 c.
Inductive utf8_char : list ascii -> Prop :=
| utf8_1 a : within 0 127 a -> utf8_char [a]
| utf8_2 a b : within 194 223 a -> tail b -> utf8_char [a; b]
| utf8_3a a b c : within 224 224 a -> within 160 191 b -> tail c -> utf8_char [a; b; c]
| utf8_3b a b c : within 225 236 a -> tail b -> tail c -> utf8_char [a; b; c]
| utf8_3c a b c : within 237 237 a -> within 128 159 b -> tail c -> utf8_char [a; b; c]
| utf8_3d a b c : within 238 239 a -> tail b -> tail c -> utf8_char [a; b; c]
| utf8_4a a b c d : within 240 240 a -> within 144 191 b -> tail c -> tail d -> utf8_char [a; b; c; d]
| utf8_4b a b c d : within 241 243 a -> tail b -> tail c -> tail d -> utf8_char [a; b; c; d]
| utf8_4c a b c d : within 244 244 a -> within 128 143 b -> tail c -> tail d -> utf8_char [a; b; c; d].
Inductive utf8 : list ascii -> Prop :=
| utf8_end : utf8 []
| utf8_more ch t : utf8_char ch -> utf8 t -> utf8 (ch ++ t).

(** every name and string of a document *)
Fixpoint coded (v : jval) : Prop :=
  match v with
  | JStr s => utf8 s
  | JArr l => fold_right (fun x P => coded x /\ P) True l
  | JObj m => fold_right (fun x P => utf8 (fst x) /\ coded (snd x) /\ P) True m
  end.
