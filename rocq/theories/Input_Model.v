(** Model of reading numbers and text, /repo/src/io/input.c, and of the generators that use it:
    /repo/src/gen/equation.c:14-32 and 68-86, /repo/src/gen/field.c:36-100, 105-119,
    /repo/src/exhaustive/family.c:87-93.

    Not modelled: prompts and messages, read errors other than the end of the input. *)
From Coq Require Import Ascii String.
From Verif Require Import Base Str_Model Cli_Model Poly_Model Koblitz_Model Family_Model.
Local Open Scope Z_scope.

(** A stream: what has not been read yet, and whether the end has been met (feof). *)
Record stream := Stream { rest : str; eof : bool }.

(** everything up to and including the first [d]; [None] if there is no [d] *)
Fixpoint cut (d : ascii) (s : str) : option (str * str) :=
  match s with
  | [] => None
  | c :: t =>
      if Ascii.eqb c d then Some ([c], t)
      else match cut d t with Some (l, r) => Some (c :: l, r) | None => None end
  end.

(** getdelim(3): [None] is -1; without a delimiter the rest of the input is the line and the end of
    the input has been met *)
Definition getdelim (d : ascii) (s : stream) : option str * stream :=
  match rest s with
  | [] => (None, Stream [] true)
  | r => match cut d r with
         | Some (l, t) => (Some l, Stream t (eof s))
         | None => (Some r, Stream [] true)
         end
  end.

(** a C string ends at the first NUL *)
Fixpoint cstring (s : str) : str :=
  match s with [] => [] | c :: t => if Ascii.eqb c "000" then [] else c :: cstring t end.

(** PARI: strtoi reads 0b and binary digits, 0x and hexadecimal digits, or decimal digits, up to the
    first other character; without digits it is 0 *)
Definition hexval (c : ascii) : Z :=
  let n := Z.of_nat (nat_of_ascii c) in if n <? 58 then n - 48 else if n <? 71 then n - 55 else n - 87.
Fixpoint take_hex (acc : Z) (s : str) : Z :=
  match s with c :: t => if isxdigit c then take_hex (16 * acc + hexval c) t else acc | [] => acc end.
Fixpoint take_bin (acc : Z) (s : str) : Z :=
  match s with
  | c :: t => if Ascii.eqb c "0" then take_bin (2 * acc) t else if Ascii.eqb c "1" then take_bin (2 * acc + 1) t else acc
  | [] => acc
  end.
Definition strtoi (s : str) : Z :=
  match s with
  | c :: x :: t =>
      if Ascii.eqb c "0" && (Ascii.eqb x "x" || Ascii.eqb x "X") then take_hex 0 t
      else if Ascii.eqb c "0" && (Ascii.eqb x "b" || Ascii.eqb x "B") then take_bin 0 t
      else fst (take_digits 0 s)
  | _ => fst (take_digits 0 s)
  end.

(** src/io/input.c:13-52; the prompt is ignored; [bits] as given to int2n *)
Definition input_i (d : ascii) (bits : Z) (s : stream) : Z * stream :=
  match getdelim d s with
  | (None, s') => (-2, s')
  | (Some line, s') =>
      if (length line =? 1)%nat && negb (eof s') then (-1, s')
      else
        let text := cstring line in
        let sign := match text with c :: _ => Ascii.eqb c "-" | [] => false end in
        let i := strtoi (if sign then tl text else text) in
        let i := if sign then - i else i in
        if i <=? 2 ^ bits then (i, s') else (-1, s')
  end.

(** src/io/input.c:54-66 *)
Definition input_prime (isprime : Z -> bool) (d : ascii) (bits : Z) (s : stream) : Z * stream :=
  let (read, s') := input_i d bits s in
  if (read =? -1) || (read =? -2) then (read, s')
  else if isprime read then (read, s') else (-1, s').

(** src/io/input.c:68-72 *)
Definition input_int := input_i.
Definition input_short (d : ascii) (s : stream) := input_i d 16 s.

(** src/io/input.c:74-94 *)
Definition input_string (d : ascii) (s : stream) : str * stream :=
  match getdelim d s with
  | (None, s') => ([], s')
  | (Some line, s') => if (length line =? 1)%nat then ([], s') else (cstring (removelast line), s')
  end.

(** what a generator function returns: 1 with a value, 0 (called again), INT_MIN (the run ends) *)
Inductive outcome (A : Type) := Value (x : A) | Again | Stop.
Arguments Value {A}. Arguments Again {A}. Arguments Stop {A}.

(** src/gen/equation.c:14-32; 68-86 is the same for b *)
Definition a_gen_input (d : ascii) (bits : Z) (f : field) (s : stream) : outcome element * stream :=
  let (inp, s') := input_int d bits s in
  if inp =? -1 then (Again, s')
  else if inp =? -2 then (Stop, s')
  else (Value (field_ielement f inp), s').

(** src/gen/field.c:36-50 *)
Definition field_gen_input_prime (isprime : Z -> bool) (d : ascii) (bits : Z) (s : stream) : outcome Z * stream :=
  let (p, s') := input_prime isprime d bits s in
  if p =? -1 then (Again, s')
  else if p =? -2 then (Stop, s')
  else (Value p, s').

(** src/gen/field.c:51-96: the exponents are read one after the other *)
Definition field_gen_input_binary (irreducible : list Z -> bool) (d : ascii) (bits : Z) (s : stream) : res (outcome (list Z) * stream) :=
  let (m, s) := input_short d s in
  if negb (m =? bits) then Ok (Again, s) else
  let (e1, s) := input_short d s in
  if (e1 =? -1) || (m <? e1) then Ok (Again, s) else
  let (e2, s) := input_short d s in
  if (e2 =? -1) || (m <? e2) then Ok (Again, s) else
  let (e3, s) := input_short d s in
  if (e3 =? -1) || (m <? e3) then Ok (Again, s) else
  do r <- field_input_binary irreducible bits m e1 e2 e3;
  Ok (match r with Some v => Value v | None => Again end, s).

(** src/exhaustive/family.c:87-93: the number is not looked at *)
Definition family_gen_seed_read (d : ascii) (bits : Z) (s : stream) : outcome Z * stream :=
  let (inp, s') := input_int d bits s in (Value (family_gen_seed_input inp), s').

(** src/gen/field.c:105-119, for the first call of a curve *)
Definition field_gen_once {A} (r : outcome A * stream) : outcome A * stream :=
  match r with (Value x, s) => (Value x, s) | (_, s) => (Again, s) end.
