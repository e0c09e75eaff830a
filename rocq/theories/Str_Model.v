(** Model of /repo/src/util/str.c. A C string is the list of its characters
    before the terminating NUL (none of them NUL); a buffer is the list of all
    its cells. *)
From Coq Require Import Ascii.
From Verif Require Import Base.
Local Open Scope nat_scope.

(** isxdigit(3) in the C locale *)
Definition isxdigit (c : ascii) : bool :=
  let n := nat_of_ascii c in
  ((48 <=? n) && (n <=? 57)) || ((97 <=? n) && (n <=? 102)) || ((65 <=? n) && (n <=? 70)).

(** src/util/str.c:18-22: scan up to the NUL *)
Fixpoint all_hex (s : list ascii) : bool :=
  match s with
  | [] => true
  | c :: t => if negb (isxdigit c) then false else all_hex t
  end.

(** src/util/str.c:11-24; [None] is the NULL pointer, [Some s] the text the
    returned pointer points to. *)
Definition str_is_hex (hex_str : list ascii) : option (list ascii) :=
  let start :=
    if 2 <? length hex_str then
      match hex_str with
      | c0 :: c1 :: rest =>
          if Ascii.eqb c0 "0" && (Ascii.eqb c1 "x" || Ascii.eqb c1 "X") then rest else hex_str
      | _ => hex_str
      end
    else hex_str in
  if all_hex start then Some start else None.

(** strcat(3): find the NUL of the destination, write the string and a NUL. *)
Fixpoint find_nul (b : list ascii) (i : nat) : res nat :=
  match b with
  | [] => UB
  | c :: t => if Ascii.eqb c zero then Ok i else find_nul t (S i)
  end.
Definition strcat (dst : list ascii) (s : list ascii) : res (list ascii) :=
  do p <- find_nul dst 0;
  for_to (length s + 1) (fun i d => wr d (p + i) (nth i s zero)) dst.

(** try_calloc (src/util/memory.c:44): allocations above [max_alloc] bytes make
    the program exit. *)
Definition max_alloc : Z := (2 ^ 47)%Z.
Definition try_calloc (size : Z) : res (list ascii) :=
  if (size <=? max_alloc)%Z then Ok (repeat zero (Z.to_nat size)) else Abort.

(** src/util/str.c:26-42. [strings] has [len] entries, [None] is a NULL entry;
    sizes are size_t. *)
Definition str_join (separator : option (list ascii)) (strings : list (option (list ascii))) : res (list ascii) :=
  let len := Z.of_nat (length strings) in
  let total := fold_left (fun total s => match s with
                 | Some s => u64 (total + Z.of_nat (length s))
                 | None => total end) strings 1%Z in
  let total := match separator with
               | Some sep => u64 (total + u64 (u64 (len - 1) * Z.of_nat (length sep)))
               | None => total end in
  do result <- try_calloc total;
  for_to (length strings) (fun i result =>
    do s <- rd strings i;
    do result <- (match s with Some s => strcat result s | None => Ok result end);
    match separator with
    | Some sep => if negb (Z.of_nat i =? u64 (len - 1))%Z then strcat result sep else Ok result
    | None => Ok result
    end) result.

(** src/util/str.c:52-57: collecting the arguments. The pointer array has 5
    cells, is reallocated to 10 whenever [i == 5] (len is never updated), and
    each store is checked. [arr] holds the cells. *)
Fixpoint collect (args : list (list ascii)) (i : nat) (arr : list (option (list ascii))) :
    res (nat * list (option (list ascii))) :=
  match args with
  | [] => Ok (i, arr)
  | next :: rest =>
      let arr := if i =? 5 then firstn 5 arr ++ repeat None 5 else arr in
      do arr <- wr arr i (Some next);
      collect rest (S i) arr
  end.

(** src/util/str.c:44-63 *)
Definition str_joinv (separator : option (list ascii)) (args : list (list ascii)) : res (list ascii) :=
  do ia <- collect args 0 (repeat None 5);
  str_join separator (firstn (fst ia) (snd ia)).

(** src/util/str.c:65-67 *)
Definition str_concat (strings : list (option (list ascii))) : res (list ascii) := str_join None strings.

(** src/util/str.c:69-74: [p] is how far the pointer moved, [r] the result; the
    character looked at is str[p + r]. *)
Fixpoint cnt_loop (fuel : nat) (s : list ascii) (c : ascii) (p r : nat) : res nat :=
  match fuel with
  | O => Fuel
  | S f =>
      do x <- rd (s ++ [zero]) (p + r);
      if Ascii.eqb x zero then Ok r
      else if Ascii.eqb x c then cnt_loop f s c p (S r) else cnt_loop f s c (S p) r
  end.
Definition str_cnt (s : list ascii) (c : ascii) : res nat := cnt_loop (S (length s)) s c 0 0.
