(** Model of /repo/src/util/bits.c and bits.h: bit strings.

    [bits_t] (src/misc/types.h) is {unsigned char *bits; bool sign; size_t bitlen;
    size_t allocated}. The memory block behind [bits] is the list [buf] of bytes
    (numbers below 256); its length is the size of the block, which may exceed
    [allocated] (after bits_cpy). All accesses are checked against the block.
    Simplifications: allocation never fails (try_malloc & co. exit on failure,
    src/util/memory.c); bytes of a grown block are arbitrary ([junk]). *)
From Coq Require Import Ascii.
From Verif Require Import Base.
Local Open Scope nat_scope.

Record bits_t := mkBits { buf : list N; bsign : bool; bitlen : nat; allocated : nat }.

(** src/util/bits.h:13-14, BYTE_LEN *)
Definition BYTE_LEN (n : nat) : nat := if n mod 8 =? 0 then n / 8 else n / 8 + 1.

(** src/util/bits.h:16-18, GET_BIT: (a[p/8] & (1 << (7-p%8))) >> (7-p%8) *)
Definition GET_BIT (a : list N) (p : nat) : res N :=
  do b <- rd a (p / 8);
  let k := N.of_nat (7 - p mod 8) in
  Ok (N.shiftr (N.land b (N.shiftl 1 k)) k).

(** src/util/bits.h:20-28, SET_BIT; [~val] is taken on 8 bits. *)
Definition SET_BIT (a : list N) (p : nat) (v : N) : res (list N) :=
  let val := N.shiftl 1 (N.of_nat (7 - p mod 8)) in
  do b <- rd a (p / 8);
  if N.eqb v 1 then wr a (p / 8) (N.lor b val) else wr a (p / 8) (N.ldiff b val).

(** The recurring statement [a[p/8] |= v << (7 - p%8)] stored to unsigned char
    (e.g. src/util/bits.c:78,97,127,145,259,352,383,413). *)
Definition OR_BIT (a : list N) (p : nat) (v : N) : res (list N) :=
  do b <- rd a (p / 8);
  wr a (p / 8) (N.lor b (N.shiftl v (N.of_nat (7 - p mod 8))) mod 256)%N.

(** GET_BIT / position computed in size_t arithmetic (may wrap, hence [Z]). *)
Definition GET_BITZ (a : list N) (p : Z) : res N :=
  if (p / 8 <? Z.of_nat (length a))%Z then GET_BIT a (Z.to_nat p) else UB.

Section WithJunk.
(** Contents of the fresh bytes of a grown block (indeterminate in C). *)
Variable junk : nat -> N.

(** realloc(3): keeps min(old,new) bytes; src/util/memory.c try_realloc *)
Definition realloc (b : list N) (n : nat) : list N :=
  firstn n b ++ map (fun i => junk i mod 256)%N (seq (length b) (n - length b)).

(** src/util/bits.c:10-17 *)
Definition bits_new (bit_len : nat) : bits_t :=
  mkBits (repeat 0%N (BYTE_LEN bit_len)) false bit_len (BYTE_LEN bit_len).

(** src/util/bits.c:19-31. [rnd i k] is the i-th call's random_bits(k) (PARI:
    uniform in [0, 2^k)). The cast to unsigned char precedes the shift; the
    shifted int is truncated when stored. *)
Definition bits_new_rand (rnd : nat -> nat -> N) (bit_len : nat) : res bits_t :=
  let r := bits_new bit_len in
  do b <- for_to (allocated r) (fun i b =>
      if i =? allocated r - 1 then
        let last_bits := bit_len mod 8 in
        wr b i (N.shiftl (rnd i last_bits mod 256) (N.of_nat (8 - last_bits)) mod 256)%N
      else wr b i (rnd i 8%nat mod 256)%N) (buf r);
  Ok (mkBits b (bsign r) (bitlen r) (allocated r)).

(** memset / memcpy on a block, checked. *)
Definition memset0 (b : list N) (from n : nat) : res (list N) :=
  for_from n from (fun i b => wr b i 0%N) b.
Definition memcpy (dst src : list N) (n : nat) : res (list N) :=
  for_to n (fun i b => do x <- rd src i; wr b i x) dst.
(** try_memdup (src/util/memory.c): copy of the first n bytes. *)
Definition memdup (src : list N) (n : nat) : res (list N) :=
  if n <=? length src then Ok (firstn n src) else UB.

(** src/util/bits.c:33-48 *)
Definition bits_cpy (dest src : bits_t) : res bits_t :=
  if bitlen src =? 0 then Ok dest else
  do db <- (if allocated src <? allocated dest
            then memset0 (buf dest) (allocated src) (allocated dest - allocated src)
            else if allocated dest <? allocated src
            then Ok (realloc (buf dest) (allocated src))
            else Ok (buf dest));
  do db' <- memcpy db (buf src) (allocated src);
  Ok (mkBits db' (bsign src) (bitlen src) (allocated src)).

(** src/util/bits.c:50-58 *)
Definition bits_copy (b : bits_t) : res bits_t :=
  if allocated b =? 0 then Ok (mkBits [] (bsign b) (bitlen b) 0)
  else do d <- memdup (buf b) (allocated b);
       Ok (mkBits d (bsign b) (bitlen b) (allocated b)).

(** PARI binary_zv: binary digits of |i|, most significant first, empty for 0.
    (Library function, written here after its documentation.) *)
Fixpoint pos_bits (p : positive) (acc : list bool) : list bool :=
  match p with
  | xH => true :: acc
  | xO q => pos_bits q (false :: acc)
  | xI q => pos_bits q (true :: acc)
  end.
Definition binary_zv (i : Z) : list bool :=
  match i with Z0 => [] | Zpos p => pos_bits p [] | Zneg p => pos_bits p [] end.

(** src/util/bits.c:70-83 *)
Definition bits_from_i (i : Z) : res bits_t :=
  let bitvec := binary_zv i in
  let r := bits_new (length bitvec) in
  do b <- for_to (length bitvec) (fun j b =>
      if nth j bitvec false then OR_BIT b j 1 else Ok b) (buf r);
  Ok (mkBits b (i <? 0)%Z (bitlen r) (allocated r)).

(** src/util/bits.c:85-102 *)
Definition bits_from_i_len (i : Z) (bit_len : nat) : res bits_t :=
  let bitvec := binary_zv i in
  let i_len := length bitvec in
  let r := bits_new bit_len in
  let offset := if i_len <? bit_len then bit_len - i_len else 0 in
  do b <- for_to bit_len (fun j b =>
      if (j <? i_len) && nth j bitvec false then OR_BIT b (j + offset) 1 else Ok b) (buf r);
  Ok (mkBits b (i <? 0)%Z (bitlen r) (allocated r)).

(** src/util/bits.c:109-116: value of a hex digit, 0 for any other character. *)
Definition nibble_of (c : ascii) : N :=
  let n := N_of_ascii c in
  if (48 <=? n)%N && (n <=? 57)%N then (n - 48)%N
  else if (97 <=? n)%N && (n <=? 102)%N then (n - 97 + 10)%N
  else if (65 <=? n)%N && (n <=? 70)%N then (n - 65 + 10)%N
  else 0%N.

(** src/util/bits.c:104-120. The string is the list of characters before the
    terminating NUL; nibble_len * 4 does not wrap (strings are shorter than 2^62). *)
Definition bits_from_hex (hex_str : list ascii) : res bits_t :=
  let nibble_len := length hex_str in
  let r := bits_new (nibble_len * 4) in
  do b <- for_to nibble_len (fun i b =>
      do c <- rd hex_str i;
      do x <- rd b (i / 2);
      wr b (i / 2) (N.lor x (N.shiftl (nibble_of c) (N.of_nat ((1 - i mod 2) * 4))) mod 256)%N)
      (buf r);
  Ok (mkBits b (bsign r) (bitlen r) (allocated r)).

(** src/util/bits.c:122-131 *)
Definition bits_from_bin (bin_str : list ascii) : res bits_t :=
  let r := bits_new (length bin_str) in
  do b <- for_to (length bin_str) (fun i b =>
      do c <- rd bin_str i;
      if Ascii.eqb c "1"%char then OR_BIT b i 1 else Ok b) (buf r);
  Ok (mkBits b (bsign r) (bitlen r) (allocated r)).

(** src/util/bits.c:133-139 *)
Definition bits_from_raw (bits : list N) (bit_len : nat) : res bits_t :=
  if 0 <? bit_len then
    do d <- memdup bits (BYTE_LEN bit_len);
    Ok (mkBits d false bit_len (BYTE_LEN bit_len))
  else Ok (mkBits [] false bit_len (BYTE_LEN bit_len)).

(** src/util/bits.c:141-148; the vecsmall is a list of longs. *)
Definition bits_from_bitvec (v : list Z) : res bits_t :=
  let r := bits_new (length v) in
  do b <- for_to (length v) (fun i b =>
      do x <- rd v i;
      if (x =? 1)%Z then OR_BIT b i 1 else Ok b) (buf r);
  Ok (mkBits b (bsign r) (bitlen r) (allocated r)).

(** src/util/bits.c:150-161. Result: sign and magnitude of the PARI integer; the
    pair (true, 0) stands for setsigne(-1) applied to a zero integer (a corrupt
    PARI object). *)
Definition bits_to_i (bits : bits_t) : res (bool * Z) :=
  do v <- for_to (bitlen bits) (fun i result =>
      do g <- GET_BIT (buf bits) i;
      if negb (N.eqb g 0) then Ok (result + 2 ^ Z.of_nat (bitlen bits - i - 1))%Z
      else Ok result) 0%Z;
  Ok (bsign bits, v).

(** sprintf(result + pos, ...) writing the characters and a NUL, checked. *)
Definition put (r : list ascii) (pos : nat) (s : list ascii) : res (list ascii) :=
  for_to (length s + 1) (fun i r => wr r (pos + i) (nth i s zero)) r.
(** Contents of a C string buffer: the characters before the first NUL. *)
Fixpoint cstr (r : list ascii) : list ascii :=
  match r with
  | [] => []
  | c :: t => if Ascii.eqb c zero then [] else c :: cstr t
  end.

(** printf "%x" digit *)
Definition hexdigit (n : N) : ascii :=
  if (n <? 10)%N then ascii_of_N (48 + n) else ascii_of_N (87 + n).

(** src/util/bits.c:163-194. [~(1 << (8 - offset))] on int: all bits but one. *)
Definition bits_to_hex (bits : bits_t) : res (list ascii) :=
  let s := if bsign bits then 1 else 0 in
  let result := repeat zero (BYTE_LEN (bitlen bits) * 2 + 1 + s) in
  do result <- (if bsign bits then wr result 0 "-"%char else Ok result);
  let offset := bitlen bits mod 8 in
  do result <- for_to (BYTE_LEN (bitlen bits)) (fun i result =>
      let pos := i * 2 + s in
      do value <-
        (if negb (offset =? 0) then
           do x <- rd (buf bits) i;
           let value := N.shiftr x (N.of_nat (8 - offset)) in
           if negb (i =? 0) then
             do y <- rd (buf bits) (i - 1);
             Ok (N.lor value
                  (N.shiftl (N.ldiff y (N.shiftl 1 (N.of_nat (8 - offset)))) (N.of_nat offset))
                  mod 256)%N
           else Ok (value mod 256)%N
         else rd (buf bits) i);
      put result pos [hexdigit (value / 16)%N; hexdigit (value mod 16)%N]) result;
  Ok (cstr result).

(** src/util/bits.c:196-206 *)
Definition bits_to_bin (bits : bits_t) : res (list ascii) :=
  let s := if bsign bits then 1 else 0 in
  let result := repeat zero (bitlen bits + 1 + s) in
  do result <- (if bsign bits then wr result 0 "-"%char else Ok result);
  do result <- for_to (bitlen bits) (fun i result =>
      do g <- GET_BIT (buf bits) i;
      put result (i + s) [ascii_of_N (48 + g)]) result;
  Ok (cstr result).

(** src/util/bits.c:208-213; None is the NULL pointer. *)
Definition bits_to_raw (bits : bits_t) : res (option (list N)) :=
  if bitlen bits =? 0 then Ok None
  else do d <- memdup (buf bits) (BYTE_LEN (bitlen bits)); Ok (Some d).

(** src/util/bits.c:215 *)
Definition bits_to_rawlen (bits : bits_t) : nat := BYTE_LEN (bitlen bits).

(** src/util/bits.c:217-223 *)
Definition bits_to_bitvec (bits : bits_t) : res (list Z) :=
  for_to (bitlen bits) (fun i v =>
    do g <- GET_BIT (buf bits) i;
    if negb (N.eqb g 0) then wr v i 1%Z else Ok v) (repeat 0%Z (bitlen bits)).

(** src/util/bits.c:225-231 *)
Definition or_func (a b : N) : N := N.lor a b.
Definition and_func (a b : N) : N := N.land a b.

(** src/util/bits.c:233-263 *)
Definition bits_bitwise (one other : bits_t) (f : N -> N -> N) : res bits_t :=
  let '(shorter, longer) :=
    if bitlen other <? bitlen one then (other, one) else (one, other) in
  let r := bits_new (bitlen longer) in
  do b <- for_to (bitlen longer) (fun i b =>
      let longer_pos := bitlen longer - i - 1 in
      do longer_bit <- GET_BIT (buf longer) longer_pos;
      do shorter_bit <- (if i <? bitlen shorter
                         then GET_BIT (buf shorter) (bitlen shorter - i - 1)
                         else Ok 0%N);
      OR_BIT b longer_pos (f longer_bit shorter_bit)) (buf r);
  Ok (mkBits b (bsign r) (bitlen r) (allocated r)).

(** src/util/bits.c:265-283, one iteration of the while loop. [one->bitlen] is
    re-read in the inner loop but only changed after it. *)
Definition bits_concat1 (one next : bits_t) : res bits_t :=
  if bitlen next =? 0 then Ok one else
  let new_bitlen := Z.to_nat (u64 (Z.of_nat (bitlen one) + Z.of_nat (bitlen next))) in
  let new_alloc := BYTE_LEN new_bitlen in
  do ba <- (if allocated one <? new_alloc then
              do b <- memset0 (realloc (buf one) new_alloc) (allocated one)
                              (new_alloc - allocated one);
              Ok (b, new_alloc)
            else Ok (buf one, allocated one));
  let '(b, a) := ba in
  do b <- for_to (bitlen next) (fun j b =>
      do g <- GET_BIT (buf next) j; SET_BIT b (bitlen one + j) g) b;
  Ok (mkBits b (bsign one) new_bitlen a).

(** src/util/bits.c:265-292, bits_concatz with arguments distinct from [one]. *)
Fixpoint bits_concatz (one : bits_t) (args : list bits_t) : res bits_t :=
  match args with
  | [] => Ok one
  | next :: rest => do o <- bits_concat1 one next; bits_concatz o rest
  end.

(** src/util/bits.c:294-304 *)
Definition bits_concat (one : bits_t) (args : list bits_t) : res bits_t :=
  do r <- bits_copy one; bits_concatz r args.

(** src/util/bits.c:306-312 *)
Definition bits_or (one other : bits_t) : res bits_t := bits_bitwise one other or_func.
Definition bits_and (one other : bits_t) : res bits_t := bits_bitwise one other and_func.

(** src/util/bits.c:320-325 and 502-507: mask with the [mask_len] (1..7) top bits:
    for (i = 7; i > 0; --i) { mask |= 1 << i; if (--mask_len == 0) break; } *)
Fixpoint mask_loop (i : nat) (mask_len : nat) (mask : N) : N :=
  match i with
  | O => mask
  | S i' =>
      let mask := N.lor mask (N.shiftl 1 (N.of_nat i)) in
      if mask_len - 1 =? 0 then mask else mask_loop i' (mask_len - 1) mask
  end.

(** src/util/bits.c:314-331. [~] of a byte is its complement on 8 bits. *)
Definition notb (x : N) : N := N.lxor x 255.
Definition bits_notz (bits : bits_t) : res bits_t :=
  if bitlen bits =? 0 then Ok bits else
  do b <- for_to (bitlen bits / 8) (fun i b => do x <- rd b i; wr b i (notb x)) (buf bits);
  do b <- (if negb (bitlen bits mod 8 =? 0) then
             let mask := mask_loop 7 (bitlen bits mod 8) 0 in
             let last_pos := bitlen bits / 8 in
             let anti_mask := notb mask in
             do last_byte <- rd b last_pos;
             wr b last_pos (N.lor (N.land (notb last_byte) mask) (N.land last_byte anti_mask))
           else Ok b);
  Ok (mkBits b (bsign bits) (bitlen bits) (allocated bits)).

Definition bits_not (bits : bits_t) : res bits_t := do r <- bits_copy bits; bits_notz r.

(** src/util/bits.c:340-344, 372-376, 395-399: the VLA copy [original_bits] and
    the zeroing of the block. A VLA of size 0 is undefined (C11 6.7.6.2p5). *)
Definition save_clear (bits : bits_t) : res (list N * list N) :=
  if allocated bits =? 0 then UB else
  do o <- memdup (buf bits) (allocated bits);
  do b <- memset0 (buf bits) 0 (allocated bits);
  Ok (o, b).

(** src/util/bits.c:339-362 *)
Definition bits_rotz (bits : bits_t) : res bits_t :=
  do ob <- save_clear bits;
  let '(o, b) := ob in
  do b <- for_to (bitlen bits / 2) (fun i b =>
      let left_pos := i in
      let right_pos := bitlen bits - i - 1 in
      do left_bit <- GET_BIT o left_pos;
      do right_bit <- GET_BIT o right_pos;
      do b <- OR_BIT b right_pos left_bit;
      OR_BIT b left_pos right_bit) b;
  do b <- (if bitlen bits mod 2 =? 1 then
             let middle_pos := bitlen bits / 2 in
             do middle_bit <- GET_BIT o middle_pos;
             OR_BIT b middle_pos middle_bit
           else Ok b);
  Ok (mkBits b (bsign bits) (bitlen bits) (allocated bits)).

Definition bits_rot (bits : bits_t) : res bits_t := do r <- bits_copy bits; bits_rotz r.

(** src/util/bits.c:379-380, 403-404: [(amount > 0 && i + amount < bitlen) ||
    (amount < 0 && i >= -amount)]. [i + amount] is computed in size_t; [-amount]
    in long (overflow for LONG_MIN) and then converted to size_t. *)
Definition in_range (bitlen i : nat) (amount : Z) : res bool :=
  if ((0 <? amount) && (u64 (Z.of_nat i + amount) <? Z.of_nat bitlen))%Z then Ok true
  else if (amount <? 0)%Z then
    if (amount =? LONG_MIN)%Z then UB else Ok (u64 (- amount) <=? Z.of_nat i)%Z
  else Ok false.

(** src/util/bits.c:370-385 *)
Definition bits_shiftz (bits : bits_t) (amount : Z) : res bits_t :=
  if (amount =? 0)%Z then Ok bits else
  do ob <- save_clear bits;
  let '(o, b) := ob in
  do b <- for_to (bitlen bits) (fun i b =>
      do c <- in_range (bitlen bits) i amount;
      do new_bit <- (if (c : bool) then GET_BITZ o (u64 (Z.of_nat i + amount)) else Ok 0%N);
      OR_BIT b i new_bit) b;
  Ok (mkBits b (bsign bits) (bitlen bits) (allocated bits)).

Definition bits_shift (bits : bits_t) (amount : Z) : res bits_t :=
  do r <- bits_copy bits; bits_shiftz r amount.

(** src/util/bits.c:393-415. In [amount % bits->bitlen] the long is converted to
    size_t first (usual arithmetic conversions); the result goes back to long. *)
Definition bits_shiftrz (bits : bits_t) (amount : Z) : res bits_t :=
  if (amount =? 0)%Z then Ok bits else
  do ob <- save_clear bits;
  let '(o, b) := ob in
  let L := Z.of_nat (bitlen bits) in
  do b <- for_to (bitlen bits) (fun i b =>
      do c <- in_range (bitlen bits) i amount;
      let new_pos :=
        if (c : bool) then u64 (Z.of_nat i + amount)
        else if (0 <? amount)%Z then (u64 (Z.of_nat i + amount) mod L)%Z
        else let mod_amount := i64 (u64 amount mod L) in
             (u64 (Z.of_nat i + mod_amount) mod L)%Z in
      do new_bit <- GET_BITZ o new_pos;
      OR_BIT b i new_bit) b;
  Ok (mkBits b (bsign bits) (bitlen bits) (allocated bits)).

Definition bits_shiftr (bits : bits_t) (amount : Z) : res bits_t :=
  do r <- bits_copy bits; bits_shiftrz r amount.

(** src/util/bits.c:437-459 *)
Definition bits_lengthenz (bits : bits_t) (amount : Z) : res bits_t :=
  if (amount =? 0)%Z then Ok bits else
  if (amount =? LONG_MIN)%Z then UB (* -amount overflows *) else
  let abs_amount := u64 (Z.abs amount) in
  let new_bitlen := Z.to_nat (u64 (Z.of_nat (bitlen bits) + abs_amount)) in
  let new_alloc := BYTE_LEN new_bitlen in
  do ba <- (if allocated bits <? new_alloc then
              do b <- memset0 (realloc (buf bits) new_alloc) (allocated bits)
                              (new_alloc - allocated bits);
              Ok (b, new_alloc)
            else Ok (buf bits, allocated bits));
  let '(b, a) := ba in
  let r := mkBits b (bsign bits) new_bitlen a in
  if (0 <? amount)%Z then bits_shiftz r (- amount) else Ok r.

Definition bits_lengthen (bits : bits_t) (amount : Z) : res bits_t :=
  do r <- bits_copy bits; bits_lengthenz r amount.

(** src/util/bits.c:467-481. [bitlen - amount] wraps when amount > bitlen. *)
Definition bits_shortenz (bits : bits_t) (amount : Z) : res bits_t :=
  if (0 <? amount)%Z then
    let new_bits := Z.to_nat (u64 (Z.of_nat (bitlen bits) - amount)) in
    do r <- bits_shiftz bits amount;
    Ok (mkBits (buf r) (bsign r) new_bits (allocated r))
  else if (amount <? 0)%Z then
    let new_bits := Z.to_nat (u64 (Z.of_nat (bitlen bits) + amount)) in
    do b <- for_from (bitlen bits - new_bits) new_bits (fun i b =>
        do x <- rd b (i / 8);
        wr b (i / 8) (N.ldiff x (N.shiftl 1 (N.of_nat (7 - i mod 8))))) (buf bits);
    Ok (mkBits b (bsign bits) new_bits (allocated bits))
  else Ok bits.

Definition bits_shorten (bits : bits_t) (amount : Z) : res bits_t :=
  do r <- bits_copy bits; bits_shortenz r amount.

(** src/util/bits.c:423-429; [-amount] cannot overflow for amount > 0. *)
Definition bits_shiftiz (bits : bits_t) (amount : Z) : res bits_t :=
  if (0 <? amount)%Z then bits_lengthenz bits (- amount)
  else if (amount <? 0)%Z then bits_shortenz bits amount
  else Ok bits.

Definition bits_shifti (bits : bits_t) (amount : Z) : res bits_t :=
  do r <- bits_copy bits; bits_shiftiz r amount.

(** src/util/bits.c:489-494, the bytes handed to SHA-1 (the hash is in Sha1_Model).
    BYTE_LEN(bitlen) is cast to int there: lengths below 2^31 bytes. *)
Definition bits_sha1_input (bits : bits_t) : res (list N) :=
  memdup (buf bits) (BYTE_LEN (bitlen bits)).

(** memcmp(...) != 0 *)
Definition memcmp_ne (a b : list N) (n : nat) : res bool :=
  for_to n (fun i (ne : bool) =>
    do x <- rd a i; do y <- rd b i; Ok (ne || negb (N.eqb x y))) false.

(** src/util/bits.c:496-514 *)
Definition bits_eq (one other : bits_t) : res bool :=
  if negb (eqb (bsign one) (bsign other)) then Ok false else
  if negb (bitlen one =? bitlen other) then Ok false else
  if bitlen one =? 0 then Ok true else
  do ne <- memcmp_ne (buf one) (buf other) (bitlen one / 8);
  if (ne : bool) then Ok false else
  if negb (bitlen one mod 8 =? 0) then
    let mask := mask_loop 7 (bitlen one mod 8) 0 in
    let last_byte := bitlen one / 8 in
    do x <- rd (buf one) last_byte;
    do y <- rd (buf other) last_byte;
    Ok (N.eqb (N.land x mask) (N.land y mask))
  else Ok true.

End WithJunk.
