(** Model of the parts of the JSON library /repo/lib/parson/parson.c that ecgen uses to write curves:
    building objects and arrays of strings, and json_serialize_to_string_pretty.

    A value is a tree; numbers, booleans and null are left out, nothing in /repo/src creates them. Every
    value is attached to one parent only (output.c:27-176), so the [parent] pointers, which reject a
    second attachment, are left out too. The growth of the arrays of names, values and items and
    allocation failure (the allocator is try_malloc, src/io/output.c:233) are not modelled. *)
From Coq Require Import Ascii String.
From Verif Require Import Base Str_Model Json_Spec.
Local Open Scope Z_scope.

Definition byte (c : ascii) : Z := Z.of_nat (nat_of_ascii c).
Definition same (a b : list ascii) : bool := if list_eq_dec ascii_dec a b then true else false.

(** ** strings *)
(** lib/parson/parson.c:59 *)
Definition is_cont (c : ascii) : bool := Z.land (byte c) 192 =? 128.

(** lib/parson/parson.c:184-197 *)
Definition num_bytes_in_utf8_sequence (c : ascii) : Z :=
  let b := byte c in
  if (b =? 192) || (b =? 193) || (244 <? b) || is_cont c then 0
  else if Z.land b 128 =? 0 then 1
  else if Z.land b 224 =? 192 then 2
  else if Z.land b 240 =? 224 then 3
  else if Z.land b 248 =? 240 then 4
  else 0.

(** lib/parson/parson.c:199-239; [string] is the rest of the string, without its NUL: what is read after
    the last character is the NUL, which is no continuation byte and ends the && *)
Definition verify_utf8_sequence (string : list ascii) : Z * bool :=
  let c i := nth i string zero in
  let len := num_bytes_in_utf8_sequence (c 0%nat) in
  let low i := Z.land (byte (c i)) 63 in
  let cp :=
    if len =? 1 then Some (byte (c 0%nat))
    else if (len =? 2) && is_cont (c 1%nat) then Some (Z.lor (Z.shiftl (Z.land (byte (c 0%nat)) 31) 6) (low 1%nat))
    else if (len =? 3) && is_cont (c 1%nat) && is_cont (c 2%nat)
      then Some (Z.lor (Z.shiftl (Z.lor (Z.shiftl (Z.land (byte (c 0%nat)) 15) 6) (low 1%nat)) 6) (low 2%nat))
    else if (len =? 4) && is_cont (c 1%nat) && is_cont (c 2%nat) && is_cont (c 3%nat)
      then Some (Z.lor (Z.shiftl (Z.lor (Z.shiftl (Z.lor (Z.shiftl (Z.land (byte (c 0%nat)) 7) 6) (low 1%nat)) 6) (low 2%nat)) 6) (low 3%nat))
    else None in
  (len,
   match cp with
   | None => false
   | Some cp =>
       negb (((cp <? 128) && (1 <? len)) || ((cp <? 2048) && (2 <? len)) || ((cp <? 65536) && (3 <? len)))
       && negb (1114111 <? cp)
       && negb ((55296 <=? cp) && (cp <=? 57343))
   end).

(** lib/parson/parson.c:241-251; the fuel is the length, every step passes at least one byte *)
Fixpoint utf8_loop (fuel : nat) (string : list ascii) : bool :=
  match string with
  | [] => true
  | _ =>
      match fuel with
      | O => false
      | S fuel =>
          let '(len, ok) := verify_utf8_sequence string in
          if ok then utf8_loop fuel (skipn (Z.to_nat len) string) else false
      end
  end.
Definition is_valid_utf8 (string : list ascii) : bool := utf8_loop (length string) string.

(** lib/parson/parson.c:1343-1363; [None] is NULL *)
Definition json_value_init_string (string : list ascii) : option jval :=
  if is_valid_utf8 string then Some (JStr string) else None.

(** ** objects and arrays *)
(** lib/parson/parson.c:412-424, 1135-1140 *)
Fixpoint json_object_get_value {A} (object : list (list ascii * A)) (name : list ascii) : option A :=
  match object with
  | [] => None
  | (n, v) :: t => if same n name then Some v else json_object_get_value t name
  end.

(** lib/parson/parson.c:350-380: [None] is JSONFailure *)
Definition json_object_add (object : list (list ascii * jval)) (name : list ascii) (value : jval) : option (list (list ascii * jval)) :=
  match json_object_get_value object name with
  | Some _ => None
  | None => Some (object ++ [(name, value)])
  end.

(** lib/parson/parson.c:1748-1756: the first member of that name is overwritten *)
Fixpoint overwrite (object : list (list ascii * jval)) (name : list ascii) (value : jval) : list (list ascii * jval) :=
  match object with
  | [] => []
  | (n, v) :: t => if same n name then (n, value) :: t else (n, v) :: overwrite t name value
  end.

(** lib/parson/parson.c:1741-1760; [value] may be NULL *)
Definition json_object_set_value (object : list (list ascii * jval)) (name : list ascii) (value : option jval) : option (list (list ascii * jval)) :=
  match value with
  | None => None
  | Some value =>
      match json_object_get_value object name with
      | Some _ => Some (overwrite object name value)
      | None => json_object_add object name value
      end
  end.

(** lib/parson/parson.c:1762-1764; the callers in output.c ignore the status, so the object after the
    call is what counts *)
Definition json_object_set_string (object : list (list ascii * jval)) (name string : list ascii) : list (list ascii * jval) :=
  match json_object_set_value object name (json_value_init_string string) with
  | Some object => object
  | None => object
  end.

(** strchr(name, '.'): what comes before and after the first dot *)
Fixpoint cut_dot (name : list ascii) : option (list ascii * list ascii) :=
  match name with
  | [] => None
  | c :: t =>
      if Ascii.eqb c "." then Some ([], t)
      else match cut_dot t with Some (a, b) => Some (c :: a, b) | None => None end
  end.

(** lib/parson/parson.c:1778-1818; the recursion is on the name, the fuel is its length. The new object
    is built before it is added; a failing addition frees it. *)
Fixpoint dotset (fuel : nat) (object : list (list ascii * jval)) (name : list ascii) (value : jval) : option (list (list ascii * jval)) :=
  match cut_dot name with
  | None => json_object_set_value object name (Some value)
  | Some (first, rest) =>
      match fuel with
      | O => None
      | S fuel =>
          match json_object_get_value object first with
          | Some (JObj inner) =>
              match dotset fuel inner rest value with
              | Some inner => Some (overwrite object first (JObj inner))
              | None => None
              end
          | Some _ => None
          | None =>
              match dotset fuel [] rest value with
              | Some inner => json_object_add object first (JObj inner)
              | None => None
              end
          end
      end
  end.
Definition json_object_dotset_value (object : list (list ascii * jval)) (name : list ascii) (value : jval) : option (list (list ascii * jval)) :=
  dotset (length name) object name value.

(** lib/parson/parson.c:1820-1830, again with the status ignored *)
Definition json_object_dotset_string (object : list (list ascii * jval)) (name string : list ascii) : list (list ascii * jval) :=
  match json_value_init_string string with
  | None => object
  | Some value => match json_object_dotset_value object name value with Some object => object | None => object end
  end.

(** lib/parson/parson.c:1686-1691, 488-499 *)
Definition json_array_append_value (array : list jval) (value : jval) : list jval := array ++ [value].

(** ** serialisation *)
(** The buffer is [mem]; [at_] is where the callee writes, [None] when buf is NULL and only the length is
    wanted. A callee returns what it wrote (an int) and the buffer. Addition of ints that overflow is
    undefined. *)
Definition int_max : Z := 2147483647.
Definition add_int (a b : Z) : res Z := if a + b <=? int_max then Ok (a + b) else UB.
Definition advance (at_ : option nat) (written : Z) : option nat :=
  match at_ with Some p => Some (p + Z.to_nat written)%nat | None => None end.
Definition writer := option nat -> list ascii -> res (Z * list ascii).

(** [written = f(buf); buf += written; written_total += written], then the rest; the macros
    lib/parson/parson.c:857-867 and the calls written out. The sums are
    taken from the right, in C from the left; all terms are nonnegative, so an overflow happens in one
    exactly when it happens in the other. *)
Definition after (f k : writer) : writer := fun at_ mem =>
  do (w, mem) <- f at_ mem;
  do (w', mem) <- k (advance at_ w) mem;
  do total <- add_int w w';
  Ok (total, mem).
Definition nothing : writer := fun _ mem => Ok (0, mem).
Fixpoint for_each (l : list writer) (k : writer) : writer :=
  match l with [] => k | f :: t => after f (for_each t k) end.

(** sprintf(buf, "%s", string): the characters and a NUL *)
Fixpoint sprintf_at (mem : list ascii) (p : nat) (s : list ascii) : res (list ascii) :=
  match s with
  | [] => wr mem p zero
  | c :: t => do mem <- wr mem p c; sprintf_at mem (S p) t
  end.

(** lib/parson/parson.c:1075-1080 *)
Definition append_string (s : list ascii) : writer := fun at_ mem =>
  match at_ with
  | None => Ok (Z.of_nat (length s), mem)
  | Some p => do mem <- sprintf_at mem p s; Ok (Z.of_nat (length s), mem)
  end.
Definition puts (s : string) : writer := append_string (list_ascii_of_string s).
Definition nl : string := String "010" EmptyString.

(** lib/parson/parson.c:1053-1059 *)
Definition put_char (c : ascii) : writer := fun at_ mem =>
  match at_ with
  | None => Ok (1, mem)
  | Some p => do mem <- wr mem p c; Ok (1, mem)
  end.

(** lib/parson/parson.c:1012-1060: what is written for one character *)
Definition escape (c : ascii) : writer :=
  match nat_of_ascii c with
  | 34 => puts "\"""
  | 92 => puts "\\"
  | 47 => puts "\/"
  | 8 => puts "\b"
  | 12 => puts "\f"
  | 10 => puts "\n"
  | 13 => puts "\r"
  | 9 => puts "\t"
  | 0 => puts "\u0000"
  | 1 => puts "\u0001"
  | 2 => puts "\u0002"
  | 3 => puts "\u0003"
  | 4 => puts "\u0004"
  | 5 => puts "\u0005"
  | 6 => puts "\u0006"
  | 7 => puts "\u0007"
  | 11 => puts "\u000b"
  | 14 => puts "\u000e"
  | 15 => puts "\u000f"
  | 16 => puts "\u0010"
  | 17 => puts "\u0011"
  | 18 => puts "\u0012"
  | 19 => puts "\u0013"
  | 20 => puts "\u0014"
  | 21 => puts "\u0015"
  | 22 => puts "\u0016"
  | 23 => puts "\u0017"
  | 24 => puts "\u0018"
  | 25 => puts "\u0019"
  | 26 => puts "\u001a"
  | 27 => puts "\u001b"
  | 28 => puts "\u001c"
  | 29 => puts "\u001d"
  | 30 => puts "\u001e"
  | 31 => puts "\u001f"
  | _ => put_char c
  end%nat.

(** lib/parson/parson.c:1005-1064 *)
Definition json_serialize_string (s : list ascii) : writer :=
  after (puts """") (for_each (map escape s) (puts """")).

(** lib/parson/parson.c:1066-1073 *)
Definition append_indent (level : nat) : writer := for_each (repeat (puts "    ") level) nothing.

(** the comma of lib/parson/parson.c:901-903, 946-948, after item [i] of [count] *)
Definition comma (i count : nat) : writer := if (i <? count - 1)%nat then puts "," else nothing.

(** lib/parson/parson.c:884-908: the items from [i] on *)
Fixpoint items_from (items : list (nat -> writer)) (level i count : nat) (k : writer) : writer :=
  match items with
  | [] => k
  | item :: t =>
      after (append_indent (level + 1)) (after (item (level + 1)%nat) (after (comma i count) (after (puts nl)
        (items_from t level (S i) count k))))
  end.

(** lib/parson/parson.c:922-952: the members from [i] on; the value is looked up by its name among all
    the members *)
Fixpoint members_from (all : list (list ascii * (nat -> writer))) (keys : list (list ascii)) (level i count : nat) (k : writer) : writer :=
  match keys with
  | [] => k
  | key :: t =>
      after (append_indent (level + 1)) (after (json_serialize_string key) (after (puts ":") (after (puts " ")
        (after (match json_object_get_value all key with
                | Some value => value (level + 1)%nat
                | None => fun _ _ => UB
                end)
          (after (comma i count) (after (puts nl) (members_from all t level (S i) count k)))))))
  end.

(** lib/parson/parson.c:869-1003 with is_pretty = 1 *)
Fixpoint serialize (v : jval) (level : nat) {struct v} : writer :=
  match v with
  | JArr array =>
      let count := length array in
      after (puts "[") (after (if (0 <? count)%nat then puts nl else nothing)
        (items_from (map serialize array) level 0 count
          (after (if (0 <? count)%nat then append_indent level else nothing) (puts "]"))))
  | JObj object =>
      let count := length object in
      after (puts "{") (after (if (0 <? count)%nat then puts nl else nothing)
        (members_from (map (fun nv => (fst nv, serialize (snd nv))) object) (map fst object) level 0 count
          (after (if (0 <? count)%nat then append_indent level else nothing) (puts "}"))))
  | JStr string => json_serialize_string string
  end.

(** lib/parson/parson.c:1540-1544 *)
Definition json_serialization_size_pretty (v : jval) : res Z :=
  do (w, _) <- serialize v 0 None [];
  add_int w 1.

(** lib/parson/parson.c:1546-1557; [false] is JSONFailure *)
Definition json_serialize_to_buffer_pretty (v : jval) (buf : list ascii) : res (bool * list ascii) :=
  do needed <- json_serialization_size_pretty v;
  if (needed =? 0) || (Z.of_nat (length buf) <? needed) then Ok (false, buf)
  else do (w, buf) <- serialize v 0 (Some 0%nat) buf; Ok (true, buf).

(** lib/parson/parson.c:1581-1598; [junk] is what the allocated block holds, [None] is NULL *)
Definition json_serialize_to_string_pretty (junk : nat -> ascii) (v : jval) : res (option (list ascii)) :=
  do size <- json_serialization_size_pretty v;
  if size =? 0 then Ok None
  else
    do (ok, buf) <- json_serialize_to_buffer_pretty v (map junk (seq 0 (Z.to_nat size)));
    Ok (if ok then Some buf else None).
