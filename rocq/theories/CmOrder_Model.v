(** Model of the order argument of the CM method: src/cm/cm.c:151-216 ([cm_init]). *)
From Coq Require Import Ascii.
From Verif Require Import Base Str_Model Cli_Model Input_Model.
Local Open Scope Z_scope.

(** cm.c:165-181: the pieces between commas, each read with strtoi into the next entry of a vector of [room]
    entries; [s] is the rest of the copied string, [piece] what precedes it since the last comma *)
Fixpoint split_factors (room : nat) (piece s : str) (factors : list Z) : res (list Z) :=
  match s with
  | [] => if (length factors <? room)%nat then Ok (factors ++ [strtoi (rev piece)]) else UB
  | c :: s =>
      if Ascii.eqb c "," then
        if (length factors <? room)%nat then split_factors room [] s (factors ++ [strtoi (rev piece)]) else UB
      else split_factors room (c :: piece) s factors
  end.

(** what [cm_init] ends with: an error (the function returns 1), or the order and whether it is treated as prime *)
Inductive cm_setup := Refused | Accepted (order : Z) (ord_prime : bool).

(** cm.c:151-209, for the method METHOD_CM. The calls to [addprimes] (lines 184-190) only fill PARI's table of known
    primes and are left out. For a list the order is printed in decimal (line 194) and read again by the generators; the
    text is taken to be read as the number printed. [bits] is an unsigned long; the comparison in line 203 converts
    [ord_log], which is not negative, to one. *)
Definition cm_init_order (isprime : Z -> bool) (bits : Z) (arg : str) : res cm_setup :=
  do delims <- str_cnt arg ",";
  do order <-
    (if (delims =? 0)%nat then Ok (strtoi arg)
     else do factors <- split_factors (delims + 1) [] arg [];
          Ok (fold_left Z.mul factors 1));
  if order =? 0 then Ok Refused
  else if bits <? Z.log2 order then Ok Refused
  else Ok (Accepted order ((delims =? 0)%nat && isprime order)).
