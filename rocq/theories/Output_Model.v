(** Model of the output of the exhaustive (and complex multiplication) method:
    /repo/src/exhaustive/exhaustive.c:466-488 and /repo/src/io/output.c:186-230.

    Not modelled: how a curve becomes text (src/io/output.c:27-184; it is the parameter
    [show]) and failing writes. *)
From Coq Require Import String.
From Verif Require Import Base.
Local Open Scope string_scope.
Local Open Scope Z_scope.

Section Generate.
  Context {C : Type}.
  (** src/io/output.c:178-184 and 192-198 *)
  Context (show : C -> string).
  (** what exhaustive_gen (src/exhaustive/exhaustive.c) makes of the i-th curve: [None] when it
      gives up *)
  Context (gen : Z -> option C).

  Definition nl : string := String (Ascii.ascii_of_nat 10) EmptyString.
  (** src/io/output.c:186-190 *)
  Definition o_separator : string := "," ++ nl.
  Definition o_begin : string := "[" ++ nl.
  Definition o_end : string := "]" ++ nl.

  (** src/exhaustive/exhaustive.c:469-484, from iteration [i] on, with [fuel] iterations left;
      [count] is the signed cfg->count: both comparisons convert it to unsigned long.
      Result: the text and whether the method succeeded. *)
  Fixpoint generate_from (fuel : nat) (i count : Z) : res (string * bool) :=
    if i <? u64 count then
      match fuel with
      | O => Fuel
      | S fuel' =>
          match gen i with
          | None => Ok ("", false)
          | Some c =>
              let sep := if negb (i =? u64 (count - 1)) then o_separator else "" in
              do (rest, ok) <- generate_from fuel' (u64 (i + 1)) count;
              Ok (show c ++ sep ++ rest, ok)
          end
      end
    else Ok ("", true).

  (** src/exhaustive/exhaustive.c:466-488 *)
  Definition exhaustive_generate (fuel : nat) (count : Z) : res (string * bool) :=
    do (body, ok) <- generate_from fuel 0 count;
    Ok (o_begin ++ body ++ o_end, ok).
End Generate.
