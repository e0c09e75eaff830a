(** Model of the two checks of the order that no plan installs: src/gen/order.c:123-165. *)
From Coq Require Import Ascii.
From Verif Require Import Base Cli_Model Input_Model Hex_Model.
From Verif Require Engine_Model.
Local Open Scope Z_scope.

(** src/gen/order.c:123-141. [factor_primes n] is the first column of PARI's factor(n). An empty column has no last
    entry: gel(primes, 0) is the code word of the vector, read as a pointer. *)
Definition order_check_pohlig_hellman (factor_primes : Z -> list Z) (order : Z) (args : option str) : res Z :=
  match args with
  | None => Ok Engine_Model.INT_MIN
  | Some min_fact =>
      let minf := strtoi min_fact in
      let primes := factor_primes order in
      match rev primes with
      | [] => UB
      | largest :: _ => Ok (if largest <=? minf then -4 else 1)
      end
  end.

(** src/gen/order.c:143-165. [core n] is PARI's core(n); field_elementi leaves an integer alone
    (src/gen/field.c:148-149). [binary]: cfg->field == FIELD_BINARY. *)
Definition order_check_discriminant (core : Z -> Z) (binary : bool) (field order : Z) (args : option str) : res Z :=
  match args with
  | None => Ok Engine_Model.INT_MIN
  | Some min_disc =>
      if binary then Ok 1 else
      let mind := strtoi min_disc in
      let t := - (order - (field + 1)) in
      let tp := t * t - field * 4 in
      let D := core tp in
      Ok (if Z.abs D <=? Z.abs mind then -4 else 1)
  end.
