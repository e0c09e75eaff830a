(** Model of the hexadecimal pattern filter, /repo/src/gen/hex.c.

    [fmt n] is pari_sprintf("%P0#*x", cfg->hex_digits, n). A variable-length array of length 0
    (no generators, no points) is taken as GNU C does, as an empty array. *)
From Coq Require Import Ascii String.
From Verif Require Import Base Bits_Model Str_Model Cli_Model Poly_Model.
Local Open Scope Z_scope.

(** a point: x and y, or the point at infinity, the one-element vector [0] *)
Definition hpoint := option (element * element).
Record hgen := HGen { hg_point : hpoint; hg_points : list hpoint }.
(** the fields of curve_t that are looked at *)
Record hcurve := HCurve { h_seed : option bits_t; h_field : field; h_a : element; h_b : element; h_order : Z; h_gens : list hgen }.

(** the C string in a buffer; without a NUL the reads leave the buffer *)
Definition c_text (b : list ascii) : res str := do n <- find_nul b 0; Ok (firstn n b).

Section Hex.
Variable fmt : Z -> str.

(** src/gen/hex.c:12-21; gel(point, 2) of the point at infinity is outside the vector *)
Definition hex_point (p : hpoint) : res str :=
  match p with
  | None => UB
  | Some (x, y) => do b <- str_joinv (Some [","%char]) [fmt (field_elementi x); fmt (field_elementi y)]; c_text b
  end.

Fixpoint each {A B} (f : A -> res B) (l : list A) : res (list B) :=
  match l with [] => Ok [] | x :: t => do y <- f x; do ys <- each f t; Ok (y :: ys) end.
Fixpoint cat_all (b : list ascii) (l : list str) : res (list ascii) :=
  match l with [] => Ok b | s :: t => do b <- strcat b s; cat_all b t end.

(** src/gen/hex.c:23-41 *)
Definition hex_points (ps : list hpoint) : res str :=
  do p <- each hex_point ps;
  let total := fold_left (fun total s => u64 (total + Z.of_nat (length s))) p 1 in
  do result <- try_calloc total;
  do result <- cat_all result p;
  c_text result.

(** strstr(3) *)
Fixpoint starts (p s : str) : bool :=
  match p, s with
  | [], _ => true
  | a :: p, b :: s => Ascii.eqb a b && starts p s
  | _ :: _, [] => false
  end.
Fixpoint strstr (s p : str) : bool :=
  starts p s || match s with [] => false | _ :: t => strstr t p end.

Definition OFFSET_SEED := 0. Definition OFFSET_FIELD := 1. Definition OFFSET_A := 2. Definition OFFSET_B := 3.
Definition OFFSET_ORDER := 5. Definition OFFSET_GENERATORS := 6. Definition OFFSET_POINTS := 7.

Definition when {A} (b : bool) (m : res (option A)) : res (option A) := if b then m else Ok None.

(** src/gen/hex.c:43-126; cfg->field agrees with the type of the field *)
Definition hex_check_param (search : str) (c : hcurve) (state : Z) : res Z :=
  let search_hex := map tolower search in
  do p0 <- when (OFFSET_SEED <=? state) (match h_seed c with Some b => do s <- bits_to_hex b; Ok (Some s) | None => Ok None end);
  do p1 <- when (OFFSET_FIELD <=? state) (match h_field c with Prime p => Ok (Some (fmt p)) | Binary _ => Ok None end);
  do p2 <- when (OFFSET_A <=? state) (Ok (Some (fmt (field_elementi (h_a c)))));
  do p3 <- when (OFFSET_B <=? state) (Ok (Some (fmt (field_elementi (h_b c)))));
  do p5 <- when (OFFSET_ORDER <=? state) (Ok (Some (fmt (h_order c))));
  do p6 <- when (OFFSET_GENERATORS <=? state)
      (do subgroups <- each (fun g => hex_point (hg_point g)) (h_gens c);
       do b <- str_join (Some [","%char]) (map Some subgroups); do s <- c_text b; Ok (Some s));
  do p7 <- when (OFFSET_POINTS <=? state)
      (do subgroups <- each (fun g => hex_points (hg_points g)) (h_gens c);
       do b <- str_join (Some [","%char]) (map Some subgroups); do s <- c_text b; Ok (Some s));
  Ok (if existsb (fun p => match p with Some s => strstr s search_hex | None => false end) [p0; p1; p2; p3; p5; p6; p7]
      then 1 else OFFSET_FIELD - state).
End Hex.
