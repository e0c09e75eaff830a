(** Model of the invalid curve method: /repo/src/invalid/invalid.c, except the threads
    (InvThread_Model.v).

    Not modelled: how curves are generated (the orders of the curves that exhaustive_gen finds
    with random b, and whether its generators stage succeeds, are inputs), the points on them. *)
From Coq Require Import Ascii String.
From Verif Require Import Base Cli_Model.
Local Open Scope Z_scope.

(** ** The primes *)
Section Primes.
  (** PARI's unextprime: the smallest prime >= x, or 0 when it does not fit a word *)
  Context (unextprime : Z -> Z).

  (** src/invalid/invalid.c:76-89: the values of [last] and [upper] *)
  Definition primes_range (arg : option str) : Z * Z :=
    match arg with
    | None => (1, 0)
    | Some s =>
        let (v, rest) := strtol s in
        let last := u64 (v - 1) in
        (last, match rest with
               | [] => unextprime (u64 (last + 1))
               | _ :: rest' => u64 (fst (strtol rest'))
               end)
    end.

  (** src/invalid/invalid.c:91-109; [primes] is the contents of the array (of [size] elements)
      so far *)
  Fixpoint primes_loop (fuel : nat) (bound upper product last : Z) (size : nat) (primes : list Z) : res (list Z) :=
    if (((upper =? 0) && (product <=? bound)) || (last <=? upper))%bool then
      match fuel with
      | O => Fuel
      | S fuel' =>
          let product := product * i64 last in
          let next := unextprime (u64 (last + 1)) in
          if (negb (upper =? 0) && (upper <? next))%bool then Ok primes
          else if (length primes <? size)%nat then
            let primes := primes ++ [next] in
            let size := if (length primes =? size)%nat then (size * 2)%nat else size in
            primes_loop fuel' bound upper product next size primes
          else UB
      end
    else Ok primes.

  (** src/invalid/invalid.c:71-119 *)
  Definition invalid_primes (fuel : nat) (order : Z) (arg : option str) : res (list Z) :=
    let '(last, upper) := primes_range arg in
    primes_loop fuel (order * order) upper 1 last 10 [].
End Primes.

(** ** The search in one thread *)
(** what is written to the output *)
Inductive out := OBegin | OCurve (c : nat) | OSep | OEnd.

Section Single.
  Context (primes : list Z).
  (** the [k]-th random curve: its order, and whether exhaustive_gen_retry
      (src/invalid/invalid.c:158) finds generators for it *)
  Context (curve_order : nat -> Z) (gens_ok : nat -> bool).

  (** PARI's dvdis, which takes a (signed) long *)
  Definition dvdis (x y : Z) : bool := let y := i64 y in if y =? 0 then x =? 0 else x mod y =? 0.

  (** curves[i] == NULL && dvdis(invalid->order, primes[i]); a curve is known by its number *)
  Definition wanted (curves : list (option nat)) (order : Z) (i : nat) : res bool :=
    do c <- rd curves i;
    do p <- rd primes i;
    Ok (match c with None => dvdis order p | Some _ => false end).

  (** for (size_t i = n; i-- > 0;) s = f(i, s) *)
  Fixpoint for_down {S} (n : nat) (f : nat -> S -> res S) (s : S) : res S :=
    match n with
    | O => Ok s
    | Datatypes.S i => do s' <- f i s; for_down i f s'
    end.

  (** src/invalid/invalid.c:146-155 *)
  Definition count_wanted (curves : list (option nat)) (order : Z) : res nat :=
    for_down (length primes) (fun i total =>
      do w <- wanted curves order i; Ok (if w then S total else total)) 0%nat.

  (** src/invalid/invalid.c:173-180: the primes handed on, in an array of [total] elements *)
  Definition fill_dprimes (curves : list (option nat)) (order : Z) (total : nat) : res (list Z) :=
    do (j, dprimes) <- for_to (length primes) (fun i s =>
      let '(j, dprimes) := s in
      do w <- wanted curves order i;
      if w then do p <- rd primes i; do d <- wr dprimes j p; Ok (S j, d) else Ok (j, dprimes))
      (0%nat, repeat 0 total);
    Ok dprimes.

  (** src/invalid/invalid.c:190-207; state: curves, ncurves, output *)
  Definition save_step (k : nat) (i : nat) (s : list (option nat) * nat * list out) : res (list (option nat) * nat * list out) :=
    let '(curves, ncurves, o) := s in
    do w <- wanted curves (curve_order k) i;
    if w then
      do curves <- wr curves i (Some k);
      let o := o ++ [OCurve i] in
      let o := if (Z.of_nat ncurves =? u64 (Z.of_nat (length primes) - 1))%Z then o else o ++ [OSep] in
      Ok (curves, S ncurves, o)
    else Ok s.

  (** src/invalid/invalid.c:137-233; [k]: the number of curves tried so far *)
  Fixpoint single_loop (fuel : nat) (k : nat) (s : list (option nat) * nat * list out) : res (list (option nat) * nat * list out) :=
    let '(curves, ncurves, o) := s in
    if (ncurves <? length primes)%nat then
      match fuel with
      | O => Fuel
      | Datatypes.S fuel' =>
          do total <- count_wanted curves (curve_order k);
          if (0 <? total)%nat then
            if gens_ok k then
              do dprimes <- fill_dprimes curves (curve_order k) total;
              do s <- for_down (length primes) (save_step k) s;
              single_loop fuel' (S k) s
            else single_loop fuel' (S k) s
          else single_loop fuel' (S k) s
      end
    else Ok s.

  (** src/invalid/invalid.c:121-237, with the array of src/invalid/invalid.c:376 *)
  Definition invalid_curves_single (fuel : nat) : res (list (option nat) * nat * list out) :=
    single_loop fuel 0 (repeat None (length primes), 0%nat, []).

  (** src/invalid/invalid.c:362-387 with one thread: what is written, the original curve is
      number [0] and the curve found for the [i]-th prime number [S i]; the second component is
      whether the method succeeded *)
  Definition renumber (o : out) : out := match o with OCurve i => OCurve (S i) | o => o end.
  Definition invalid_output (fuel : nat) : res (list out * bool) :=
    let head := [OBegin; OCurve 0; OSep] in
    if (length primes =? 0)%nat then Ok (head, false)
    else
      do (s, o) <- invalid_curves_single fuel;
      Ok (head ++ map renumber o ++ [OEnd], true).
End Single.
