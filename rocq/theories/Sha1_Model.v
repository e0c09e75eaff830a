(** Model of lib/sha1/sha1.c. Words are numbers below 2^32; unsigned int
    arithmetic wraps explicitly; array accesses are checked. *)
From Verif Require Import Base.
Local Open Scope nat_scope.

(** lib/sha1/sha1.h: SHA_CTX *)
Record ctx := mkctx { cH : list N; cW : list N; lenW : nat; sizeHi : N; sizeLo : N }.

Definition w32 (x : N) : N := (x mod 2 ^ 32)%N.

(** lib/sha1/sha1.c:38; the left shift of an unsigned int drops high bits *)
Definition SHA_ROT (x n : N) : N := N.lor (w32 (N.shiftl x n)) (N.shiftr x (32 - n)).

(** five working variables *)
Definition vars := (N * N * N * N * N)%type.

(** One round with the given function and constant (lines 56-57, 60-61, 64-65, 68-69). *)
Definition sha_round (fn : N -> N -> N -> N) (k : N) (W : list N) (t : nat) (v : vars) : res vars :=
  let '(A, B, C, D, E) := v in
  do wt <- rd W t;
  let TEMP := w32 (w32 (w32 (w32 (SHA_ROT A 5 + fn B C D) + E) + wt) + k) in
  Ok (TEMP, A, SHA_ROT B 30, C, D).

(** lib/sha1/sha1.c:44-47 *)
Definition sha_schedule (W : list N) : res (list N) :=
  for_from 64 16 (fun t W =>
    do w3 <- rd W (t - 3); do w8 <- rd W (t - 8); do w14 <- rd W (t - 14); do w16 <- rd W (t - 16);
    wr W t (SHA_ROT (N.lxor (N.lxor (N.lxor w3 w8) w14) w16) 1)) W.

(** lib/sha1/sha1.c:40-77 *)
Definition shaHashBlock (c : ctx) : res ctx :=
  do W <- sha_schedule (cW c);
  do a <- rd (cH c) 0; do b <- rd (cH c) 1; do cc <- rd (cH c) 2; do d <- rd (cH c) 3; do e <- rd (cH c) 4;
  do v <- for_from 20 0 (sha_round (fun B C D => N.lxor (N.land (N.lxor C D) B) D) 0x5a827999 W)
            (a, b, cc, d, e);
  do v <- for_from 20 20 (sha_round (fun B C D => N.lxor (N.lxor B C) D) 0x6ed9eba1 W) v;
  do v <- for_from 20 40 (sha_round (fun B C D => N.lor (N.land B C) (N.land D (N.lor B C))) 0x8f1bbcdc W) v;
  do v <- for_from 20 60 (sha_round (fun B C D => N.lxor (N.lxor B C) D) 0xca62c1d6 W) v;
  let '(A, B, C, D, E) := v in
  Ok (mkctx [w32 (a + A); w32 (b + B); w32 (cc + C); w32 (d + D); w32 (e + E)]
            W (lenW c) (sizeHi c) (sizeLo c)).

(** lib/sha1/sha1.c:79-95 *)
Definition SHA1_Init : ctx :=
  mkctx [0x67452301; 0xefcdab89; 0x98badcfe; 0x10325476; 0xc3d2e1f0]%N (repeat 0%N 80) 0 0 0.

(** lib/sha1/sha1.c:103-110, one byte *)
Definition update1 (c : ctx) (x : N) : res ctx :=
  do w <- rd (cW c) (lenW c / 4);
  do W <- wr (cW c) (lenW c / 4) (w32 (N.shiftl w 8));
  do w <- rd W (lenW c / 4);
  do W <- wr W (lenW c / 4) (N.lor w x);
  let lw := lenW c + 1 in
  do c' <- (if lw mod 64 =? 0 then
              do c' <- shaHashBlock (mkctx (cH c) W lw (sizeHi c) (sizeLo c));
              Ok (mkctx (cH c') (cW c') 0 (sizeHi c') (sizeLo c'))
            else Ok (mkctx (cH c) W lw (sizeHi c) (sizeLo c)));
  let lo := w32 (sizeLo c' + 8) in
  Ok (mkctx (cH c') (cW c') (lenW c') (w32 (sizeHi c' + (if (lo <? 8)%N then 1 else 0))) lo).

(** lib/sha1/sha1.c:97-112; [data] is the [len] bytes (fewer than 2^31) passed. *)
Fixpoint SHA1_Update (c : ctx) (data : list N) : res ctx :=
  match data with
  | [] => Ok c
  | x :: t => do c' <- update1 c x; SHA1_Update c' t
  end.

(** lib/sha1/sha1.c:131-133 *)
Fixpoint pad_loop (fuel : nat) (c : ctx) : res ctx :=
  if lenW c =? 56 then Ok c else
  match fuel with
  | O => Fuel
  | S n => do c' <- SHA1_Update c [0%N]; pad_loop n c'
  end.

(** lib/sha1/sha1.c:121-128 *)
Definition padlen (c : ctx) : list N :=
  map (fun k => N.land (N.shiftr (sizeHi c) k) 255) [24; 16; 8; 0]%N ++
  map (fun k => N.land (N.shiftr (sizeLo c) k) 255) [24; 16; 8; 0]%N.

(** lib/sha1/sha1.c:137-140; the cast to unsigned char takes the value mod 256 *)
Definition output (H : list N) : res (list N * list N) :=
  for_to 20 (fun i (oh : list N * list N) =>
    let '(o, H) := oh in
    do h <- rd H (i / 4);
    do H' <- wr H (i / 4) (w32 (N.shiftl h 8));
    Ok (o ++ [(N.shiftr h 24 mod 256)%N], H')) ([], H).

(** lib/sha1/sha1.c:114-144: the digest and the re-initialised context. *)
Definition SHA1_Final (c : ctx) : res (list N * ctx) :=
  let pl := padlen c in
  do c <- SHA1_Update c [128%N];
  do c <- pad_loop 64 c;
  do c <- SHA1_Update c pl;
  do oh <- output (cH c);
  Ok (fst oh, SHA1_Init).

(** The whole sequence with the message cut into pieces. *)
Fixpoint updates (c : ctx) (pieces : list (list N)) : res ctx :=
  match pieces with
  | [] => Ok c
  | p :: t => do c' <- SHA1_Update c p; updates c' t
  end.
Definition sha1_pieces (pieces : list (list N)) : res (list N) :=
  do c <- updates SHA1_Init pieces; do r <- SHA1_Final c; Ok (fst r).
Definition sha1_msg (m : list N) : res (list N) := sha1_pieces [m].
