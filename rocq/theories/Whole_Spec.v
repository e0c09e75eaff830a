(** What the curves that a run publishes have to be: said of the numbers in the output (CurveText_Spec.pub) and the
    configuration, with the textbook definition of the group of a curve (Ec) and nothing of the model. *)
From Coq Require Import Ascii String Znumtheory.
From Verif Require Import Base Fp Abelian Ec Irr_Spec Poly_Model Cli_Model Subgroup_Props Points_Props Gens_Props Random_Props CurveText_Spec.
From Verif Require Ec_F2m Supersingular_Props Sha1_Spec Ansi_Spec Brainpool_Spec Cli_Spec Bits_Spec Factor CurveText_Model Hex_Props Input_Props Plan_Model Koblitz_Model Whole_Model.
Local Open Scope Z_scope.
Local Open Scope list_scope.

(** the multiple [k] of a point *)
Definition ec_mul (p : field) (a : Z) (P : option (Z * Z)) (k : Z) : option (Z * Z) := zmul (ec_add p a) (ec_neg p) None P k.
Definition has_order (p : field) (a : Z) (P : option (Z * Z)) (n : Z) : Prop := order_is None (ec_mul p a) P n.
Definition xy_of (q : pub_point) : option (Z * Z) := Some (pp_x q, pp_y q).
(** every point of the curve is a sum of multiples of [gs] *)
Fixpoint combination (p : field) (a : Z) (gs : list (option (Z * Z))) (ks : list Z) : option (Z * Z) :=
  match gs, ks with g :: gs, k :: ks => ec_add p a (ec_mul p a g k) (combination p a gs ks) | _, _ => None end.
Definition generate (p : field) (a b : Z) (gs : list (option (Z * Z))) : Prop :=
  forall Q, ec_on p a b Q = true -> exists ks, length ks = length gs /\ Q = combination p a gs ks.

Section Curve.
Variable cfg : config.
Variable p : field.
Variables a b n : Z.   (** the coefficients, the number of points *)

(** a point of the curve, labelled with its order *)
Definition true_point (q : pub_point) : Prop := ec_on p a b (xy_of q) = true /\ has_order p a (xy_of q) (pp_order q).

(** --prime, --cofactor and --smooth; a negative cofactor counts as 2^64 more *)
Definition order_wanted : Prop :=
  (c_prime cfg = true -> prime n) /\
  (c_cofactor cfg = true -> exists r, prime r /\ n = (c_cofactor_value cfg mod 2 ^ 64) * r) /\
  (c_smooth cfg = true -> forall q, prime q -> (q | n) -> q < 2 ^ (c_smooth_value cfg)).

(** the generators: at most two, and one with --unique; with --cofactor (and not --unique) a point of the order that
    was asked for comes before them, labelled with that cofactor *)
Definition whole_gens (gs : list pub_point) : Prop :=
  Forall true_point gs /\ Forall (fun g => exists c, pp_cofactor g = Some c /\ c * pp_order g = n) gs /\
  generate p a b (map xy_of gs) /\ (length gs <= 2)%nat.
Definition gens_wanted (gs : list pub_point) : Prop :=
  if c_unique cfg then whole_gens gs /\ (length gs <= 1)%nat
  else if c_cofactor cfg then
    exists g rest, gs = g :: rest /\ whole_gens rest /\ true_point g /\ pp_cofactor g = Some (c_cofactor_value cfg mod 2 ^ 64) /\
      (forall r, prime r -> n = (c_cofactor_value cfg mod 2 ^ 64) * r -> length rest = 1%nat \/ ~ (r | c_cofactor_value cfg mod 2 ^ 64) -> pp_order g = r)
  else whole_gens gs.

(** the points of a subgroup: --points *)
Definition points_wanted (g : pub_point * list pub_point) : Prop :=
  Forall (fun q => true_point q /\ (exists k, xy_of q = ec_mul p a (xy_of (fst g)) k) /\ pp_cofactor q = None) (snd g) /\
  (c_points_type cfg = POINTS_NONE -> snd g = []) /\
  (c_points_type cfg = POINTS_PRIME -> lists (fun d => prime d /\ (d | pp_order (fst g))) (map pp_order (snd g))) /\
  (c_points_type cfg = POINTS_ALL -> lists (fun d => 1 < d /\ (d | pp_order (fst g))) (map pp_order (snd g))) /\
  (c_points_type cfg = POINTS_NONPRIME -> lists (fun d => 1 < d /\ ~ prime d /\ (d | pp_order (fst g))) (map pp_order (snd g))).
Definition amount_wanted (gs : list (pub_point * list pub_point)) : Prop :=
  c_points_type cfg = POINTS_RANDOM ->
  Z.of_nat (list_sum (map (fun g => length (snd g)) gs)) = if c_points_amount cfg =? 0 then 1 else c_points_amount cfg.

(** the discriminant, and the invariant: j b = 1 over a binary field *)
Definition discriminant : Z := match p with Prime p => (-16 * (4 * a ^ 3 + 27 * b ^ 2)) mod p | Binary _ => b end.
Definition invariant (j : Z) : Prop :=
  match p with
  | Prime p => 0 <= j < p /\ (j * (4 * a ^ 3 + 27 * b ^ 2)) mod p = (1728 * 4 * a ^ 3) mod p
  | Binary c => 0 <= j < field_size p /\ Ec_F2m.bmul (to_N c) j b = 1
  end.
(** --metadata; for a binary field there is no embedding degree, discriminant of the order and conductor *)
Definition metadata_wanted (m : CurveText_Model.cmeta) : Prop :=
  if c_metadata cfg then
    (exists j, CurveText_Model.m_j m = Some j /\ invariant j) /\
    CurveText_Model.m_disc m = Some discriminant /\
    CurveText_Model.m_frobenius m = Some (field_size p + 1 - n) /\
    match p with
    | Prime p =>
        (exists k, CurveText_Model.m_embedding m = Some k /\ if p =? n then k = 0 else embedding_degree p n k) /\
        (exists d f, CurveText_Model.m_cm m = Some d /\ CurveText_Model.m_conductor m = Some f /\
           ((p + 1 - n) ^ 2 - 4 * p = d * f ^ 2 /\ fundamental d /\ 0 < f))
    | Binary _ => CurveText_Model.m_embedding m = None /\ CurveText_Model.m_cm m = None /\ CurveText_Model.m_conductor m = None
    end
  else m = no_meta.

(** --hex-check: the numbers of the curve and the seed *)
Definition numbers (gs : list (pub_point * list pub_point)) : list Z :=
  match p with Prime p => [p] | Binary _ => [] end ++ [a; b; n] ++ flat_map (fun g => [pp_x (fst g); pp_y (fst g)]) gs ++ flat_map (fun g => flat_map (fun q => [pp_x q; pp_y q]) (snd g)) gs.
Definition hex_wanted (hexw : Z -> list ascii) (seed : option (list ascii)) (gs : list (pub_point * list pub_point)) : Prop :=
  forall s, c_hex_check cfg = Some s -> Forall Bits_Spec.is_hex s -> s <> [] -> last s "0"%char <> "0"%char ->
  (exists m, In m (numbers gs) /\ Hex_Props.contains (Hex_Props.digits hexw m) (map tolower s)) \/
  (exists t, seed = Some t /\ Hex_Props.contains t (map tolower s)).
End Curve.

(** What is asked of a published curve over the field [p], however its equation was found. *)
Definition wanted_curve (cfg : config) (hexw : Z -> list ascii) (p : field) (c : pub) : Prop :=
  let a := pub_a c in let b := pub_b c in let n := points p a b in
  nonsingular p a b /\ pub_order c = n /\
  order_wanted cfg n /\
  gens_wanted cfg p a b n (map fst (pub_groups c)) /\
  Forall (points_wanted cfg p a b) (pub_groups c) /\ amount_wanted cfg (pub_groups c) /\
  metadata_wanted cfg p a b n (pub_meta c) /\
  hex_wanted cfg p a b n hexw (pub_seed c) (pub_groups c).

(** A published random curve is what was asked for. *)
Definition wanted (cfg : config) (hexw : Z -> list ascii) (c : pub) : Prop :=
  exists p, pub_f c = PubPrime p /\ pub_seed c = None /\ prime p /\ has_bits p (c_bits cfg) /\
  0 <= pub_a c < p /\ 0 <= pub_b c < p /\ wanted_curve cfg hexw (Prime p) c.

(** ** Parameters that are typed in *)
(** what holds of the number that the field [t] of the input is, if it is one *)
Definition typed (d : ascii) (t : list ascii) (R : Z -> Prop) : Prop :=
  forall u r closed v, Input_Props.item d t u r closed -> Input_Props.number u v -> R v.
(** a coefficient is asked for until one is typed that has a chance to fit *)
Definition refused (d : ascii) (bits : Z) (t : list ascii) : Prop := typed d t (fun v => 2 ^ bits < v \/ v = -1 \/ v = -2).
Definition typed_coefficient (d : ascii) (bits p : Z) (l : list (list ascii)) (x : Z) : Prop :=
  exists no t, l = no ++ [t] /\ Forall (refused d bits) no /\ typed d t (fun v => v <= 2 ^ bits /\ x = v mod p).
(** How a parameter comes about; [l] are the fields of the input that are used for it. *)
Inductive how := Typed | Random | Fixed (v : Z).
Definition coefficient (h : how) (d : ascii) (bits p : Z) (l : list (list ascii)) (x : Z) : Prop :=
  0 <= x < p /\ match h with Typed => typed_coefficient d bits p l x | Random => l = [] | Fixed v => l = [] /\ x = v end.
Definition field_chosen (cfg : config) (d : ascii) (l : list (list ascii)) (p : Z) : Prop :=
  if Plan_Model.is_random cfg RANDOM_FIELD then l = [] /\ has_bits p (c_bits cfg) else exists t, l = [t] /\ typed d t (fun v => v = p).
Definition how_a (cfg : config) : how :=
  if c_koblitz cfg then Fixed (c_koblitz_value cfg) else if Plan_Model.is_random cfg RANDOM_A then Random else Typed.
Definition how_b (cfg : config) : how := if c_koblitz cfg then Fixed 1 else if Plan_Model.is_random cfg RANDOM_B then Random else Typed.
(** The prime and the coefficients are the last that were typed in, as far as they are typed in; [l0] was read before,
    for attempts that came to nothing. *)
Definition chosen (cfg : config) (d : ascii) (l : list (list ascii)) (p a b : Z) : Prop :=
  exists l0 lp la lb, l = l0 ++ lp ++ la ++ lb /\ field_chosen cfg d lp p /\
    coefficient (how_a cfg) d (c_bits cfg) p la a /\ coefficient (how_b cfg) d (c_bits cfg) p lb b.
(** A curve that the default method publishes after reading [l] is what was asked for. *)
Definition wanted_default (cfg : config) (hexw : Z -> list ascii) (d : ascii) (l : list (list ascii)) (c : pub) : Prop :=
  exists p, pub_f c = PubPrime p /\ pub_seed c = None /\ prime p /\ p < 2 ^ c_bits cfg /\
  chosen cfg d l p (pub_a c) (pub_b c) /\ wanted_curve cfg hexw (Prime p) c.

(** ** Curves with a given number of points *)
(** without --prime, --cofactor and --smooth, which the methods with a given number of points ignore *)
Definition unfiltered (cfg : config) : config := set_smooth false (set_cofactor false (set_prime false cfg)).
(** A curve that --supersingular publishes after reading [l]. *)
Definition wanted_supersingular (cfg : config) (hexw : Z -> list ascii) (d : ascii) (l : list (list ascii)) (c : pub) : Prop :=
  exists p, pub_f c = PubPrime p /\ pub_seed c = None /\ prime p /\ p < 2 ^ c_bits cfg /\
  (exists l0 lp, l = l0 ++ lp /\ field_chosen cfg d lp p) /\ 0 <= pub_a c < p /\ 0 <= pub_b c < p /\
  pub_order c = p + 1 /\ wanted_curve (unfiltered cfg) hexw (Prime p) c.

(** The primes with 4p = 1 + 163 (2m+1)^2. *)
Definition anomalous_field (p : Z) : Prop := prime p /\ exists m, 0 <= m /\ p = 163 * (m * (m + 1)) + 41.
(** the sizes for which such primes come out short, see C48 *)
Definition short_sizes (bits : Z) : Prop := In ((bits - 1) mod 1620) [6; 7; 9; 10; 11].
(** A curve with complex multiplication by the integers of discriminant -163; up to isomorphism there are two. The one
    meant is that for which 6ab is a square exactly when 2*3*5*7*11*19*23*29*127 is none. *)
Definition cm_163 (p a b : Z) : Prop :=
  nonsingular (Prime p) a b /\ Supersingular_Props.has_invariant p a b (- 640320 ^ 3) /\ Fp.roots p (6 * (a * b)) + Fp.roots p (2 * 3 * 5 * 7 * 11 * 19 * 23 * 29 * 127) = 2.
(** What the method rests on: such a curve has p points. *)
Definition anomalous_true (bits : Z) : Prop := forall p a b, anomalous_field p -> p < 2 ^ bits -> 0 <= a < p -> 0 <= b < p -> cm_163 p a b -> points (Prime p) a b = p.
(** A curve that --anomalous publishes. *)
Definition wanted_anomalous (cfg : config) (hexw : Z -> list ascii) (c : pub) : Prop :=
  exists p, pub_f c = PubPrime p /\ pub_seed c = None /\ anomalous_field p /\ p < 2 ^ c_bits cfg /\ (~ short_sizes (c_bits cfg) -> has_bits p (c_bits cfg)) /\
  0 <= pub_a c < p /\ 0 <= pub_b c < p /\ cm_163 p (pub_a c) (pub_b c) /\ pub_order c = p /\ wanted_curve (unfiltered cfg) hexw (Prime p) c.

(** ** Curves from a seed: ANSI X9.62 *)
(** the bits of hexadecimal digits *)
Definition spells (digits : list ascii) (bs : list bool) : Prop :=
  length bs = (4 * length digits)%nat /\ Bits_Spec.hex_text (length digits) (bval bs) = map Bits_Spec.lower digits.
Definition seed_spelled (u : list ascii) (bs : list bool) : Prop :=
  exists digits, Cli_Spec.hex_body u digits /\ (40 <= length digits)%nat /\ spells digits bs.
(** The bits of the seed: those of the argument, 160 random ones (or 2^160, see C62), or those that were typed. *)
Definition seed_given (cfg : config) (d : ascii) (l : list (list ascii)) (bs : list bool) : Prop :=
  match Cli_Model.c_seed cfg with
  | Some u => l = [] /\ seed_spelled u bs
  | None =>
      if Plan_Model.is_random cfg RANDOM_SEED then l = [] /\ 2 ^ 159 <= bval bs <= 2 ^ 160 /\ Z.of_nat (length bs) = Z.log2 (bval bs) + 1
      else exists t, l = [t] /\ forall u r, Input_Props.item d t u r true -> ~ In "000"%char u -> seed_spelled u bs
  end.
(** SHA-1 of a string that is filled up to whole bytes; the standard has no such strings *)
Definition padded_sha1 (l : list bool) : list bool := Sha1_Spec.sha1 (l ++ repeat false ((8 - length l mod 8) mod 8)%nat).
(** A curve that --ansi publishes after reading [l] can be checked against its seed. *)
Definition wanted_ansi (cfg : config) (hexw : Z -> list ascii) (d : ascii) (l : list (list ascii)) (c : pub) : Prop :=
  exists p bs, pub_f c = PubPrime p /\ prime p /\ p < 2 ^ c_bits cfg /\
  pub_seed c = Some ("0"%char :: "x"%char :: Bits_Spec.hex_text (2 * ((length bs + 7) / 8)) (bval bs)) /\
  (exists l0 ls l1 lp, l = l0 ++ ls ++ l1 ++ lp /\ seed_given cfg d ls bs /\ field_chosen cfg d lp p) /\
  (Ansi_Spec.ansi_r padded_sha1 bs (Z.to_nat (c_bits cfg)) * pub_b c ^ 2) mod p = pub_a c ^ 3 mod p /\
  (has_bits (pub_a c) (c_bits cfg) \/ pub_a c = 2 ^ c_bits cfg) /\ 0 <= pub_b c < p /\
  wanted_curve cfg hexw (Prime p) c.
(** nothing of this is claimed when 512 MB are typed at once *)
Definition huge (l : list (list ascii)) : Prop := exists t, In t l /\ 2 ^ 29 <= Z.of_nat (length t).

(** ** Curves from a seed: Brainpool *)
Definition is_brainpool_rfc (cfg : config) : bool := c_seed_algo cfg =? SEED_BRAINPOOL_RFC.
(** The bits of the first seed: those of the argument, 160 random ones, or those that were typed. *)
Definition brainpool_spelled (u : list ascii) (bs : list bool) : Prop :=
  exists digits, Cli_Spec.hex_body u digits /\ length digits = 40%nat /\ spells digits bs.
Definition brainpool_given (cfg : config) (d : ascii) (l : list (list ascii)) (bs : list bool) : Prop :=
  length bs = 160%nat /\
  match Cli_Model.c_seed cfg with
  | Some u => l = [] /\ brainpool_spelled u bs
  | None =>
      if Plan_Model.is_random cfg RANDOM_SEED then l = []
      else exists t, l = [t] /\ forall u r, Input_Props.item d t u r true -> ~ In "000"%char u -> brainpool_spelled u bs
  end.
(** The coefficients come from the numbers [h 0], [h 1], ... that the seeds after that of the field stand for: [ia] is
    the first that is good for a coefficient b to follow. *)
Definition brainpool_equation (rfc : bool) (h : nat -> Z) (p a b : Z) (ia ib : nat) : Prop :=
  a = h ia mod p /\ b = h ib mod p /\ (ia < ib)%nat /\ Brainpool_Spec.good_a (h ia) p /\ Brainpool_Spec.nonsingular (h ia) (h ib) p /\
  if rfc then
    ~ Brainpool_Spec.is_square (h ib) p /\ (forall k, (ia < k < ib)%nat -> Brainpool_Spec.is_square (h k) p) /\
    Brainpool_Spec.tried_rfc (fun i => Brainpool_Spec.good_a (h i) p) (fun j => ~ Brainpool_Spec.is_square (h j) p) (fun i j => Brainpool_Spec.nonsingular (h i) (h j) p) ia
  else
    ib = (ia + 1)%nat /\ Brainpool_Spec.is_square (h ib) p /\
    Brainpool_Spec.tried (fun i => Brainpool_Spec.good_a (h i) p) (fun i j => Brainpool_Spec.is_square (h j) p /\ Brainpool_Spec.nonsingular (h i) (h j) p) ia.
(** A field and an equation from the seeds after [first], from that at position [i] on: it is that of the field, [h]
    belongs to those after it. *)
Definition brainpool_chain (cfg : config) (first : list bool) (i : nat) : nat -> Z := fun k =>
  Brainpool_Spec.bp_coeff (Brainpool_Spec.bp_seed (Brainpool_Spec.bp_seed first (i + 1)) k) (Z.to_nat (c_bits cfg)).
Definition brainpool_field (cfg : config) (first : list bool) (i : nat) (p : Z) : Prop :=
  Brainpool_Spec.bit_prime (Z.to_nat (c_bits cfg)) p /\ p mod 4 = 3 /\
  Brainpool_Spec.least3 prime (Brainpool_Spec.bp_c (Brainpool_Spec.bp_seed first i) (Z.to_nat (c_bits cfg))) p.
Definition brainpool_at (cfg : config) (first : list bool) (i : nat) (p a b : Z) (ia ib : nat) : Prop :=
  brainpool_field cfg first i p /\ brainpool_equation (is_brainpool_rfc cfg) (brainpool_chain cfg first i) p a b ia ib.
(** The order, and its embedding degree: the smallest k with n | p^k - 1 is above (n - 1) / 100. *)
Definition brainpool_order (p n : Z) : Prop := prime n /\ n < p.
Definition brainpool_degree (p n : Z) : Prop := forall k, 0 < k -> (n | p ^ k - 1) -> n - 1 < 100 * k.
(** The positions at which a field is tried: the first one; the next one when there is no prime of that size; when
    there is no such order, that after the coefficients; when the degree is too small, or with --hex-check, that after
    the generator, which takes a seed too. *)
Inductive brainpool_turn (cfg : config) (first : list bool) : nat -> Prop :=
| turn_first : brainpool_turn cfg first 0
| turn_field i q : brainpool_turn cfg first i ->
    Brainpool_Spec.least3 prime (Brainpool_Spec.bp_c (Brainpool_Spec.bp_seed first i) (Z.to_nat (c_bits cfg))) q ->
    ~ Brainpool_Spec.bit_prime (Z.to_nat (c_bits cfg)) q -> brainpool_turn cfg first (i + 1)
| turn_order i p a b ia ib : brainpool_turn cfg first i -> brainpool_at cfg first i p a b ia ib ->
    ~ brainpool_order p (points (Prime p) a b) -> brainpool_turn cfg first (i + 1 + ib + 1)
| turn_degree i p a b ia ib : brainpool_turn cfg first i -> brainpool_at cfg first i p a b ia ib ->
    brainpool_order p (points (Prime p) a b) -> ~ brainpool_degree p (points (Prime p) a b) -> brainpool_turn cfg first (i + 1 + ib + 2)
| turn_hex i p a b ia ib : brainpool_turn cfg first i -> brainpool_at cfg first i p a b ia ib ->
    brainpool_order p (points (Prime p) a b) -> c_hex_check cfg <> None -> brainpool_turn cfg first (i + 1 + ib + 2).
(** a point with the smallest x *)
Definition least_point (p : field) (a b x y : Z) : Prop :=
  ec_on p a b (Some (x, y)) = true /\ forall z w, ec_on p a b (Some (z, w)) = true -> x <= z.
(** with --prime and --unique, without --cofactor and --smooth *)
Definition brainpool_cfg (cfg : config) : config := set_unique true (set_prime true (unfiltered cfg)).
(** A curve from the seeds after [first]: the seed that is published is that of the generator. *)
Definition brainpool_curve (cfg : config) (first : list bool) (p : Z) (i ia ib : nat) (c : pub) : Prop :=
  pub_f c = PubPrime p /\
  pub_seed c = Some ("0"%char :: "x"%char :: Bits_Spec.hex_text 40 (bval (Brainpool_Spec.bp_seed first (i + 1 + ib + 1)))) /\
  brainpool_turn cfg first i /\ brainpool_at cfg first i p (pub_a c) (pub_b c) ia ib /\
  brainpool_order p (pub_order c) /\ brainpool_degree p (pub_order c) /\
  exists x y, least_point (Prime p) (pub_a c) (pub_b c) x y /\
    map (fun g => xy_of (fst g)) (pub_groups c) = [ec_mul (Prime p) (pub_a c) (Some (x, y)) (brainpool_chain cfg first i (ib + 1))].
(** A curve that --brainpool or --brainpool-rfc publishes after reading [l]. *)
Definition wanted_brainpool (cfg : config) (hexw : Z -> list ascii) (d : ascii) (l : list (list ascii)) (c : pub) : Prop :=
  exists first p i ia ib l0 ls, l = l0 ++ ls /\ brainpool_given cfg d ls first /\ brainpool_curve cfg first p i ia ib c /\
  wanted_curve (brainpool_cfg cfg) hexw (Prime p) c.

(** ** NUMS curves *)
(** the largest prime below 2^bits that is 3 modulo 4 *)
Definition nums_prime (bits p : Z) : Prop :=
  prime p /\ p mod 4 = 3 /\ p < 2 ^ bits /\ forall q, prime q -> q mod 4 = 3 -> q < 2 ^ bits -> q <= p.
(** y^2 = x^3 - 3 x + b is a curve with a prime number of points, so is its twist y^2 = x^3 - 3 x - b, the number is not that
    of the field and the degree is large *)
Definition nums_good (p b : Z) : Prop :=
  let n := points (Prime p) (p - 3) b in
  nonsingular (Prime p) (p - 3) b /\ prime n /\ prime (points (Prime p) (p - 3) (p - b)) /\ n <> p /\ brainpool_degree p n.
(** a point with the smallest x besides 0, or with x = 0 when there is none, and of the two with that x that with the
    smaller y *)
Definition first_point (p : field) (a b x y : Z) : Prop :=
  ec_on p a b (Some (x, y)) = true /\
  (forall z w, ec_on p a b (Some (z, w)) = true -> z <> 0 -> x <> 0 /\ x <= z) /\
  forall w, ec_on p a b (Some (x, w)) = true -> y <= w.
(** A curve that --nums publishes; with [alone], b is the least that will do. *)
Definition wanted_nums (cfg : config) (hexw : Z -> list ascii) (alone : Prop) (c : pub) : Prop :=
  exists p, pub_f c = PubPrime p /\ pub_seed c = None /\ nums_prime (c_bits cfg) p /\
  pub_a c = p - 3 /\ 0 <= pub_b c < p /\ nums_good p (pub_b c) /\
  (alone -> 0 < pub_b c /\ forall b, 0 < b < pub_b c -> ~ nums_good p b) /\
  (exists x y, first_point (Prime p) (p - 3) (pub_b c) x y /\ map (fun g => xy_of (fst g)) (pub_groups c) = [Some (x, y)]) /\
  wanted_curve (brainpool_cfg cfg) hexw (Prime p) c.
(** no timeout, no curve at the address of the one before it, no --hex-check *)
Definition undisturbed (cfg : config) (draws : Z -> nat -> Whole_Model.draw) : Prop :=
  (forall i n, Whole_Model.d_timeout (draws i n) = false) /\ (forall i, Whole_Model.d_static (draws i 0%nat) = None) /\ c_hex_check cfg = None.

(** ** Curves over a binary field *)
(** the binary fields, given by a polynomial with that number of coefficients *)
Definition binary_over (bits : Z) (f : field) : Prop :=
  match f with
  | Prime _ => False
  | Binary c => irreducible_poly c /\ length c = Z.to_nat (bits + 1) /\ nth (Z.to_nat bits) c 0 = 1 /\ Forall (fun d => d = 0 \/ d = 1) c
  end.
(** The exponents that are published: those of the terms of the polynomial besides the constant one, which is 1. There
    are four, of which some may be 0. *)
Definition spelled_poly (es c : list Z) : Prop :=
  length es = 4%nat /\ nth 0 c 0 = 1 /\ (forall n, (0 < n)%nat -> (In (Z.of_nat n) es <-> nth n c 0 = 1)) /\ Forall (fun e => 0 <= e) es.
(** A random or Koblitz curve over a random binary field. *)
Definition wanted_binary (cfg : config) (hexw : Z -> list ascii) (c : pub) : Prop :=
  exists es poly, pub_f c = PubBinary es /\ spelled_poly es poly /\ binary_over (c_bits cfg) (Binary poly) /\ pub_seed c = None /\
  0 <= pub_a c < 2 ^ c_bits cfg /\ 0 <= pub_b c < 2 ^ c_bits cfg /\
  (c_koblitz cfg = true -> pub_a c = c_koblitz_value cfg /\ pub_b c = 1) /\ wanted_curve cfg hexw (Binary poly) c.

(** A coefficient over a binary field: a number that is typed stands for the polynomial with its binary digits, the sign
    is lost. *)
Definition binary_coefficient (h : how) (d : ascii) (bits : Z) (l : list (list ascii)) (x : Z) : Prop :=
  0 <= x < 2 ^ bits /\
  match h with
  | Typed => exists no t, l = no ++ [t] /\ Forall (refused d bits) no /\ typed d t (fun v => v <= 2 ^ bits /\ x = Z.abs v)
  | Random => l = []
  | Fixed v => l = [] /\ x = v
  end.
(** A field of the input with no number in it or one that stands for an element of the binary fields or is too big. *)
Definition usable (d : ascii) (bits : Z) (t : list ascii) : Prop :=
  t = [] \/ exists u r closed, Input_Props.item d t u r closed /\ (u = [] \/ exists v, Input_Props.number u v /\ - 2 ^ bits < v /\ v <> 2 ^ bits).
(** A curve of the default method over a random binary field, after reading [l]. *)
Definition wanted_binary_typed (cfg : config) (hexw : Z -> list ascii) (d : ascii) (l : list (list ascii)) (c : pub) : Prop :=
  exists es poly, pub_f c = PubBinary es /\ spelled_poly es poly /\ binary_over (c_bits cfg) (Binary poly) /\ pub_seed c = None /\
  (exists l0 la lb, l = l0 ++ la ++ lb /\ binary_coefficient (how_a cfg) d (c_bits cfg) la (pub_a c) /\ binary_coefficient (how_b cfg) d (c_bits cfg) lb (pub_b c)) /\
  wanted_curve cfg hexw (Binary poly) c.

(** A curve over a random binary field from a seed by ANSI X9.62, after reading [l]. *)
Definition wanted_ansi_binary (cfg : config) (hexw : Z -> list ascii) (d : ascii) (l : list (list ascii)) (c : pub) : Prop :=
  exists es poly bs, pub_f c = PubBinary es /\ spelled_poly es poly /\ binary_over (c_bits cfg) (Binary poly) /\
  pub_seed c = Some ("0"%char :: "x"%char :: Bits_Spec.hex_text (2 * ((length bs + 7) / 8)) (bval bs)) /\
  (exists l0 ls, l = l0 ++ ls /\ seed_given cfg d ls bs) /\
  pub_b c = Ansi_Spec.ansi_b padded_sha1 bs (Z.to_nat (c_bits cfg)) /\ 0 < pub_b c < 2 ^ c_bits cfg /\
  has_bits (pub_a c) (c_bits cfg) /\ wanted_curve cfg hexw (Binary poly) c.
(** random_int(cfg->bits) is never 2^bits, which is no element of the field (see C62) *)
Definition never_top (cfg : config) (draws : Z -> nat -> Whole_Model.draw) : Prop :=
  forall i n r, Random_Model.random_int (c_bits cfg) (Whole_Model.d_one (draws i n)) = Ok r -> r <> 2 ^ c_bits cfg.

(** ** What is assumed of PARI *)
(** the prime fields that can be given, and those that have curves *)
Definition field_over (bits p : Z) : Prop := prime p /\ p < 2 ^ bits.
Definition odd_over (bits p : Z) : Prop := prime p /\ 2 < p < 2 ^ bits.
Definition prime_over (bits : Z) (f : field) : Prop := match f with Prime p => field_over bits p | Binary _ => False end.
(** the generators of the group: at most two, the order of the second divides that of the first, not the point at
    infinity *)
Definition pari_gens (p : field) (a b : Z) (gens : list (option (Z * Z))) : Prop :=
  Forall (fun g => ec_on p a b g = true /\ g <> None) gens /\ generate p a b gens /\
  match gens with
  | [] => points p a b = 1
  | [g] => has_order p a g (points p a b)
  | [g; h] => exists m k, has_order p a g m /\ has_order p a h k /\ m * k = points p a b /\ (k | m)
  | _ => False
  end.
Record pari_curve (P : Whole_Model.pari) (p : field) (a b : Z) : Prop := {
  pc_j : invariant p a b (Whole_Model.ell_get_j P p a b);
  pc_card : Whole_Model.ellff_get_card P p a b = points p a b;
  pc_sea : Whole_Model.ellsea P p a b = points p a b \/ (Whole_Model.ellsea P p a b = 0 /\ ~ prime (points p a b));
  pc_gens : forall t, pari_gens p a b (Whole_Model.ellff_get_gens P p a b t);
  pc_mul : forall Q k, ec_on p a b Q = true -> Whole_Model.ellmul P p a b Q k = ec_mul p a Q k;
  pc_order : forall Q, ec_on p a b Q = true -> has_order p a Q (Whole_Model.ellorder P p a b Q);
  pc_meta : match p with
    | Prime q =>
        (Z.gcd q (points p a b) = 1 -> embedding_degree q (points p a b) (Whole_Model.znorder P q (points p a b))) /\
        let x := (q + 1 - points p a b) ^ 2 - 4 * q in
        let (d, f) := Whole_Model.coredisc2 P x in x = d * f ^ 2 /\ fundamental d /\ 0 < f
    | Binary _ => True
    end
}.
(** for the curves [on] *)
Record pari_on (P : Whole_Model.pari) (on : field -> Z -> Z -> Prop) : Prop := {
  pc_isprime : forall n, Whole_Model.isprime P n = true <-> prime n;
  pc_randomprime : forall a b t p, Whole_Model.randomprime P a b t = Some p -> a <= p <= b;
  pc_factor : forall n, 0 < n -> Factor.factorization n (Whole_Model.Z_factor P n);
  pc_disc : forall p a b, on p a b -> inside p a -> inside p b -> Whole_Model.ellinit P p a b = true -> Whole_Model.ell_get_disc P p a b = discriminant p a b;
  pc_curve : forall p a b, on p a b -> curve_ok p a b -> pari_curve P p a b
}.
(** for all curves over the fields [over] *)
Definition every (over : field -> Prop) (f : field) (a b : Z) : Prop := over f.
Definition pari_over (P : Whole_Model.pari) (over : field -> Prop) : Prop := pari_on P (every over).
Definition pari_ok (P : Whole_Model.pari) (bits : Z) : Prop := pari_over P (prime_over bits).
(** and for the supersingular curves, see Supersingular_Props *)
Record supersingular_ok (P : Whole_Model.pari) (bits : Z) : Prop := {
  pc_kronecker : Supersingular_Props.kronecker_ok (Whole_Model.kronecker P);
  pc_nextprime : Supersingular_Props.nextprime_ok (Whole_Model.nextprime P);
  pc_class : forall p, odd_over bits p -> p mod 4 = 1 -> p mod 3 = 1 -> Supersingular_Props.class_roots_ok p (Whole_Model.class_roots P)
}.
(** and for the anomalous ones, for these curves alone *)
Definition anomalous_on (bits : Z) (f : field) (a b : Z) : Prop :=
  match f with Prime p => anomalous_field p /\ p < 2 ^ bits /\ 0 <= a < p /\ 0 <= b < p /\ cm_163 p a b | Binary _ => False end.
Record anomalous_ok (P : Whole_Model.pari) (bits : Z) : Prop := {
  pc_anomalous : pari_on P (anomalous_on bits);
  pc_symbol : Supersingular_Props.kronecker_ok (Whole_Model.kronecker P)
}.
(** and for those from a seed *)
Record ansi_ok (P : Whole_Model.pari) : Prop := {
  pc_inv : forall p x y, prime p -> Whole_Model.Fp_invsafe P x p = Some y -> (x * y) mod p = 1 mod p;
  pc_null : forall p x, prime p -> Whole_Model.Fp_invsafe P x p = None -> x mod p = 0;
  pc_sqrt : forall p x, prime p -> Whole_Model.Fp_issquare P x p = true ->
    (Whole_Model.Fp_sqrt P x p * Whole_Model.Fp_sqrt P x p) mod p = x mod p /\ 0 <= Whole_Model.Fp_sqrt P x p < p
}.
(** the same for Brainpool, where nothing is left out *)
Record brainpool_ok (P : Whole_Model.pari) (bits : Z) : Prop := {
  pc_next : forall x, x <= Whole_Model.nextprime P x /\ prime (Whole_Model.nextprime P x) /\ forall q, x <= q < Whole_Model.nextprime P x -> ~ prime q;
  pc_init : forall p a b, prime_over bits p -> curve_ok p a b -> Whole_Model.ellinit P p a b = true;
  pc_one : forall p, prime p -> Whole_Model.znorder P p 1 = 1;
  pc_inverse : forall p x, prime p ->
    match Whole_Model.Fp_invsafe P x p with Some y => (x * y) mod p = 1 mod p | None => forall y, (x * y) mod p <> 1 mod p end;
  pc_root : forall p x, prime p ->
    match Whole_Model.Fp_sqrtn P x 4 p with Some z => z ^ 4 mod p = x mod p | None => forall z, z ^ 4 mod p <> x mod p end;
  pc_square : forall p x, prime p -> (Whole_Model.Fp_issquare P x p = true <-> Brainpool_Spec.is_square x p);
  pc_ordinate : forall p a b x y, prime_over bits p -> curve_ok p a b ->
    (In y (Whole_Model.ellordinate P p a b x) <-> ec_on p a b (Some (x mod field_size p, y)) = true)
}.
(** and for NUMS *)
Record nums_ok (P : Whole_Model.pari) (bits : Z) : Prop := {
  pc_nums_init : forall p a b, prime_over bits p -> curve_ok p a b -> Whole_Model.ellinit P p a b = true;
  pc_nums_ordinate : forall p a b x y, prime_over bits p -> curve_ok p a b ->
    (In y (Whole_Model.ellordinate P p a b x) <-> ec_on p a b (Some (x mod field_size p, y)) = true);
  pc_nums_roots : forall p a b x, prime_over bits p -> curve_ok p a b -> NoDup (Whole_Model.ellordinate P p a b x)
}.
