(** What an acceptable command line is, in terms of the options given (not of
    the configuration structure): for C56, C53, C61. *)
From Coq Require Import Ascii String.
From Verif Require Import Base Str_Model Str_Proofs Cli_Model.
Local Open Scope Z_scope.

(** decimal and hexadecimal digits, and their values *)
Definition digit (c : ascii) : Prop := (48 <= nat_of_ascii c <= 57)%nat.
Definition dval (c : ascii) : Z := Z.of_nat (nat_of_ascii c) - 48.
(** value of a text of decimal digits, most significant first *)
Definition dec (s : str) : Z := fold_left (fun v c => 10 * v + dval c) s 0.

(** what strtol / strtoul read: white space, a sign, at least one digit and a
    rest that does not start with a digit *)
Inductive numeral : str -> bool -> str -> str -> Prop :=
| numeral_intro sp sg neg ds rest :
    Forall (fun c => isspace c = true) sp ->
    (sg = [] /\ neg = false \/ sg = ["+"%char] /\ neg = false \/ sg = ["-"%char] /\ neg = true) ->
    ds <> [] -> Forall digit ds ->
    match rest with c :: _ => ~ digit c | [] => True end ->
    numeral (sp ++ sg ++ ds ++ rest) neg ds rest.

(** the bit size argument: a numeral and nothing behind it, or no text *)
Definition bits_arg (a : str) : Prop := a = [] \/ exists neg ds, numeral a neg ds [].

(** the methods *)
Inductive kind := KCm | KAnomalous | KSeed | KInvalid | KTwist | KSupersingular | KFamily.
Definition kind_of (o : copt) : option kind :=
  match o with
  | OOrder _ => Some KCm
  | OAnomalous => Some KAnomalous
  | OAnsi _ | OBrainpool _ | ONums | OBrainpoolRfc _ => Some KSeed
  | OInvalid _ => Some KInvalid
  | OTwist => Some KTwist
  | OSupersingular => Some KSupersingular
  | OFamily _ => Some KFamily
  | _ => None
  end.
Definition chosen (os : list copt) (k : kind) : Prop := exists o, In o os /\ kind_of o = Some k.

(** the seed algorithms; the last one given counts *)
Inductive algo := AAnsi | ABrainpool | ABrainpoolRfc | ANums.
Definition algo_of (o : copt) : option algo :=
  match o with
  | OAnsi _ => Some AAnsi
  | OBrainpool _ => Some ABrainpool
  | OBrainpoolRfc _ => Some ABrainpoolRfc
  | ONums => Some ANums
  | _ => None
  end.
Definition last_algo (os : list copt) (a : algo) : Prop :=
  exists xs o ys, os = xs ++ o :: ys /\ algo_of o = Some a /\ forall o', In o' ys -> algo_of o' = None.

(** a seed option's text: hexadecimal digits, optionally after 0x, at least
    40 of them (ANSI) or exactly 40 (Brainpool) *)
Definition hex_body (s body : str) : Prop :=
  Forall (fun c => isxdigit c = true) body /\
  ((s = body /\ ~ exists x rest, s = "0"%char :: x :: rest /\ (x = "x"%char \/ x = "X"%char) /\ rest <> []) \/
   exists x, (x = "x"%char \/ x = "X"%char) /\ body <> [] /\ s = "0"%char :: x :: body).
Definition seed_ok (a : algo) (s : str) : Prop :=
  exists body, hex_body s body /\
  match a with
  | AAnsi => (40 <= length body)%nat
  | ABrainpool | ABrainpoolRfc => length body = 40%nat
  | ANums => False
  end.
Definition seed_arg (o : copt) : option str :=
  match o with OAnsi a | OBrainpool a | OBrainpoolRfc a => a | _ => None end.

(** --random asks for something: no argument, or at least one word *)
Definition asks_random (o : copt) : Prop :=
  match o with
  | ORandom None => True
  | ORandom (Some a) => exists c, In c a /\ c <> ","%char
  | _ => False
  end.

(** the argument of --order has a digit *)
Definition has_digit (s : str) : Prop := exists c, In c s /\ digit c.

(** what each option requires of its argument *)
Definition arg_ok (o : copt) : Prop :=
  match o with
  | OInvalid (Some a) => Forall (fun c => digit c \/ c = "-"%char) a
  | OOrder a => has_digit a
  | OFamily a => In (map tolower a) (map (map tolower) [lit "BN"; lit "BLS12"; lit "BLS24"; lit "KSS16"; lit "KSS18"; lit "KSS36"; lit "KSS40"])
  | OAnsi (Some a) => seed_ok AAnsi a
  | OBrainpool (Some a) | OBrainpoolRfc (Some a) => seed_ok ABrainpool a
  | ORandom (Some a) => Forall (fun t => In t [lit "seed"; lit "field"; lit "a"; lit "b"; lit "equation"]) (tokens a)
  | OKoblitz (Some a) => fst (strtol a) = 0 \/ fst (strtol a) = 1
  | OHexcheck a => exists body, hex_body a body
  | OPoints a => exists w rest, In w [lit "random"; lit "prime"; lit "all"; lit "nonprime"; lit "none"] /\ snd (strtol a) = w ++ rest
  | OMemory a | OTstack a | OTimeout a => exists neg ds rest, numeral a neg ds rest
  | OThreads a => a = lit "auto" \/ a = lit "AUTO" \/ fst (strtoul a) <> 0
  | _ => True
  end.

(** the three ways of constraining the order *)
Definition order_choice (o : copt) : option nat :=
  match o with OPrime => Some 0%nat | OSmooth _ => Some 1%nat | OCofactor _ => Some 2%nat | _ => None end.

Record consistent (os : list copt) (args : list str) : Prop := mkConsistent {
  one_size : exists a, args = [a] /\ bits_arg a;
  args_ok : forall o, In o os -> arg_ok o;
  one_field : In OFp os /\ ~ In OF2m os \/ In OF2m os /\ ~ In OFp os;
  one_method : forall k k', chosen os k -> chosen os k' -> k = k';
  one_order : forall o o' n n', In o os -> In o' os -> order_choice o = Some n -> order_choice o' = Some n' -> n = n';
  prime_only : In OF2m os ->
    forall k, chosen os k -> k = KTwist \/ k = KInvalid \/ (k = KSeed /\ last_algo os AAnsi);
  nums_fixed : forall o, In o os -> asks_random o -> ~ last_algo os ANums;
  anomalous_random : chosen os KAnomalous -> exists o, In o os /\ asks_random o
}.
