(** What a curve is, said without the code: a tree in which every block has an address.

    [cells_X x] lists the blocks of the tree with their contents; [holds h l] says that memory [h]
    has them. A block of the PARI stack may be shared and is never freed; all others are owned, and
    [owned l] are the addresses of the owned ones. [val_X] forgets the addresses: what is left is
    the parameters. *)
From Verif Require Import Base Own_Model.
Local Open Scope Z_scope.

(** a PARI object, on the stack or a clone *)
Record agen := mkAG { ag_id : nat; ag_clone : bool; ag_v : Z }.
(** a t_ELL with what PARI has cached in it *)
Record aell := mkAE { ae_gen : agen; ae_cache : list agen }.
Record abits := mkAB { ab_id : nat; ab_buf : option (nat * list Z); ab_sign : bool; ab_bitlen : Z; ab_allocated : Z }.
Record apoint := mkAP { ap_id : nat; ap_point : option agen; ap_order : option agen; ap_cofactor : option agen }.
Record aarr (T : Type) := mkAA { aa_id : nat; aa_elems : list (option T) }.
Arguments mkAA {T}. Arguments aa_id {T}. Arguments aa_elems {T}.
Record asub := mkAS { as_id : nat; as_gen : option apoint; as_n : nat; as_points : option (aarr apoint) }.
Inductive apart :=
| AZero
| AAnsi (t s h r : option agen)
| ABrain (u : bool) (w v : Z) (sa sb : option abits) (mult : option agen)
| AFamily (z : option agen).
Record aseed := mkAD { ad_id : nat; ad_bits : option abits; ad_hash : option (nat * list Z); ad_type : seedt; ad_part : apart }.
Record acurve := mkAC {
  ac_id : nat; ac_seed : option aseed; ac_field : option agen; ac_a : option agen; ac_b : option agen;
  ac_curve : option aell; ac_order : option agen; ac_gens : option (aarr asub); ac_n : nat;
  ac_meta : list (option agen) }.

Definition addr {T} (id : T -> nat) (o : option T) : ptr := option_map id o.
Definition ae_id (e : aell) : nat := ag_id (ae_gen e).

Definition blocks := list (nat * cell).
Definition ocells {T} (f : T -> blocks) (o : option T) : blocks := match o with None => [] | Some x => f x end.

Definition cells_gen (g : agen) : blocks := [(ag_id g, CGen (ag_clone g) (ag_v g) [])].
Definition cells_ell (e : aell) : blocks :=
  (ae_id e, CGen (ag_clone (ae_gen e)) (ag_v (ae_gen e)) (map ag_id (ae_cache e)))
  :: flat_map cells_gen (ae_cache e).
Definition cells_buf (b : nat * list Z) : blocks := [(fst b, CBytes (snd b))].
Definition cells_bits (b : abits) : blocks :=
  (ab_id b, CBits (mkBits (addr fst (ab_buf b)) (ab_sign b) (ab_bitlen b) (ab_allocated b)))
  :: ocells cells_buf (ab_buf b).
Definition cells_point (p : apoint) : blocks :=
  (ap_id p, CPoint (mkPoint (addr ag_id (ap_point p)) (addr ag_id (ap_order p)) (addr ag_id (ap_cofactor p))))
  :: ocells cells_gen (ap_point p) ++ ocells cells_gen (ap_order p) ++ ocells cells_gen (ap_cofactor p).
Definition cells_arr {T} (id : T -> nat) (f : T -> blocks) (a : aarr T) : blocks :=
  (aa_id a, CArr (map (addr id) (aa_elems a))) :: flat_map (ocells f) (aa_elems a).
Definition cells_points : aarr apoint -> blocks := cells_arr ap_id cells_point.
Definition cells_sub (s : asub) : blocks :=
  (as_id s, CSub (mkSub (addr ap_id (as_gen s)) (as_n s) (addr aa_id (as_points s))))
  :: ocells cells_points (as_points s) ++ ocells cells_point (as_gen s).
Definition cells_subs : aarr asub -> blocks := cells_arr as_id cells_sub.
Definition part_of (a : apart) : upart :=
  match a with
  | AZero => UZero
  | AAnsi t s h r => UAnsi (addr ag_id t) (addr ag_id s) (addr ag_id h) (addr ag_id r)
  | ABrain u w v sa sb m => UBrain u w v (addr ab_id sa) (addr ab_id sb) (addr ag_id m)
  | AFamily z => UFamily (addr ag_id z)
  end.
(** the PARI objects of the union are on the stack: [part_gens] lists them *)
Definition part_bits (a : apart) : blocks :=
  match a with ABrain _ _ _ sa sb _ => ocells cells_bits sa ++ ocells cells_bits sb | _ => [] end.
Definition part_gens (a : apart) : list (option agen) :=
  match a with AZero => [] | AAnsi t s h r => [t; s; h; r] | ABrain _ _ _ _ _ m => [m] | AFamily z => [z] end.
Definition cells_seed (s : aseed) : blocks :=
  (ad_id s, CSeed (mkSeed (addr ab_id (ad_bits s)) (addr fst (ad_hash s)) (ad_type s) (part_of (ad_part s))))
  :: ocells cells_bits (ad_bits s) ++ ocells cells_buf (ad_hash s) ++ part_bits (ad_part s)
     ++ flat_map (ocells cells_gen) (part_gens (ad_part s)).
Definition meta_of (l : list (option agen)) : meta_s :=
  let n i := addr ag_id (nth i l None) in mkMeta (n 0%nat) (n 1%nat) (n 2%nat) (n 3%nat) (n 4%nat) (n 5%nat).
Definition curve_of (c : acurve) : curve_s :=
  mkCurve (addr ad_id (ac_seed c)) (addr ag_id (ac_field c)) (addr ag_id (ac_a c)) (addr ag_id (ac_b c))
    (addr ae_id (ac_curve c)) (addr ag_id (ac_order c)) (addr aa_id (ac_gens c)) (ac_n c) (meta_of (ac_meta c)).
Definition cells_curve (c : acurve) : blocks :=
  (ac_id c, CCurve (curve_of c))
  :: ocells cells_seed (ac_seed c) ++ ocells cells_subs (ac_gens c) ++ ocells cells_ell (ac_curve c)
     ++ ocells cells_gen (ac_field c) ++ ocells cells_gen (ac_a c) ++ ocells cells_gen (ac_b c)
     ++ ocells cells_gen (ac_order c) ++ flat_map (ocells cells_gen) (ac_meta c).

Definition holds (h : heap) (l : blocks) : Prop := forall i c, In (i, c) l -> cells h i = Some c.
Definition on_stack (c : cell) : bool := match c with CGen false _ _ => true | _ => false end.
Definition owned (l : blocks) : list nat := map fst (filter (fun p => negb (on_stack (snd p))) l).

(** block numbers from [next h] on are not in use *)
Definition fresh_above (h : heap) : Prop := forall i c, cells h i = Some c -> (i < next h)%nat.

(** Sizes agree with arrays and buffers, the union agrees with the type of the seed, and neither
    the union nor the metadata hold clones. *)
Definition ok_opt {T} (P : T -> Prop) (o : option T) : Prop := match o with None => True | Some x => P x end.
Definition stack_gen (g : agen) : Prop := ag_clone g = false.
Definition ok_bits (b : abits) : Prop :=
  match ab_buf b with None => ab_allocated b = 0 | Some (_, l) => ab_allocated b = Z.of_nat (length l) end.
Definition ok_sub (s : asub) : Prop := ok_opt (fun a => as_n s = length (aa_elems a)) (as_points s).
Definition ok_part (t : seedt) (a : apart) : Prop :=
  match t, a with
  | _, AZero => True
  | SAnsi, AAnsi _ _ _ _ => True
  | (SBrainpool | SBrainpoolRfc), ABrain _ _ _ sa sb _ => ok_opt ok_bits sa /\ ok_opt ok_bits sb
  | SFamily, AFamily _ => True
  | _, _ => False
  end.
Definition ok_seed (s : aseed) : Prop :=
  ok_opt ok_bits (ad_bits s) /\ ok_opt (fun b => length (snd b) = 20%nat) (ad_hash s) /\
  ok_part (ad_type s) (ad_part s) /\ Forall (ok_opt stack_gen) (part_gens (ad_part s)).
Definition ok_curve (c : acurve) : Prop :=
  ok_opt ok_seed (ac_seed c) /\
  ok_opt (fun a => ac_n c = length (aa_elems a) /\ Forall (ok_opt ok_sub) (aa_elems a)) (ac_gens c) /\
  Forall (ok_opt stack_gen) (ac_meta c).

(** no NULL in the arrays *)
Definition full {T} (P : T -> Prop) (a : aarr T) : Prop :=
  Forall (fun o => match o with None => False | Some x => P x end) (aa_elems a).
Definition full_sub (s : asub) : Prop := ok_opt (full (fun _ => True)) (as_points s).
Definition full_curve (c : acurve) : Prop := ok_opt (full full_sub) (ac_gens c).

(** Memory [h'] is [h] without the blocks [ids]. *)
Definition removed (ids : list nat) (h h' : heap) : Prop :=
  next h' = next h /\ (forall i, In i ids -> cells h' i = None) /\ (forall i, ~ In i ids -> cells h' i = cells h i).
(** Memory [h'] is [h] with new blocks. *)
Definition extends (h h' : heap) : Prop :=
  (next h <= next h')%nat /\ (forall i, (i < next h)%nat -> cells h' i = cells h i) /\ fresh_above h'.

(** the parameters *)
Definition val_gen (o : option agen) : option Z := option_map ag_v o.
Definition val_ell (o : option aell) : option Z := option_map (fun e => ag_v (ae_gen e)) o.
Definition val_bits (b : abits) : bool * Z * list Z :=
  (ab_sign b, ab_bitlen b, match ab_buf b with None => [] | Some (_, l) => l end).
Definition val_point (p : apoint) := (val_gen (ap_point p), val_gen (ap_order p), val_gen (ap_cofactor p)).
Definition val_arr {T V} (f : T -> V) (a : aarr T) : list (option V) := map (option_map f) (aa_elems a).
Definition val_sub (s : asub) := (option_map val_point (as_gen s), option_map (val_arr val_point) (as_points s)).
Inductive vpart :=
| VZero
| VAnsi (t s h r : option Z)
| VBrain (u : bool) (w v : Z) (sa sb : option (bool * Z * list Z)) (mult : option Z)
| VFamily (z : option Z).
Definition val_part (a : apart) : vpart :=
  match a with
  | AZero => VZero
  | AAnsi t s h r => VAnsi (val_gen t) (val_gen s) (val_gen h) (val_gen r)
  | ABrain u w v sa sb m => VBrain u w v (option_map val_bits sa) (option_map val_bits sb) (val_gen m)
  | AFamily z => VFamily (val_gen z)
  end.
(** the seed proper: its bits and their hash *)
Definition val_seed (s : aseed) := (option_map val_bits (ad_bits s), option_map snd (ad_hash s)).
Record vcurve := mkVC {
  v_seed : option (option (bool * Z * list Z) * option (list Z));
  v_field : option Z; v_a : option Z; v_b : option Z; v_curve : option Z; v_order : option Z;
  v_gens : option (list (option (option (option Z * option Z * option Z) * option (list (option (option Z * option Z * option Z)))))) }.
Definition val_curve (c : acurve) : vcurve :=
  mkVC (option_map val_seed (ac_seed c)) (val_gen (ac_field c)) (val_gen (ac_a c)) (val_gen (ac_b c))
    (val_ell (ac_curve c)) (val_gen (ac_order c)) (option_map (val_arr val_sub) (ac_gens c)).
