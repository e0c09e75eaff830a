(** What the printed document of a curve is, and what a reader gets out of it. *)
From Coq Require Import Ascii String.
From Verif Require Import Base Bits_Model Bits_Spec Cli_Model Poly_Model Points_Model Hex_Model Json_Spec CurveText_Model.
Local Open Scope Z_scope.
Local Open Scope list_scope.

(** ** Numbers in texts *)
Fixpoint hex_acc (acc : Z) (s : list ascii) : option Z :=
  match s with
  | [] => Some acc
  | c :: t => match hexd c with Some d => hex_acc (16 * acc + Z.of_nat d) t | None => None end
  end.
(** a hexadecimal number, with or without 0x in front *)
Definition hex_num (s : list ascii) : option Z :=
  match s with
  | c :: d :: t => if Ascii.eqb c "0" && Ascii.eqb d "x" then (match t with [] => None | _ => hex_acc 0 t end) else hex_acc 0 s
  | [c] => hex_acc 0 s
  | [] => None
  end.
Definition decd (c : ascii) : option Z :=
  let n := Z.of_nat (nat_of_ascii c) in if (48 <=? n) && (n <=? 57) then Some (n - 48) else None.
Fixpoint dec_acc (acc : Z) (s : list ascii) : option Z :=
  match s with
  | [] => Some acc
  | c :: t => match decd c with Some d => dec_acc (10 * acc + d) t | None => None end
  end.
(** a decimal number, perhaps with a minus sign *)
Definition dec_num (s : list ascii) : option Z :=
  match s with
  | [] => None
  | c :: t =>
      if Ascii.eqb c "-" then (match t with [] => None | _ => match dec_acc 0 t with Some n => Some (- n) | None => None end end)
      else dec_acc 0 s
  end.

(** ** What is published of a curve *)
(** the integer of a field element *)
Fixpoint at_two (c : list Z) : Z := match c with [] => 0 | d :: c => d + 2 * at_two c end.
Definition elem_int (e : element) : Z := match e with Int z => z | Mod z _ => z | FF p => at_two p end.
Record pub_point := PubPoint { pp_x : Z; pp_y : Z; pp_order : Z; pp_cofactor : option Z }.
(** a prime, or the exponents of the polynomial's terms other than the constant one, largest first *)
Inductive pub_field := PubPrime (p : Z) | PubBinary (exponents : list Z).
Record pub := Pub { pub_f : pub_field; pub_seed : option (list ascii); pub_a : Z; pub_b : Z; pub_order : Z;
  pub_groups : list (pub_point * list pub_point); pub_meta : cmeta }.

Definition exponents (poly : list Z) : list nat := rev (filter (fun i => negb (nth i poly 0 =? 0)) (seq 1 (length poly - 1))).
Definition no_meta : cmeta := CMeta None None None None None None.
(** sign, 0x and two digits for every byte begun *)
Definition seed_text (b : bits_t) : list ascii :=
  (if bsign b then ["-"%char] else []) ++ "0"%char :: "x"%char :: hex_text (2 * ((Bits_Model.bitlen b + 7) / 8)) (mag b).

Definition point_of (p : point_t hpoint) : pub_point :=
  match p_point p with
  | Some (x, y) => PubPoint (elem_int x) (elem_int y) (p_order p) (p_cofactor p)
  | None => PubPoint 0 0 0 None
  end.
Definition points_of (l : option (list (option (point_t hpoint)))) : list (point_t hpoint) :=
  match l with Some l => flat_map (fun p => match p with Some p => [p] | None => [] end) l | None => [] end.
Definition published (metadata : bool) (c : ccurve) : pub :=
  Pub (match c_field c with
       | Prime p => PubPrime p
       | Binary poly => PubBinary (map Z.of_nat (exponents poly) ++ repeat 0 (4 - length (exponents poly)))
       end)
      (match c_seed c with Some b => Some (seed_text b) | None => None end)
      (elem_int (c_a c)) (elem_int (c_b c)) (c_order c)
      (map (fun g => (point_of (s_gen g), map point_of (points_of (s_points g)))) (c_gens c))
      (if metadata then c_meta c else no_meta).

(** ** Curves that can be printed *)
Definition opt_all {A} (P : A -> Prop) (o : option A) : Prop := match o with Some x => P x | None => True end.
(** a point with coordinates: neither NULL nor at infinity *)
Definition affine (p : point_t hpoint) : Prop :=
  (exists x y, p_point p = Some (x, y) /\ 0 <= elem_int x /\ 0 <= elem_int y) /\ 0 <= p_order p /\ opt_all (fun c => 0 <= c) (p_cofactor p).
Definition printable_group (g : subgroup_t hpoint) : Prop :=
  affine (s_gen g) /\
  match s_points g with
  | None => s_npoints g = 0%nat
  | Some l => s_npoints g = length l /\ Forall (fun p => exists q, p = Some q /\ affine q) l
  end.
Definition printable (c : ccurve) : Prop :=
  (match c_field c with Prime p => 0 <= p | Binary poly => (length (exponents poly) <= 4)%nat end) /\
  opt_all (fun b => WF b /\ Z.of_nat (Bits_Model.bitlen b) < 2 ^ 48) (c_seed c) /\
  0 <= elem_int (c_a c) /\ 0 <= elem_int (c_b c) /\ 0 <= c_order c /\
  Forall printable_group (c_gens c).

(** ** The document *)
Section Doc.
Variable hexw hexp dec : Z -> list ascii.
Definition opt {A} (o : option A) (f : A -> list (list ascii * jval)) : list (list ascii * jval) :=
  match o with Some x => f x | None => [] end.
Definition one (name : string) (t : list ascii) : list (list ascii * jval) := [(lit name, JStr t)].
Definition point_doc (p : pub_point) : list (list ascii * jval) :=
  one "x" (hexw (pp_x p)) ++ one "y" (hexw (pp_y p)) ++ one "order" (hexp (pp_order p))
  ++ opt (pp_cofactor p) (fun c => one "cofactor" (hexp c)).
Definition group_doc (g : pub_point * list pub_point) : jval :=
  JObj (point_doc (fst g)
        ++ match snd g with [] => [] | l => [(lit "points", JArr (map (fun p => JObj (point_doc p)) l))] end).
Definition meta_doc (m : cmeta) : list (list ascii * jval) :=
  opt (m_j m) (fun n => one "j" (dec n)) ++ opt (m_disc m) (fun n => one "discriminant" (dec n))
  ++ opt (m_embedding m) (fun n => one "embedding_degree" (dec n)) ++ opt (m_frobenius m) (fun n => one "frobenius" (dec n))
  ++ opt (m_cm m) (fun n => one "cm_discriminant" (dec n)) ++ opt (m_conductor m) (fun n => one "conductor" (dec n)).
Definition field_doc (f : pub_field) : list (list ascii * jval) :=
  match f with
  | PubPrime p => one "p" (hexw p)
  | PubBinary l => one "m" (hexp (nth 0 l 0)) ++ one "e1" (hexp (nth 1 l 0)) ++ one "e2" (hexp (nth 2 l 0)) ++ one "e3" (hexp (nth 3 l 0))
  end.
Definition doc (p : pub) : jval :=
  JObj ([(lit "field", JObj (field_doc (pub_f p)))]
        ++ opt (pub_seed p) (one "seed")
        ++ one "a" (hexw (pub_a p)) ++ one "b" (hexw (pub_b p)) ++ one "order" (hexw (pub_order p))
        ++ match pub_groups p with [] => [] | l => [(lit "subgroups", JArr (map group_doc l))] end
        ++ match meta_doc (pub_meta p) with [] => [] | l => [(lit "meta", JObj l)] end).
End Doc.

(** ** Reading a document back *)
Fixpoint member (m : list (list ascii * jval)) (name : list ascii) : option jval :=
  match m with
  | [] => None
  | (n, v) :: t => if list_eq_dec ascii_dec n name then Some v else member t name
  end.
Definition number (read : list ascii -> option Z) (m : list (list ascii * jval)) (name : string) : option Z :=
  match member m (lit name) with Some (JStr s) => read s | _ => None end.
(** a member that may be absent *)
Definition maybe (read : list ascii -> option Z) (m : list (list ascii * jval)) (name : string) : option (option Z) :=
  match member m (lit name) with
  | None => Some None
  | Some (JStr s) => match read s with Some n => Some (Some n) | None => None end
  | Some _ => None
  end.
Fixpoint all {A B} (f : A -> option B) (l : list A) : option (list B) :=
  match l with
  | [] => Some []
  | x :: t => match f x, all f t with Some y, Some r => Some (y :: r) | _, _ => None end
  end.
Definition read_point (v : jval) : option pub_point :=
  match v with
  | JObj m =>
      match number hex_num m "x", number hex_num m "y", number hex_num m "order", maybe hex_num m "cofactor" with
      | Some x, Some y, Some o, Some c => Some (PubPoint x y o c)
      | _, _, _, _ => None
      end
  | _ => None
  end.
Definition read_list {B} (f : jval -> option B) (v : option jval) : option (list B) :=
  match v with
  | None => Some []
  | Some (JArr l) => all f l
  | Some _ => None
  end.
Definition read_group (v : jval) : option (pub_point * list pub_point) :=
  match read_point v, v with
  | Some p, JObj m => match read_list read_point (member m (lit "points")) with Some l => Some (p, l) | None => None end
  | _, _ => None
  end.
Definition read_field (v : option jval) : option pub_field :=
  match v with
  | Some (JObj m) =>
      match number hex_num m "p" with
      | Some p => Some (PubPrime p)
      | None =>
          match number hex_num m "m", number hex_num m "e1", number hex_num m "e2", number hex_num m "e3" with
          | Some a, Some b, Some c, Some d => Some (PubBinary [a; b; c; d])
          | _, _, _, _ => None
          end
      end
  | _ => None
  end.
Definition read_meta (v : option jval) : option cmeta :=
  match v with
  | None => Some no_meta
  | Some (JObj m) =>
      match maybe dec_num m "j", maybe dec_num m "discriminant", maybe dec_num m "embedding_degree",
            maybe dec_num m "frobenius", maybe dec_num m "cm_discriminant", maybe dec_num m "conductor" with
      | Some a, Some b, Some c, Some d, Some e, Some f => Some (CMeta a b c d e f)
      | _, _, _, _, _, _ => None
      end
  | Some _ => None
  end.
Definition read_seed (v : option jval) : option (option (list ascii)) :=
  match v with None => Some None | Some (JStr s) => Some (Some s) | Some _ => None end.
Definition read_curve (v : jval) : option pub :=
  match v with
  | JObj m =>
      match read_field (member m (lit "field")), read_seed (member m (lit "seed")),
            number hex_num m "a", number hex_num m "b", number hex_num m "order",
            read_list read_group (member m (lit "subgroups")), read_meta (member m (lit "meta")) with
      | Some f, Some s, Some a, Some b, Some o, Some g, Some e => Some (Pub f s a b o g e)
      | _, _, _, _, _, _, _ => None
      end
  | _ => None
  end.

(** what is assumed of PARI's formatting: it prints the number *)
Definition prints (hexw hexp dec : Z -> list ascii) : Prop :=
  (forall n, 0 <= n -> hex_num (hexw n) = Some n) /\ (forall n, 0 <= n -> hex_num (hexp n) = Some n) /\
  (forall n, dec_num (dec n) = Some n).
