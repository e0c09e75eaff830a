(** The grammar is unambiguous, and the serialiser writes a text of the grammar. *)
From Coq Require Import Ascii String.
From Verif Require Import Base Str_Model Json_Spec Json_Model.
Local Open Scope list_scope.

(** ** Unambiguity: a reader *)
Definition whiteb (c : ascii) : bool :=
  Ascii.eqb c " " || Ascii.eqb c "009" || Ascii.eqb c "010" || Ascii.eqb c "013".
Lemma whiteb_ok c : whiteb c = true <-> white c.
Proof.
  unfold whiteb, white. rewrite !orb_true_iff, !Ascii.eqb_eq. tauto.
Qed.
Fixpoint skip (t : list ascii) : list ascii :=
  match t with c :: u => if whiteb c then skip u else t | [] => [] end.
Lemma skip_ws w t : ws w -> skip (w ++ t) = skip t.
Proof.
  induction 1 as [|c w H _ IH]; [reflexivity|]. simpl. rewrite (proj2 (whiteb_ok c) H). exact IH.
Qed.
Lemma skip_stop c t : ~ white c -> skip (c :: t) = c :: t.
Proof.
  intros H. simpl. destruct (whiteb c) eqn:E; [|reflexivity]. apply whiteb_ok in E. tauto.
Qed.

Fixpoint read_q (t : list ascii) : option (list ascii * list ascii) :=
  match t with
  | [] => None
  | c :: u =>
      if Ascii.eqb c """" then Some ([], u)
      else if Ascii.eqb c "\" then
        match u with
        | [] => None
        | d :: u' =>
            let give x := match read_q u' with Some (s, r) => Some (x :: s, r) | None => None end in
            if Ascii.eqb d """" then give """"%char
            else if Ascii.eqb d "\" then give "\"%char
            else if Ascii.eqb d "/" then give "/"%char
            else if Ascii.eqb d "b" then give "008"%char
            else if Ascii.eqb d "f" then give "012"%char
            else if Ascii.eqb d "n" then give "010"%char
            else if Ascii.eqb d "r" then give "013"%char
            else if Ascii.eqb d "t" then give "009"%char
            else match u' with
              | _ :: _ :: x :: y :: v =>
                  match hexd x, hexd y, read_q v with
                  | Some a, Some b, Some (s, r) => Some (ascii_of_nat (16 * a + b) :: s, r)
                  | _, _, _ => None
                  end
              | _ => None
              end
        end
      else match read_q u with Some (s, r) => Some (c :: s, r) | None => None end
  end.

Lemma eqb_no a b : a <> b -> Ascii.eqb a b = false.
Proof. intros H. apply Ascii.eqb_neq. exact H. Qed.

Lemma read_q_ok t s r : quoted t s -> read_q (t ++ """"%char :: r) = Some (s, r).
Proof.
  induction 1 as [|c t s L Q B H IH| | | | | | | | |x y a b t s X Y L H IH];
    try (cbn; rewrite IHquoted; reflexivity).
  - reflexivity.
  - cbn [app read_q]. rewrite (eqb_no _ _ Q), (eqb_no _ _ B), IH. reflexivity.
  - cbn. rewrite X, Y, IH. reflexivity.
Qed.

Fixpoint rv (fuel : nat) (t : list ascii) {struct fuel} : option (jval * list ascii) :=
  match fuel with
  | O => None
  | S f =>
      match t with
      | [] => None
      | c :: u =>
          if Ascii.eqb c """" then match read_q u with Some (s, r) => Some (JStr s, r) | None => None end
          else if Ascii.eqb c "[" then
            match skip u with
            | d :: r => if Ascii.eqb d "]" then Some (JArr [], r)
                        else match re f (d :: r) with Some (l, r) => Some (JArr l, r) | None => None end
            | [] => None
            end
          else
            match skip u with
            | d :: r => if Ascii.eqb d "}" then Some (JObj [], r)
                        else match rm f (d :: r) with Some (m, r) => Some (JObj m, r) | None => None end
            | [] => None
            end
      end
  end
with re (fuel : nat) (t : list ascii) {struct fuel} : option (list jval * list ascii) :=
  match fuel with
  | O => None
  | S f =>
      match rv f (skip t) with
      | None => None
      | Some (v, u) =>
          match skip u with
          | [] => None
          | c :: u' =>
              if Ascii.eqb c "," then match re f u' with Some (l, r) => Some (v :: l, r) | None => None end
              else Some ([v], u')
          end
      end
  end
with rm (fuel : nat) (t : list ascii) {struct fuel} : option (list (list ascii * jval) * list ascii) :=
  match fuel with
  | O => None
  | S f =>
      match skip t with
      | _ :: u =>
          match read_q u with
          | None => None
          | Some (k, u) =>
              match skip u with
              | [] => None
              | _ :: u =>
                  match rv f (skip u) with
                  | None => None
                  | Some (v, u) =>
                      match skip u with
                      | [] => None
                      | c :: u' =>
                          if Ascii.eqb c "," then match rm f u' with Some (l, r) => Some ((k, v) :: l, r) | None => None end
                          else Some ([(k, v)], u')
                      end
                  end
              end
          end
      | [] => None
      end
  end.

Scheme value_mut := Minimality for value Sort Prop
with elements_mut := Minimality for elements Sort Prop
with members_mut := Minimality for members Sort Prop.
Combined Scheme json_mut from value_mut, elements_mut, members_mut.

Ltac notwhite := let H := fresh in intros H; unfold white in H; decompose [or] H; discriminate.

Lemma value_start t v : value t v -> exists c u, t = c :: u /\ ~ white c /\ c <> "]"%char /\ c <> ","%char.
Proof.
  intros H. inversion H; subst; eexists; eexists; (split; [reflexivity|]); (split; [notwhite|]); split; discriminate.
Qed.
Lemma skip_value t v r : value t v -> skip (t ++ r) = t ++ r.
Proof.
  intros H. destruct (value_start t v H) as (c & u & -> & W & _). cbn [app]. apply skip_stop. exact W.
Qed.
Lemma elements_start t l : elements t l -> forall r, exists d u, skip (t ++ r) = d :: u /\ Ascii.eqb d "]" = false.
Proof.
  intros H r. destruct H as [w t w' v W V W'|w t w' v u l W V W' _];
    destruct (value_start t v V) as (c & x & -> & NW & NB & _);
    rewrite <- app_assoc, skip_ws by exact W; cbn [app]; rewrite skip_stop by exact NW;
    do 2 eexists; (split; [reflexivity|]); apply eqb_no; exact NB.
Qed.
Lemma members_start t l : members t l -> forall r, exists d u, skip (t ++ r) = d :: u /\ Ascii.eqb d "}" = false.
Proof.
  intros H r. destruct H as [w k s w1 w2 t w' v W _ _ _ _ _|w k s w1 w2 t w' v u m W _ _ _ _ _ _];
    rewrite <- app_assoc, skip_ws by exact W; cbn [app]; rewrite skip_stop by notwhite;
    do 2 eexists; (split; [reflexivity|]); reflexivity.
Qed.
Lemma re_skip f t : re f (skip t) = re f t.
Proof.
  destruct f as [|f]; [reflexivity|]. cbn [re]. replace (skip (skip t)) with (skip t); [reflexivity|].
  induction t as [|c t IH]; [reflexivity|]. simpl. destruct (whiteb c) eqn:E; [exact IH|].
  simpl. rewrite E. reflexivity.
Qed.
Lemma rm_skip f t : rm f (skip t) = rm f t.
Proof.
  destruct f as [|f]; [reflexivity|]. cbn [rm]. replace (skip (skip t)) with (skip t); [reflexivity|].
  induction t as [|c t IH]; [reflexivity|]. simpl. destruct (whiteb c) eqn:E; [exact IH|].
  simpl. rewrite E. reflexivity.
Qed.

Ltac lens := repeat (rewrite ?app_length in *; cbn [Datatypes.length] in * ).
Ltac fuelS f := destruct f as [|f]; [exfalso; lens; lia|].

Lemma read_ok :
  (forall t v, value t v -> forall f r, (length t <= f)%nat -> rv f (t ++ r) = Some (v, r)) /\
  (forall t l, elements t l -> forall f r, (length t < f)%nat -> re f (t ++ "]"%char :: r) = Some (l, r)) /\
  (forall t m, members t m -> forall f r, (length t < f)%nat -> rm f (t ++ "}"%char :: r) = Some (m, r)).
Proof.
  apply json_mut.
  - intros t s H f r L. fuelS f. cbn [app rv]. change (Ascii.eqb """" """") with true. cbn iota.
    rewrite <- app_assoc. cbn [app]. rewrite (read_q_ok t s r H). reflexivity.
  - intros w W f r L. fuelS f. cbn [app rv]. change (Ascii.eqb "[" """") with false.
    change (Ascii.eqb "[" "[") with true. cbn iota. rewrite <- app_assoc, skip_ws by exact W.
    cbn [app]. rewrite skip_stop by notwhite. reflexivity.
  - intros t l E IH f r L. fuelS f. cbn [app rv]. change (Ascii.eqb "[" """") with false.
    change (Ascii.eqb "[" "[") with true. cbn iota. rewrite <- app_assoc. cbn [app].
    destruct (elements_start t l E ("]"%char :: r)) as (d & u & S & N). rewrite S, N.
    rewrite <- S, re_skip, IH by (lens; lia). reflexivity.
  - intros w W f r L. fuelS f. cbn [app rv]. change (Ascii.eqb "{" """") with false.
    change (Ascii.eqb "{" "[") with false. cbn iota. rewrite <- app_assoc, skip_ws by exact W.
    cbn [app]. rewrite skip_stop by notwhite. reflexivity.
  - intros t l E IH f r L. fuelS f. cbn [app rv]. change (Ascii.eqb "{" """") with false.
    change (Ascii.eqb "{" "[") with false. cbn iota. rewrite <- app_assoc. cbn [app].
    destruct (members_start t l E ("}"%char :: r)) as (d & u & S & N). rewrite S, N.
    rewrite <- S, rm_skip, IH by (lens; lia). reflexivity.
  - intros w t w' v W V IH W' f r L. fuelS f. cbn [re].
    rewrite <- !app_assoc, skip_ws by exact W. rewrite (skip_value t v _ V), IH by (lens; lia).
    rewrite skip_ws by exact W'. rewrite skip_stop by notwhite. reflexivity.
  - intros w t w' v u l W V IH W' E IHE f r L. fuelS f. cbn [re].
    rewrite <- !app_assoc, skip_ws by exact W. rewrite (skip_value t v _ V), IH by (lens; lia).
    rewrite skip_ws by exact W'. cbn [app]. rewrite skip_stop by notwhite.
    change (Ascii.eqb "," ",") with true. cbn iota. rewrite IHE by (lens; lia). reflexivity.
  - intros w k s w1 w2 t w' v W Q W1 W2 V IH W' f r L. fuelS f. cbn [rm].
    repeat (rewrite <- app_assoc; cbn [app]). rewrite skip_ws by exact W. rewrite skip_stop by notwhite.
    rewrite (read_q_ok k s _ Q), skip_ws by exact W1. rewrite skip_stop by notwhite.
    rewrite skip_ws by exact W2. rewrite (skip_value t v _ V), IH by (lens; lia).
    rewrite skip_ws by exact W'. rewrite skip_stop by notwhite. reflexivity.
  - intros w k s w1 w2 t w' v u m W Q W1 W2 V IH W' E IHE f r L. fuelS f. cbn [rm].
    repeat (rewrite <- app_assoc; cbn [app]). rewrite skip_ws by exact W. rewrite skip_stop by notwhite.
    rewrite (read_q_ok k s _ Q), skip_ws by exact W1. rewrite skip_stop by notwhite.
    rewrite skip_ws by exact W2. rewrite (skip_value t v _ V), IH by (lens; lia).
    rewrite skip_ws by exact W'. rewrite skip_stop by notwhite.
    change (Ascii.eqb "," ",") with true. cbn iota. rewrite IHE by (lens; lia). reflexivity.
Qed.

Lemma json_unique t v v' : json t v -> json t v' -> v = v'.
Proof.
  intros (w & u & w' & W & V & W' & E) (x & y & x' & X & Y & X' & E').
  assert (A : rv (length t) (skip t) = Some (v, w')).
  { rewrite E at 2. rewrite skip_ws, (skip_value u v _ V) by exact W.
    apply (proj1 read_ok); [exact V|]. rewrite E. lens. lia. }
  assert (B : rv (length t) (skip t) = Some (v', x')).
  { rewrite E' at 2. rewrite skip_ws, (skip_value y v' _ Y) by exact X.
    apply (proj1 read_ok); [exact Y|]. rewrite E'. lens. lia. }
  congruence.
Qed.

(** ** The text the serialiser writes *)
Definition esc (c : ascii) : list ascii :=
  match nat_of_ascii c with
  | 34 => ["\"; """"] | 92 => ["\"; "\"] | 47 => ["\"; "/"] | 8 => ["\"; "b"] | 12 => ["\"; "f"]
  | 10 => ["\"; "n"] | 13 => ["\"; "r"] | 9 => ["\"; "t"]
  | n => if (n <? 32)%nat
         then ["\"; "u"; "0"; "0"; nth (n / 16) ["0"; "1"] "0"; nth (n mod 16) ["0";"1";"2";"3";"4";"5";"6";"7";"8";"9";"a";"b";"c";"d";"e";"f"] "0"]
         else [c]
  end%char%nat.
Definition qtext (s : list ascii) : list ascii := """"%char :: concat (map esc s) ++ [""""%char].
Definition indent (n : nat) : list ascii := concat (repeat (list_ascii_of_string "    ") n).
Definition ctext (i count : nat) : list ascii := if (i <? count - 1)%nat then [","%char] else [].
Fixpoint items_text (l : list (nat -> list ascii)) (level i count : nat) : list ascii :=
  match l with
  | [] => []
  | x :: t => indent (level + 1) ++ x (level + 1)%nat ++ ctext i count ++ "010"%char :: items_text t level (S i) count
  end.
Fixpoint members_text (l : list (list ascii * (nat -> list ascii))) (level i count : nat) : list ascii :=
  match l with
  | [] => []
  | (k, x) :: t => indent (level + 1) ++ qtext k ++ ":"%char :: " "%char :: x (level + 1)%nat ++ ctext i count
                   ++ "010"%char :: members_text t level (S i) count
  end.
Fixpoint text (v : jval) (level : nat) {struct v} : list ascii :=
  match v with
  | JStr s => qtext s
  | JArr l => "["%char :: (if (0 <? length l)%nat then ["010"%char] else []) ++ items_text (map text l) level 0 (length l)
              ++ (if (0 <? length l)%nat then indent level else []) ++ ["]"%char]
  | JObj m => "{"%char :: (if (0 <? length m)%nat then ["010"%char] else [])
              ++ members_text (map (fun kv => (fst kv, text (snd kv))) m) level 0 (length m)
              ++ (if (0 <? length m)%nat then indent level else []) ++ ["}"%char]
  end.

(** induction over documents *)
Lemma jval_induct (P : jval -> Prop) :
  (forall s, P (JStr s)) ->
  (forall l, Forall P l -> P (JArr l)) ->
  (forall m, Forall (fun kv => P (snd kv)) m -> P (JObj m)) ->
  forall v, P v.
Proof.
  intros HS HA HO. fix IH 1. intros [s|l|m].
  - apply HS.
  - apply HA. induction l as [|x l IHl]; constructor; [apply IH|exact IHl].
  - apply HO. induction m as [|x m IHm]; constructor; [apply IH|exact IHm].
Qed.

(** *** it is in the grammar *)
(** what [esc] may give for [c], as a test *)
Definition esc_check (c : ascii) : bool :=
  match esc c with
  | [d] => Ascii.eqb d c && (32 <=? nat_of_ascii c)%nat && negb (Ascii.eqb c """") && negb (Ascii.eqb c "\")
  | [a; d] => Ascii.eqb a "\" &&
      existsb (fun p => Ascii.eqb d (fst p) && Ascii.eqb c (snd p))
        [(""""%char, """"%char); ("\", "\"); ("/", "/"); ("b", "008"); ("f", "012"); ("n", "010"); ("r", "013"); ("t", "009")]%char
  | [a; u; z1; z2; x; y] => Ascii.eqb a "\" && Ascii.eqb u "u" && Ascii.eqb z1 "0" && Ascii.eqb z2 "0" &&
      match hexd x, hexd y with
      | Some p, Some q => (16 * p + q <? 32)%nat && Ascii.eqb c (ascii_of_nat (16 * p + q))
      | _, _ => false
      end
  | _ => false
  end.
Lemma esc_checked c : esc_check c = true.
Proof. destruct c as [[] [] [] [] [] [] [] []]; vm_compute; reflexivity. Qed.
Ltac andbs := repeat match goal with H : _ && _ = true |- _ => apply andb_true_iff in H; destruct H end;
  repeat match goal with H : Ascii.eqb _ _ = true |- _ => apply Ascii.eqb_eq in H end; subst.
Lemma esc_ok c t s : quoted t s -> quoted (esc c ++ t) (c :: s).
Proof.
  intros Q. pose proof (esc_checked c) as K. unfold esc_check in K. revert K. generalize (esc c) as e. intros e K.
  destruct e as [|e0 [|e1 [|e2 [|e3 [|e4 [|e5 [|]]]]]]]; try discriminate.
  - andbs. cbn [app]. apply q_plain; [now apply Nat.leb_le| | |exact Q].
    + intros ->. discriminate.
    + intros ->. discriminate.
  - andbs. apply existsb_exists in H0. destruct H0 as ([d c'] & I & J). cbn [fst snd] in J. andbs.
    cbn [In] in I. cbn [app].
    repeat (destruct I as [I|I]; [injection I as <- <-; constructor; exact Q|]). destruct I.
  - destruct (hexd e4) as [p|] eqn:X; [|andbs; discriminate]. destruct (hexd e5) as [q|] eqn:Y; [|andbs; discriminate].
    andbs. cbn [app]. apply q_u; auto. now apply Nat.ltb_lt.
Qed.
Lemma qtext_quoted s : quoted (concat (map esc s)) s.
Proof. induction s as [|c s IH]; [constructor|]. cbn [map concat]. apply esc_ok. exact IH. Qed.
Lemma indent_ws n : ws (indent n).
Proof.
  induction n as [|n IH]; [constructor|]. unfold indent, ws. cbn [repeat concat]. apply Forall_app. split; [|exact IH].
  repeat constructor.
Qed.
Lemma nl_ws : ws ["010"%char].
Proof. constructor; [unfold white; tauto|constructor]. Qed.
Lemma nil_ws : ws []. Proof. constructor. Qed.
Lemma ws_app a b : ws a -> ws b -> ws (a ++ b).
Proof. intros; apply Forall_app; auto. Qed.

Ltac assoc := repeat (rewrite <- ?app_assoc; cbn [app]).

(** leading and trailing whitespace can be added to a list *)
Lemma elements_pre w t l : ws w -> elements t l -> elements (w ++ t) l.
Proof.
  intros W H. destruct H as [w0 t w' v W0 V W'|w0 t w' v u l W0 V W' H].
  - rewrite (app_assoc w w0). apply e_one; auto using ws_app.
  - rewrite (app_assoc w w0). apply e_more; auto using ws_app.
Qed.
Lemma elements_post t l : elements t l -> forall w, ws w -> elements (t ++ w) l.
Proof.
  induction 1 as [w0 t w' v W0 V W'|w0 t w' v u l W0 V W' H IH]; intros w W.
  - rewrite <- !app_assoc. apply e_one; auto using ws_app.
  - assoc. apply e_more; auto.
Qed.
Lemma members_pre w t l : ws w -> members t l -> members (w ++ t) l.
Proof.
  intros W H. destruct H as [w0 k s w1 w2 t w' v W0 Q W1 W2 V W'|w0 k s w1 w2 t w' v u m W0 Q W1 W2 V W' H];
    rewrite (app_assoc w w0).
  - apply m_one; auto using ws_app.
  - apply m_more; auto using ws_app.
Qed.
Lemma members_post t l : members t l -> forall w, ws w -> members (t ++ w) l.
Proof.
  induction 1 as [w0 k s w1 w2 t w' v W0 Q W1 W2 V W'|w0 k s w1 w2 t w' v u m W0 Q W1 W2 V W' H IH]; intros w W; assoc.
  - apply m_one; auto using ws_app.
  - apply m_more; auto.
Qed.

Lemma items_ok l : Forall (fun v => forall level, value (text v level) v) l -> l <> [] ->
  forall level i count, (i + length l = count)%nat -> elements (items_text (map text l) level i count) l.
Proof.
  induction 1 as [|v l V H IH]; [congruence|]. intros _ level i count C.
  cbn [map items_text]. destruct l as [|v' l].
  - unfold ctext. replace (i <? count - 1)%nat with false by (cbn [Datatypes.length] in C; lia). cbn [map items_text app].
    apply e_one; [apply indent_ws|apply V|apply nl_ws].
  - unfold ctext. replace (i <? count - 1)%nat with true by (cbn [Datatypes.length] in C; lia). cbn [app].
    apply (e_more _ _ []); [apply indent_ws|apply V|apply nil_ws|].
    apply (elements_pre ["010"%char]); [apply nl_ws|].
    apply IH; [discriminate|]. cbn [Datatypes.length] in *. lia.
Qed.
Lemma mems_ok m : Forall (fun kv => forall level, value (text (snd kv) level) (snd kv)) m -> m <> [] ->
  forall level i count, (i + length m = count)%nat ->
  members (members_text (map (fun kv => (fst kv, text (snd kv))) m) level i count) m.
Proof.
  induction 1 as [|[k v] m V H IH]; [congruence|]. intros _ level i count C. cbn [snd] in V.
  cbn [map members_text fst snd]. unfold qtext. destruct m as [|v' m].
  - unfold ctext. replace (i <? count - 1)%nat with false by (cbn [Datatypes.length] in C; lia). cbn [map members_text]. assoc.
    apply (m_one _ _ k [] [" "%char]); [apply indent_ws|apply qtext_quoted|apply nil_ws| |apply V|apply nl_ws].
    constructor; [unfold white; tauto|constructor].
  - unfold ctext. replace (i <? count - 1)%nat with true by (cbn [Datatypes.length] in C; lia). assoc.
    apply (m_more _ _ k [] [" "%char] _ []); [apply indent_ws|apply qtext_quoted|apply nil_ws| |apply V|apply nil_ws|].
    + constructor; [unfold white; tauto|constructor].
    + apply (members_pre ["010"%char]); [apply nl_ws|].
      apply IH; [discriminate|]. cbn [Datatypes.length] in *. lia.
Qed.

Lemma text_value v : forall level, value (text v level) v.
Proof.
  induction v as [s|l H|m H] using jval_induct; intros level; cbn [text].
  - apply v_str. apply qtext_quoted.
  - destruct l as [|x l].
    + apply (v_arr0 []). apply nil_ws.
    + replace (0 <? length (x :: l))%nat with true by reflexivity.
      rewrite !app_assoc. apply v_arr. apply elements_post; [|apply indent_ws].
      apply elements_pre; [apply nl_ws|]. apply items_ok; [exact H|discriminate|reflexivity].
  - destruct m as [|x m].
    + apply (v_obj0 []). apply nil_ws.
    + replace (0 <? length (x :: m))%nat with true by reflexivity.
      rewrite !app_assoc. apply v_obj. apply members_post; [|apply indent_ws].
      apply members_pre; [apply nl_ws|]. apply mems_ok; [exact H|discriminate|reflexivity].
Qed.

(** *** it is what the code writes *)
(** [f] writes [t]; with [z] it also ends it with a NUL *)
Definition emits (z : bool) (f : writer) (t : list ascii) : Prop :=
  (Z.of_nat (length t) <= int_max)%Z ->
  (forall mem, f None mem = Ok (Z.of_nat (length t), mem)) /\
  (forall a old, (length t < length old)%nat ->
    exists rest, f (Some (length a)) (a ++ old) = Ok (Z.of_nat (length t), a ++ t ++ rest) /\
      length (t ++ rest) = length old /\ (z = true -> exists r, rest = zero :: r)).

Lemma emits_weak z f t : emits true f t -> emits z f t.
Proof.
  intros H L. destruct (H L) as (A & B). split; [exact A|]. intros a old K.
  destruct (B a old K) as (rest & E & F & G). exists rest. auto.
Qed.

Lemma upd_app {A} (a : list A) x old y : upd (a ++ x :: old) (length a) y = a ++ y :: old.
Proof. induction a as [|h a IH]; simpl; congruence. Qed.
Lemma wr_app {A} (a : list A) x old y : wr (a ++ x :: old) (length a) y = Ok (a ++ y :: old).
Proof. rewrite wr_ok; [now rewrite upd_app|]. lens. lia. Qed.

Lemma sprintf_ok t : forall a old, (length t < length old)%nat ->
  exists r, sprintf_at (a ++ old) (length a) t = Ok (a ++ t ++ zero :: r) /\ S (length t + length r) = length old.
Proof.
  induction t as [|c t IH]; intros a old K; (destruct old as [|x old]; [cbn in K; lia|]).
  - exists old. cbn [sprintf_at]. rewrite wr_app. split; reflexivity.
  - cbn [sprintf_at]. rewrite wr_app. cbn [bind].
    destruct (IH (a ++ [c]) old) as (r & E & F); [cbn in K; lia|].
    exists r. split; [|cbn; lia].
    replace (S (length a)) with (length (a ++ [c])) by (lens; lia).
    replace (a ++ c :: old) with ((a ++ [c]) ++ old) by (now rewrite <- app_assoc).
    rewrite E. now rewrite <- app_assoc.
Qed.
Lemma append_emits t : emits true (append_string t) t.
Proof.
  intros _. split; [reflexivity|]. intros a old K. cbn [append_string].
  destruct (sprintf_ok t a old K) as (r & E & F). rewrite E. cbn [bind].
  exists (zero :: r). split; [reflexivity|]. split; [lens; lia|]. intros _. now exists r.
Qed.
Lemma puts_emits s t : list_ascii_of_string s = t -> emits true (puts s) t.
Proof. intros <-. apply append_emits. Qed.
Lemma put_char_emits c : emits false (put_char c) [c].
Proof.
  intros _. split; [reflexivity|]. intros a old K. destruct old as [|x old]; [cbn in K; lia|].
  cbn [put_char]. rewrite wr_app. exists old. split; [reflexivity|]. split; [reflexivity|discriminate].
Qed.
Lemma nothing_emits : emits false nothing [].
Proof.
  intros _. split; [reflexivity|]. intros a old _. exists old. split; [reflexivity|]. split; [reflexivity|discriminate].
Qed.
Lemma after_emits y z f k t u : emits y f t -> emits z k u -> emits z (after f k) (t ++ u).
Proof.
  intros HF HK L. rewrite app_length in *.
  destruct HF as (A & B); [lia|]. destruct HK as (C & D); [lia|].
  assert (E : add_int (Z.of_nat (length t)) (Z.of_nat (length u)) = Ok (Z.of_nat (length t + length u))).
  { unfold add_int. replace (Z.of_nat (length t) + Z.of_nat (length u))%Z with (Z.of_nat (length t + length u)) by lia.
    now rewrite (proj2 (Z.leb_le _ _) L). }
  split.
  - intros mem. unfold after. rewrite A. cbn [bind]. cbn [advance]. rewrite C. cbn [bind]. rewrite E. reflexivity.
  - intros a old K. unfold after.
    destruct (B a old) as (rest & E1 & E2 & _); [lia|]. rewrite E1. cbn [bind advance]. rewrite Nat2Z.id.
    destruct (D (a ++ t) rest) as (rest' & F1 & F2 & F3).
    { rewrite app_length in E2. lia. }
    replace (length a + length t)%nat with (length (a ++ t)) by (now rewrite app_length).
    rewrite (app_assoc a t rest), F1. cbn [bind]. rewrite E. cbn [bind].
    exists rest'. split; [now rewrite <- !app_assoc|]. split; [|exact F3].
    rewrite !app_length in *. lia.
Qed.
Lemma for_each_emits z l ts k u : Forall2 (fun f t => exists y, emits y f t) l ts -> emits z k u ->
  emits z (for_each l k) (concat ts ++ u).
Proof.
  intros H K. induction H as [|f t l ts (y & F) H IH]; [exact K|]. cbn [for_each concat]. rewrite <- app_assoc.
  eapply after_emits; [exact F|exact IH].
Qed.

Lemma escape_emits c : emits false (escape c) (esc c).
Proof.
  destruct c as [[] [] [] [] [] [] [] []];
  match goal with |- emits false (escape ?c) (esc ?c) =>
    let e := eval vm_compute in (esc c) in change (esc c) with e
  end;
  first [ exact (put_char_emits _) | apply emits_weak; apply puts_emits; reflexivity ].
Qed.
Lemma string_emits s : emits true (json_serialize_string s) (qtext s).
Proof.
  unfold json_serialize_string, qtext. change (""""%char :: ?t) with ([""""%char] ++ t).
  eapply after_emits; [apply puts_emits; reflexivity|].
  apply for_each_emits; [|apply puts_emits; reflexivity].
  induction s as [|c s IH]; constructor; [exists false; apply escape_emits|exact IH].
Qed.
Lemma indent_emits n : emits false (append_indent n) (indent n).
Proof.
  unfold append_indent, indent. rewrite <- (app_nil_r (concat _)). apply for_each_emits; [|apply nothing_emits].
  induction n as [|n IH]; constructor; [exists true; apply puts_emits; reflexivity|exact IH].
Qed.
Lemma comma_emits i count : emits false (comma i count) (ctext i count).
Proof.
  unfold comma, ctext. destruct (i <? count - 1)%nat; [apply emits_weak; apply puts_emits; reflexivity|apply nothing_emits].
Qed.
Lemma nl_emits : emits true (puts nl) ["010"%char].
Proof. apply puts_emits. reflexivity. Qed.

Lemma items_emits z l k u level count : Forall (fun v => forall n, emits true (serialize v n) (text v n)) l -> emits z k u ->
  forall i, emits z (items_from (map serialize l) level i count k) (items_text (map text l) level i count ++ u).
Proof.
  intros H K. induction H as [|v l V H IH]; intros i; [exact K|]. cbn [map items_from items_text].
  repeat (rewrite <- app_assoc; cbn [app]).
  eapply after_emits; [apply indent_emits|]. eapply after_emits; [apply V|].
  eapply after_emits; [apply comma_emits|]. change ("010"%char :: ?t) with (["010"%char] ++ t).
  eapply after_emits; [apply nl_emits|]. apply IH.
Qed.

Lemma same_eq a b : same a b = true <-> a = b.
Proof. unfold same. destruct (list_eq_dec ascii_dec a b); split; congruence. Qed.
Lemma same_refl a : same a a = true.
Proof. now apply same_eq. Qed.
Lemma get_in {A} (m : list (list ascii * A)) k v : NoDup (map fst m) -> In (k, v) m -> json_object_get_value m k = Some v.
Proof.
  induction m as [|[n w] m IH]; [intros _ []|]. cbn [map fst]. intros D [E|I].
  - injection E as -> ->. cbn. now rewrite same_refl.
  - inversion D as [|? ? N D']; subst. cbn. destruct (same n k) eqn:E.
    + apply same_eq in E. subst. exfalso. apply N. apply (in_map fst) in I. exact I.
    + apply IH; assumption.
Qed.

Lemma members_emits z all m k u level count :
  NoDup (map fst all) -> incl m all ->
  Forall (fun kv => forall n, emits true (serialize (snd kv) n) (text (snd kv) n)) m -> emits z k u ->
  forall i, emits z (members_from (map (fun nv => (fst nv, serialize (snd nv))) all) (map fst m) level i count k)
                    (members_text (map (fun kv => (fst kv, text (snd kv))) m) level i count ++ u).
Proof.
  intros D I H K. induction H as [|[n v] m V H IH]; intros i; [exact K|]. cbn [map members_from members_text fst snd] in *.
  repeat (rewrite <- app_assoc; cbn [app]).
  eapply after_emits; [apply indent_emits|]. eapply after_emits; [apply string_emits|].
  change (":"%char :: " "%char :: ?t) with ([":"%char] ++ [" "%char] ++ t).
  eapply after_emits; [apply puts_emits; reflexivity|]. eapply after_emits; [apply puts_emits; reflexivity|].
  rewrite (get_in _ n (serialize v)).
  - eapply after_emits; [apply V|]. eapply after_emits; [apply comma_emits|].
    change ("010"%char :: ?t) with (["010"%char] ++ t). eapply after_emits; [apply nl_emits|].
    apply IH. intros x J. apply I. now right.
  - rewrite map_map. cbn [fst]. exact D.
  - apply (in_map (fun nv => (fst nv, serialize (snd nv))) all (n, v)). apply I. now left.
Qed.

Lemma distinct_all {A} (f : A -> jval) l : fold_right (fun x P => distinct (f x) /\ P) True l -> Forall (fun x => distinct (f x)) l.
Proof. induction l as [|x l IH]; [constructor|]. intros [H K]. constructor; auto. Qed.

Lemma serialize_emits v : distinct v -> forall level, emits true (serialize v level) (text v level).
Proof.
  induction v as [s|l H|m H] using jval_induct; intros D level; cbn [serialize text].
  - apply string_emits.
  - cbn [distinct] in D. apply (distinct_all (fun x => x)) in D.
    change ("["%char :: ?t) with (["["%char] ++ t).
    eapply after_emits; [apply puts_emits; reflexivity|].
    eapply (after_emits false); [destruct (0 <? length l)%nat; [apply emits_weak, nl_emits|apply nothing_emits]|].
    apply items_emits.
    + rewrite Forall_forall in *. intros x I n. apply H; [exact I|]. apply D. exact I.
    + eapply (after_emits false); [destruct (0 <? length l)%nat; [apply indent_emits|apply nothing_emits]|].
      apply puts_emits. reflexivity.
  - cbn [distinct] in D. destruct D as (N & D). apply (distinct_all snd) in D.
    change ("{"%char :: ?t) with (["{"%char] ++ t).
    eapply after_emits; [apply puts_emits; reflexivity|].
    eapply (after_emits false); [destruct (0 <? length m)%nat; [apply emits_weak, nl_emits|apply nothing_emits]|].
    apply members_emits; [exact N|apply incl_refl| |].
    + rewrite Forall_forall in *. intros x I n. apply (H x I). apply D. exact I.
    + eapply (after_emits false); [destruct (0 <? length m)%nat; [apply indent_emits|apply nothing_emits]|].
      apply puts_emits. reflexivity.
Qed.

(** *** how long it is *)
Lemma esc_length c : (length (esc c) <= 6)%nat.
Proof. destruct c as [[] [] [] [] [] [] [] []]; vm_compute; lia. Qed.
Lemma qtext_length s : (Z.of_nat (length (qtext s)) <= quoted_room s)%Z.
Proof.
  unfold qtext, quoted_room. cbn [Datatypes.length]. rewrite app_length. cbn [Datatypes.length].
  assert (H : (length (concat (map esc s)) <= 6 * length s)%nat).
  { induction s as [|c s IH]; [cbn; lia|]. cbn [map concat Datatypes.length]. rewrite app_length.
    pose proof (esc_length c). lia. }
  lia.
Qed.
Lemma indent_length n : length (indent n) = (4 * n)%nat.
Proof. induction n as [|n IH]; [reflexivity|]. unfold indent in *. cbn [repeat concat]. rewrite app_length, IH. cbn. lia. Qed.
Lemma ctext_length i count : (length (ctext i count) <= 1)%nat.
Proof. unfold ctext. destruct (i <? count - 1)%nat; cbn; lia. Qed.

Lemma text_length v : forall level, (Z.of_nat (length (text v level)) <= room v (Z.of_nat level))%Z.
Proof.
  induction v as [s|l H|m H] using jval_induct; intros level; cbn [text room].
  - apply qtext_length.
  - assert (A : forall i count, (Z.of_nat (length (items_text (map text l) level i count))
      <= sum_of (map (fun x => 4 * (Z.of_nat level + 1) + 2 + room x (Z.of_nat level + 1)) l))%Z).
    { induction H as [|x l V H IH]; intros i count; [cbn; lia|].
      cbn [map items_text sum_of fold_right]. rewrite !app_length. cbn [Datatypes.length].
      rewrite indent_length. pose proof (ctext_length i count). specialize (V (level + 1)%nat).
      specialize (IH (S i) count). unfold sum_of in IH.
      replace (Z.of_nat (level + 1)) with (Z.of_nat level + 1)%Z in V by lia. lia. }
    specialize (A 0%nat (length l)). cbn [Datatypes.length]. rewrite !app_length. cbn [Datatypes.length].
    destruct (0 <? length l)%nat; rewrite ?indent_length; cbn [Datatypes.length]; lia.
  - assert (A : forall i count, (Z.of_nat (length (members_text (map (fun kv => (fst kv, text (snd kv))) m) level i count))
      <= sum_of (map (fun x => 4 * (Z.of_nat level + 1) + 4 + quoted_room (fst x) + room (snd x) (Z.of_nat level + 1)) m))%Z).
    { induction H as [|[k x] m V H IH]; intros i count; [cbn; lia|].
      cbn [map members_text sum_of fold_right fst snd] in *. rewrite !app_length. cbn [Datatypes.length]. rewrite !app_length. cbn [Datatypes.length].
      rewrite indent_length. pose proof (ctext_length i count). specialize (V (level + 1)%nat).
      specialize (IH (S i) count). unfold sum_of in IH. pose proof (qtext_length k).
      replace (Z.of_nat (level + 1)) with (Z.of_nat level + 1)%Z in V by lia. lia. }
    specialize (A 0%nat (length m)). cbn [Datatypes.length]. rewrite !app_length. cbn [Datatypes.length].
    destruct (0 <? length m)%nat; rewrite ?indent_length; cbn [Datatypes.length]; lia.
Qed.

(** a text has no NUL *)
Definition nn (t : list ascii) : Prop := Forall (fun x => x <> zero) t.
Lemma ws_nn w : ws w -> nn w.
Proof. intros H. eapply Forall_impl; [|exact H]. intros c W ->. unfold white in W. decompose [or] W; discriminate. Qed.
Lemma nn_app a b : nn a -> nn b -> nn (a ++ b).
Proof. intros; apply Forall_app; auto. Qed.
Lemma nn_cons c a : c <> zero -> nn a -> nn (c :: a).
Proof. now constructor. Qed.
Lemma quoted_nn t s : quoted t s -> nn t.
Proof.
  induction 1 as [|c t s L Q B H IH| | | | | | | | |x y a b t s X Y L H IH];
    repeat (apply nn_cons; [discriminate|]); try assumption; try constructor.
  - intros ->. cbn in L. lia.
  - exact IH.
  - intros ->. discriminate X.
  - constructor; [intros ->; discriminate Y|exact IH].
Qed.
Lemma grammar_nn : (forall t v, value t v -> nn t) /\ (forall t l, elements t l -> nn t) /\ (forall t m, members t m -> nn t).
Proof.
  apply json_mut; intros;
  repeat match goal with H : ws _ |- _ => apply ws_nn in H | H : quoted _ _ |- _ => apply quoted_nn in H end;
  repeat first [assumption | apply nn_app | apply nn_cons; [discriminate|] | constructor].
Qed.

Lemma serialize_size v : distinct v -> (Z.of_nat (length (text v 0)) < int_max)%Z ->
  json_serialization_size_pretty v = Ok (Z.of_nat (length (text v 0)) + 1)%Z.
Proof.
  intros D L. unfold json_serialization_size_pretty.
  destruct (serialize_emits v D 0%nat) as (A & _); [lia|]. rewrite A. cbn [bind]. unfold add_int.
  replace (Z.of_nat (length (text v 0)) + 1 <=? int_max)%Z with true by lia. reflexivity.
Qed.
Lemma serialize_string v junk : distinct v -> (Z.of_nat (length (text v 0)) < int_max)%Z ->
  json_serialize_to_string_pretty junk v = Ok (Some (text v 0 ++ [zero])).
Proof.
  intros D L. unfold json_serialize_to_string_pretty. rewrite (serialize_size v D L). cbn [bind].
  replace (Z.of_nat (length (text v 0)) + 1 =? 0)%Z with false by lia.
  unfold json_serialize_to_buffer_pretty. rewrite (serialize_size v D L). cbn [bind].
  set (buf := map junk (seq 0 (Z.to_nat (Z.of_nat (length (text v 0)) + 1)))).
  assert (B : length buf = S (length (text v 0))) by (unfold buf; rewrite map_length, seq_length; lia).
  replace ((Z.of_nat (length (text v 0)) + 1 =? 0) || (Z.of_nat (length buf) <? Z.of_nat (length (text v 0)) + 1))%Z
    with false by (rewrite B; lia).
  destruct (serialize_emits v D 0%nat) as (_ & C); [lia|].
  destruct (C [] buf) as (rest & E & F & G); [lia|]. cbn [app Datatypes.length] in E. rewrite E. cbn [bind].
  destruct (G eq_refl) as (r & ->). destruct r; [reflexivity|].
  exfalso. rewrite app_length in F. cbn [Datatypes.length] in F. lia.
Qed.
