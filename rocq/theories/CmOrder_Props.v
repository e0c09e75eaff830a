(** C53: the order argument of the CM method. *)
From Coq Require Import Ascii String.
From Verif Require Import Base Primes Str_Model Str_Proofs Cli_Model Cli_Spec Cli_Proofs Input_Model Input_Props CmOrder_Model.
Local Open Scope Z_scope.
Local Open Scope list_scope.

(** ** Specification *)
(** a comma-separated list of numbers (decimal, or hexadecimal with 0x) and their values *)
Inductive order_text : str -> list Z -> Prop :=
| ot_one t v : magnitude t v -> order_text t [v]
| ot_more t v s vs : magnitude t v -> order_text s vs -> order_text (t ++ ","%char :: s) (v :: vs).
Definition product (l : list Z) : Z := fold_right Z.mul 1 l.
(** the pieces of a text between commas *)
Fixpoint cut_at (s : str) : list str :=
  match s with
  | [] => [[]]
  | c :: s => if Ascii.eqb c "," then [] :: cut_at s
              else match cut_at s with p :: ps => (c :: p) :: ps | [] => [[c]] end
  end.

(** ** Cutting *)
Lemma cut_at_length s : List.length (cut_at s) = S (count "," s).
Proof.
  induction s as [|c s IH]; [reflexivity|]. cbn [cut_at]. unfold count in *. cbn [filter]. rewrite Ascii.eqb_sym.
  destruct (Ascii.eqb "," c); cbn [List.length]; [rewrite IH; reflexivity|].
  destruct (cut_at s); [discriminate|]. exact IH.
Qed.
Lemma split_ok : forall s room piece factors, (List.length factors + S (count "," s) <= room)%nat ->
  split_factors room piece s factors =
  Ok (factors ++ match cut_at s with p :: ps => strtoi (rev piece ++ p) :: map strtoi ps | [] => [] end).
Proof.
  induction s as [|c s IH]; intros room piece factors H; cbn [split_factors cut_at].
  - cbn in H. destruct (Nat.ltb_spec (List.length factors) room); [|lia]. rewrite app_nil_r. reflexivity.
  - unfold count in *. cbn [filter] in H. rewrite Ascii.eqb_sym in H. destruct (Ascii.eqb_spec c ",") as [->|NE].
    + cbn [List.length] in H. destruct (Nat.ltb_spec (List.length factors) room); [|lia].
      rewrite IH by (rewrite app_length; cbn [List.length]; lia). rewrite app_nil_r, <- app_assoc. cbn [app rev].
      pose proof (cut_at_length s). destruct (cut_at s); [discriminate|reflexivity].
    + rewrite IH by lia. pose proof (cut_at_length s). destruct (cut_at s) as [|p ps]; [discriminate|].
      cbn [rev]. rewrite <- app_assoc. reflexivity.
Qed.
Lemma fold_product l : forall a, fold_left Z.mul l a = a * product l.
Proof. induction l as [|x l IH]; intros a; cbn [fold_left product fold_right]; [ring|]. rewrite IH. fold (product l). ring. Qed.
Lemma cut_one s : count "," s = 0%nat -> cut_at s = [s].
Proof.
  induction s as [|c s IH]; intros H; [reflexivity|]. unfold count in *. cbn [filter] in H. rewrite Ascii.eqb_sym in H.
  cbn [cut_at]. destruct (Ascii.eqb c ","); [discriminate|]. rewrite IH by assumption. reflexivity.
Qed.

(** For every argument the outcome is determined by the product of the numbers at the beginning of the pieces (0 where
    there is none); nothing is written outside the vector. *)
Theorem C53_outcome : forall isprime bits arg, nonul arg ->
  cm_init_order isprime bits arg =
  let order := product (map strtoi (cut_at arg)) in
  Ok (if (order =? 0) || (bits <? Z.log2 order) then Refused
      else Accepted order ((List.length (cut_at arg) =? 1)%nat && isprime order)).
Proof.
  intros isprime bits arg H. unfold cm_init_order. rewrite str_cnt_ok by assumption. cbn [bind]. cbv zeta.
  rewrite cut_at_length. cbn [Nat.eqb].
  destruct (Nat.eqb_spec (count "," arg) 0) as [E|E].
  - cbn [bind]. rewrite (cut_one arg E). cbn [map product fold_right]. rewrite Z.mul_1_r.
    destruct (strtoi arg =? 0); [reflexivity|]. cbn [orb]. destruct (bits <? Z.log2 (strtoi arg)); reflexivity.
  - rewrite split_ok by (cbn; lia). cbn [bind app rev]. pose proof (cut_at_length arg) as L.
    destruct (cut_at arg) as [|p ps] eqn:C; [discriminate|]. rewrite fold_product, Z.mul_1_l.
    change (strtoi p :: map strtoi ps) with (map strtoi (p :: ps)).
    destruct (product (map strtoi (p :: ps)) =? 0); [reflexivity|]. cbn [orb].
    destruct (bits <? _); reflexivity.
Qed.
Print Assumptions C53_outcome.
Example C53_outcome_example :
  cm_init_order isprime_b 8 (lit "3,5 or 6,7") = Ok (Accepted 105 false) /\ cm_init_order isprime_b 8 (lit "3,,7") = Ok Refused.
Proof. vm_compute. auto. Qed.

(** ** Lists of numbers *)
Lemma hexnum_no_comma t v : hexnum t v -> ~ In ","%char t.
Proof.
  intros H I. induction H as [|t v c x H IH X]; [destruct I|]. apply in_app_iff in I as [I|[I|[]]]; [auto|].
  subst c. apply hexit_ok in X as (X & _). discriminate.
Qed.
Lemma magnitude_no_comma t v : magnitude t v -> ~ In ","%char t.
Proof.
  intros [ds N D|x ds v' X N H] I.
  - rewrite Forall_forall in D. specialize (D _ I). revert D. nodigit.
  - destruct I as [I|[I|I]]; [discriminate|destruct X; subst; discriminate|]. exact (hexnum_no_comma _ _ H I).
Qed.
Lemma no_comma_count t : ~ In ","%char t -> count "," t = 0%nat.
Proof.
  induction t as [|c t IH]; intros H; [reflexivity|]. unfold count in *. cbn [filter].
  destruct (Ascii.eqb_spec "," c) as [<-|_]; [exfalso; apply H; left; reflexivity|]. apply IH. intros X. apply H. right. assumption.
Qed.
Lemma cut_app t s : ~ In ","%char t -> cut_at (t ++ ","%char :: s) = t :: cut_at s.
Proof.
  induction t as [|c t IH]; intros H; [reflexivity|]. cbn [app cut_at].
  destruct (Ascii.eqb_spec c ",") as [->|_]; [exfalso; apply H; left; reflexivity|].
  rewrite IH by (intros X; apply H; right; assumption). reflexivity.
Qed.
Lemma order_text_cut s vs : order_text s vs -> map strtoi (cut_at s) = vs /\ nonul s.
Proof.
  assert (NU : forall t v, magnitude t v -> nonul t).
  { intros t v H. apply Forall_forall. intros c I E. subst c. apply magnitude_nul in H. contradiction. }
  assert (ST : forall t v, magnitude t v -> strtoi t = v).
  { intros t v H. rewrite <- (app_nil_r t). apply strtoi_magnitude; [assumption|left; reflexivity]. }
  intros H. induction H as [t v H|t v s vs H H2 (IH1 & IH2)].
  - rewrite cut_one by (apply no_comma_count, (magnitude_no_comma _ _ H)). cbn [map]. rewrite (ST _ _ H).
    split; [reflexivity|]. exact (NU _ _ H).
  - rewrite cut_app by (exact (magnitude_no_comma _ _ H)). cbn [map]. rewrite (ST _ _ H), IH1.
    split; [reflexivity|]. apply nonul_app. split; [exact (NU _ _ H)|]. constructor; [discriminate|assumption].
Qed.

(** A list of numbers passes the check of the command line; the order is the product of the numbers; it is refused when
    it is 0 or at least 2^(bits + 1); only a single number is ever treated as a prime order. *)
Theorem C53_list : forall isprime bits arg vs, order_text arg vs -> 0 <= bits ->
  regexec arg = true /\
  cm_init_order isprime bits arg =
    Ok (if (product vs =? 0) || (2 ^ (bits + 1) <=? product vs) then Refused
        else Accepted (product vs) (match vs with [_] => isprime (product vs) | _ => false end)).
Proof.
  intros isprime bits arg vs H Hb. destruct (order_text_cut arg vs H) as (E & NU). split.
  - apply regexec_iff. destruct H as [t v H|t v s vs H H2]; destruct (magnitude_head _ _ H) as (c & u & -> & D);
      exists c; (split; [left; reflexivity|assumption]).
  - rewrite C53_outcome by assumption. cbv zeta. rewrite E.
    assert (L : List.length (cut_at arg) = List.length vs) by (rewrite <- E, map_length; reflexivity). rewrite L.
    assert (P : 0 <= product vs).
    { clear E L NU. assert (M : forall t v, magnitude t v -> 0 <= v).
      { intros t v [ds N D|x ds v' X N Hx].
        - unfold dec. assert (G : forall a, 0 <= a -> 0 <= fold_left (fun v c => 10 * v + dval c) ds a); [|apply G; lia].
          clear N. induction D as [|c ds Dc D IH]; intros a Ha; cbn [fold_left]; [assumption|]. apply IH.
          unfold digit in Dc. unfold dval. lia.
        - clear - Hx. induction Hx as [|t v c y Hx IH Y]; [lia|]. apply hexit_ok in Y as (Y1 & <-).
          assert (0 <= hexval c); [|lia]. revert Y1. clear. destruct c as [[] [] [] [] [] [] [] []]; vm_compute; discriminate. }
      induction H as [t v H|t v s vs H H2 IH]; cbn [product fold_right]; [apply M in H; lia|].
      fold (product vs). apply M in H. nia. }
    replace (bits <? Z.log2 (product vs)) with (if product vs =? 0 then false else 2 ^ (bits + 1) <=? product vs).
    + destruct (Z.eqb_spec (product vs) 0) as [->|NE]; [reflexivity|]. cbn [orb].
      destruct (2 ^ (bits + 1) <=? product vs); [reflexivity|].
      destruct vs as [|v [|w vs]]; [inversion H|reflexivity|reflexivity].
    + destruct (Z.eqb_spec (product vs) 0) as [->|NE]; [symmetry; apply Z.ltb_ge; exact Hb|].
      pose proof (Z.log2_le_pow2 (product vs) (bits + 1) ltac:(lia)).
      destruct (Z.leb_spec (2 ^ (bits + 1)) (product vs)), (Z.ltb_spec bits (Z.log2 (product vs))); lia || reflexivity.
Qed.
Print Assumptions C53_list.
Example C53_list_example : order_text (lit "3,0x1F,7") [3; 31; 7] /\
  cm_init_order isprime_b 10 (lit "3,0x1F,7") = Ok (Accepted 651 false) /\
  cm_init_order isprime_b 10 (lit "1009") = Ok (Accepted 1009 true).
Proof.
  split; [|vm_compute; auto].
  assert (D : forall c, In c (lit "37") -> digit c) by (intros c [<-|[<-|[]]]; nodigit).
  apply (ot_more (lit "3") 3 (lit "0x1F,7") [31; 7]).
  { apply (mag_dec (lit "3")); [discriminate|]. repeat constructor; nodigit. }
  apply (ot_more (lit "0x1F") 31 (lit "7") [7]).
  { apply (mag_hex "x"%char (lit "1F") 31); [left; reflexivity|discriminate|].
    apply (hexnum_snoc (lit "1") 1 "F"%char 15); [|vm_compute; tauto].
    apply (hexnum_snoc [] 0 "1"%char 1); [constructor|vm_compute; tauto]. }
  apply ot_one. apply (mag_dec (lit "7")); [discriminate|]. repeat constructor; nodigit.
Qed.

(** *** What goes wrong *)
Lemma order_text_chars s vs : order_text s vs -> forall c, In c s -> isxdigit c = true \/ c = "x"%char \/ c = "X"%char \/ c = ","%char.
Proof.
  assert (M : forall t v, magnitude t v -> forall c, In c t -> isxdigit c = true \/ c = "x"%char \/ c = "X"%char \/ c = ","%char).
  { intros t v [ds N D|x ds v' X N H] c I.
    - left. rewrite Forall_forall in D. specialize (D _ I). unfold digit in D. revert D. clear.
      destruct c as [[] [] [] [] [] [] [] []]; vm_compute; intros; reflexivity || lia.
    - destruct I as [<-|[<-|I]]; [left; reflexivity|destruct X as [->| ->]; auto|]. left. clear - H I.
      induction H as [|t v d y H IH Y]; [destruct I|]. apply in_app_iff in I as [I|[<-|[]]]; [auto|]. apply hexit_ok in Y as (Y & _). exact Y. }
  intros H. induction H as [t v H|t v s vs H H2 IH]; [exact (M _ _ H)|]. intros c I.
  apply in_app_iff in I as [I|[<-|I]]; [exact (M _ _ H c I)|auto|auto].
Qed.
(** the expression of the command line is not anchored: text that is no list is accepted, and used *)
Theorem C53_refuted : exists arg bits, (forall vs, ~ order_text arg vs) /\ regexec arg = true /\
  cm_init_order isprime_b bits arg = Ok (Accepted 7 true).
Proof.
  exists (lit "7 or so"), 8. split; [|vm_compute; auto]. intros vs H.
  destruct (order_text_chars _ _ H " "%char) as [C|[C|[C|C]]]; try discriminate. vm_compute. auto.
Qed.
Print Assumptions C53_refuted.
(** an order of bits + 1 bits is not refused *)
Theorem C53_size_refuted : exists arg vs bits, order_text arg vs /\ 2 ^ bits <= product vs /\
  cm_init_order isprime_b bits arg = Ok (Accepted (product vs) true).
Proof.
  exists (lit "509"), [509], 8. split; [|vm_compute; auto; split; [discriminate|reflexivity]].
  apply ot_one. apply (mag_dec (lit "509")); [discriminate|]. repeat constructor; nodigit.
Qed.
Print Assumptions C53_size_refuted.
