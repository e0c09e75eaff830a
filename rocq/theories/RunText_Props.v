(** C28 and C68 together: what the whole output of a run is, as a JSON text. *)
From Coq Require Import Ascii String.
From Verif Require Import Base Cli_Model Poly_Model Points_Model Hex_Model Bits_Model Json_Spec Json_Model Json_Proofs
  CurveText_Model CurveText_Spec CurveText_Props Output_Model Output_Props.
Local Open Scope Z_scope.
Local Open Scope list_scope.

Notation bytes := list_ascii_of_string.
Lemma bytes_app a b : bytes (a ++ b)%string = bytes a ++ bytes b.
Proof. induction a as [|c a IH]; [reflexivity|]. cbn. now rewrite IH. Qed.
Lemma nl_ws : ws ["010"%char].
Proof. constructor; [right; right; left; reflexivity|constructor]. Qed.

(** ** A listing of texts *)
Lemma elements_pad t v w : json t v -> ws w -> elements (w ++ t) [v].
Proof.
  intros (w1 & u & w2 & W1 & V & W2 & ->) W. rewrite app_assoc. apply e_one; [now apply Forall_app|exact V|exact W2].
Qed.
Lemma elements_more t v w r l : json t v -> ws w -> elements r l -> elements (w ++ t ++ ","%char :: r) (v :: l).
Proof.
  intros (w1 & u & w2 & W1 & V & W2 & ->) W R. rewrite <- !app_assoc, app_assoc.
  apply e_more; [now apply Forall_app|exact V|exact W2|exact R].
Qed.
Lemma listed_elements ts : forall ds, Forall2 (fun t d => json (bytes t) d) ts ds -> ts <> [] ->
  elements ("010"%char :: bytes (listed ts)) ds.
Proof.
  induction ts as [|t ts IH]; intros ds H N; [congruence|]. inversion H as [|? d ? ds' D H']; subst.
  destruct ts as [|t' ts].
  - inversion H'; subst. apply (elements_pad (bytes t) d ["010"%char] D nl_ws).
  - cbn [listed]. rewrite bytes_app. apply (elements_more (bytes t) d ["010"%char] _ _ D nl_ws). apply IH; [exact H'|discriminate].
Qed.

(** Texts of JSON documents in an array are the text of the array of the documents. *)
Lemma array_json ts ds : Forall2 (fun t d => json (bytes t) d) ts ds -> json (bytes (array ts)) (JArr ds).
Proof.
  intros H. exists [], (removelast (bytes (array ts))), ["010"%char]. split; [constructor|].
  assert (E : bytes (array ts) = ("["%char :: ("010"%char :: bytes (listed ts)) ++ ["]"%char]) ++ ["010"%char]).
  { unfold array. cbn [list_ascii_of_string]. rewrite bytes_app. cbn [app list_ascii_of_string]. now rewrite <- app_assoc. }
  rewrite E, removelast_last. split; [|split; [exact nl_ws|reflexivity]].
  destruct ts as [|t ts].
  - inversion H; subst. apply v_arr0. exact nl_ws.
  - apply v_arr. apply listed_elements; [exact H|discriminate].
Qed.

(** ** A listing with a separator after the last text *)
Definition trailing (ts : list string) : list ascii := concat (map (fun t => bytes t ++ [","; "010"]%char) ts) ++ ["]"; "010"]%char.
Lemma trailing_re ts : forall ds f, Forall2 (fun t d => json (bytes t) d) ts ds -> (length (trailing ts) < f)%nat ->
  re f ("010"%char :: trailing ts) = None.
Proof.
  induction ts as [|t ts IH]; intros ds f H L.
  - cbn in L. destruct f as [|[|f]]; [lia|lia|]. cbn. reflexivity.
  - inversion H as [|? d ? ds' D H']; subst. destruct D as (w & u & w' & W & V & W' & E).
    unfold trailing in *. cbn [map concat] in *. rewrite E in *.
    fuelS f. cbn [re]. assert (K : forall x, skip ("010"%char :: x) = skip x) by reflexivity. rewrite K. repeat rewrite <- app_assoc. rewrite skip_ws by exact W.
    rewrite (skip_value u d _ V), (proj1 Json_Proofs.read_ok u d V) by (lens; lia).
    rewrite skip_ws by exact W'. cbn [app]. rewrite skip_stop by notwhite.
    change (Ascii.eqb "," ",") with true. cbn iota.
    rewrite (IH ds' f H') by (lens; lia). reflexivity.
Qed.
Lemma trailing_start ts ds : Forall2 (fun t d => json (bytes t) d) ts ds -> ts <> [] ->
  exists d u, skip ("010"%char :: trailing ts) = d :: u /\ Ascii.eqb d "]" = false.
Proof.
  intros H N. destruct H as [|t d ts ds (w & u & w' & W & V & W' & E) _]; [congruence|].
  assert (K : forall x, skip ("010"%char :: x) = skip x) by reflexivity. rewrite K.
  unfold trailing. cbn [map concat]. rewrite E. repeat rewrite <- app_assoc. rewrite skip_ws, (skip_value u d _ V) by exact W.
  destruct (value_start u d V) as (c & x & -> & NW & NB & _). exists c. eexists. split; [reflexivity|]. now apply eqb_no.
Qed.
Lemma trailing_bad ts ds v : Forall2 (fun t d => json (bytes t) d) ts ds -> ts <> [] ->
  ~ json ("["%char :: "010"%char :: trailing ts) v.
Proof.
  intros H N (w & u & w' & W & V & W' & E).
  pose (t := "["%char :: "010"%char :: trailing ts).
  assert (A : rv (length t) (skip t) = Some (v, w')).
  { unfold t. rewrite E at 2. rewrite skip_ws, (skip_value u v _ V) by exact W.
    apply (proj1 Json_Proofs.read_ok); [exact V|]. rewrite E. lens. lia. }
  unfold t in A. rewrite skip_stop in A by notwhite. cbn [Datatypes.length rv] in A.
  change (Ascii.eqb "[" """") with false in A. change (Ascii.eqb "[" "[") with true in A. cbn iota in A.
  destruct (trailing_start ts ds H N) as (d & x & S & B). rewrite S, B, <- S, re_skip in A.
  rewrite (trailing_re ts ds _ H) in A by lia. discriminate.
Qed.

(** ** The run *)
Section Run.
Variable hexw hexp dec : Z -> list ascii.
Hypothesis OK : prints hexw hexp dec.
Variable junk : nat -> ascii.
Variable metadata : bool.
Definition fits (c : ccurve) : Prop := printable c /\ room (doc hexw hexp dec (published metadata c)) 0 < 2 ^ 31 - 1.

(** what is written for a curve: src/io/output.c:192-198 *)
Definition shown (c : ccurve) : string :=
  match output_sjson hexw hexp dec junk metadata c with Ok (Some t) => string_of_list_ascii t | _ => EmptyString end.
Lemma shown_json c : fits c -> json (bytes (shown c)) (doc hexw hexp dec (published metadata c)).
Proof.
  intros (P & R). destruct (C68_readback hexw hexp dec junk metadata c OK P R) as (t & E & J & _).
  unfold shown. rewrite E, list_ascii_of_string_of_list_ascii. exact J.
Qed.
Lemma shown_all cs : Forall fits cs ->
  Forall2 (fun t d => json (bytes t) d) (map shown cs) (map (fun c => doc hexw hexp dec (published metadata c)) cs).
Proof. induction 1 as [|c cs H _ IH]; [constructor|]. constructor; [now apply shown_json|exact IH]. Qed.

(** All the requested curves are generated: whatever document a reader makes of the output, it is an
    array, and reading its elements gives the generated curves in order. *)
Theorem C68_run gen cs count fuel :
  0 <= count < 2 ^ 64 -> count = Z.of_nat (length cs) -> (length cs <= fuel)%nat ->
  (forall k c, nth_error cs k = Some c -> gen (Z.of_nat k) = Some c) -> Forall fits cs ->
  exists text, exhaustive_generate shown gen fuel count = Ok (text, true) /\ (exists v, json (bytes text) v) /\
    forall v, json (bytes text) v -> exists ds, v = JArr ds /\ all read_curve ds = Some (map (published metadata) cs).
Proof.
  intros R H F G P. exists (array (map shown cs)).
  split; [now apply C28_success_partial|].
  pose proof (array_json _ _ (shown_all cs P)) as J. split; [eexists; exact J|].
  intros v K. exists (map (fun c => doc hexw hexp dec (published metadata c)) cs).
  split; [exact (json_unique _ _ _ K J)|].
  clear - OK P. induction P as [|c cs (Pc & _) _ IH]; [reflexivity|]. cbn [map all].
  rewrite (CurveText_Props.read_ok hexw hexp dec OK), IH by (now apply printable_good). reflexivity.
Qed.

(** When some curve after the first cannot be generated, the output is no JSON text at all. *)
Theorem C28_failure_not_json gen cs count fuel :
  Z.of_nat (length cs) < count < 2 ^ 64 -> (length cs < fuel)%nat ->
  (forall k c, nth_error cs k = Some c -> gen (Z.of_nat k) = Some c) ->
  gen (Z.of_nat (length cs)) = None -> Forall fits cs -> cs <> [] ->
  exists text, exhaustive_generate shown gen fuel count = Ok (text, false) /\ forall v, ~ json (bytes text) v.
Proof.
  intros R F G X P N. eexists. split; [now apply C28_failure_text|]. intros v.
  assert (E : bytes (String "[" (String "010" (String.concat "" (map (fun c => shown c ++ String "," (String "010" "")) cs)
                ++ String "]" (String "010" ""))))%string = "["%char :: "010"%char :: trailing (map shown cs)).
  { cbn [list_ascii_of_string]. rewrite bytes_app. unfold trailing. cbn [list_ascii_of_string].
    f_equal. f_equal. f_equal. clear. induction cs as [|c [|c' cs] IH]; [reflexivity| |].
    - cbn [map String.concat concat]. rewrite bytes_app, app_nil_r. reflexivity.
    - change (String.concat "" (map ?f (c :: c' :: cs))) with (f c ++ (String.concat "" (map f (c' :: cs))))%string.
      rewrite !bytes_app, IH. cbn [map concat]. reflexivity. }
  rewrite E. eapply trailing_bad; [now apply shown_all|]. destruct cs; [congruence|discriminate].
Qed.
End Run.
Print Assumptions C68_run.
Print Assumptions C28_failure_not_json.

Example C68_run_example : Forall (fits hex_2 hex_2 dec_2 true) [ex68; ex68] /\
  exists text, exhaustive_generate (shown hex_2 hex_2 dec_2 (fun _ => "?"%char) true) (fun i => if i <? 2 then Some ex68 else None) 2 2 = Ok (text, true).
Proof.
  destruct C68_example as (_ & P & R & _).
  split; [constructor; [split; assumption|constructor; [split; assumption|constructor]]|].
  destruct (C68_run hex_2 hex_2 dec_2 printers (fun _ => "?"%char) true (fun i => if i <? 2 then Some ex68 else None) [ex68; ex68] 2 2) as (t & E & _);
    [lia|reflexivity|cbn; lia| | |exists t; exact E].
  - intros [|[|k]] c H; try (injection H as <-; reflexivity). destruct k; discriminate.
  - constructor; [split; assumption|constructor; [split; assumption|constructor]].
Qed.
Example C28_failure_not_json_example :
  exists text, exhaustive_generate (shown hex_2 hex_2 dec_2 (fun _ => "?"%char) true) (fun i => if i <? 1 then Some ex68 else None) 2 2 = Ok (text, false) /\
  forall v, ~ json (bytes text) v.
Proof.
  destruct C68_example as (_ & P & R & _).
  apply (C28_failure_not_json hex_2 hex_2 dec_2 printers (fun _ => "?"%char) true (fun i => if i <? 1 then Some ex68 else None) [ex68]);
    [cbn; lia|cbn; lia| |reflexivity| |discriminate].
  - intros [|k] c H; [injection H as <-; reflexivity|destruct k; discriminate].
  - constructor; [split; assumption|constructor].
Qed.
