(** C71: from the command line to the files. *)
From Coq Require Import Ascii String.
From Verif Require Import Base Json_Spec Json_Proofs Shell_Model Shell_Spec Shell_Proofs.
From Verif Require CurveText_Model CurveText_Spec CurveText_Props Output_Model Output_Props RunText_Props.
Local Open Scope list_scope.
Local Open Scope nat_scope.

Section Shell.
Variable ino : text -> nat.
Variable readable writable : nat -> bool.
Variable limit : nat -> option nat.
Variable reason : text.
Notation main := (main ino readable writable limit reason).

(** Whatever the settings, the file system, the method and its outcome, and however many bytes each write can
    place: no NULL or closed stream is ever used, no standard stream is closed, and in the end no file is open. *)
Theorem C71_streams cfg seadata method fs kbd :
  let w := fst (main true cfg seadata method (fresh fs kbd)) in bad w = [] /\ handles w = [].
Proof. apply main_sound. Qed.

(** Only the two files named by --output and --verbose are ever changed. *)
Theorem C71_frame cfg seadata method fs kbd j :
  ~ out_file ino writable cfg j -> ~ log_file ino writable cfg j ->
  files (fst (main true cfg seadata method (fresh fs kbd))) j = fs j.
Proof. intros A B. apply main_frame. intros [C|C]; auto. Qed.

(** An input file that cannot be read: the status is 1 and the method does not run. *)
Theorem C71_no_input cfg seadata method fs kbd p :
  i_input cfg = Some p -> fs (ino p) = None \/ readable (ino p) = false -> ~ out_file ino writable cfg (ino p) -> ~ log_file ino writable cfg (ino p) ->
  snd (main true cfg seadata method (fresh fs kbd)) = Some 1%Z /\ console (fst (main true cfg seadata method (fresh fs kbd))) = [].
Proof.
  intros I X A B. unfold Shell_Model.main. cbn [negb]. pose proof (start_eq ino readable writable limit reason cfg seadata fs kbd) as H.
  pose proof (start_sound ino readable writable limit reason cfg seadata fs kbd) as SS. pose proof (start_owned ino readable writable limit reason cfg seadata fs kbd) as SO.
  unfold start in *. destruct (init _ _ _ _ _ cfg seadata (fresh fs kbd)) as (ok, w). cbn [fst snd] in *.
  destruct H as (_ & _ & C & _ & _ & _ & F & H). rewrite I in H. destruct SO as (_ & SO).
  assert (E : files_log ino writable cfg (files_out ino writable cfg fs) (ino p) = fs (ino p)) by (rewrite <- F; apply SO; intros [?|?]; auto).
  rewrite E in H. destruct H as [(_ & (t & E1) & E2 & _)|(-> & _)]; [exfalso; destruct X; congruence|]. cbn [negb fst snd]. split; [reflexivity|].
  destruct (quit_sound w (proj1 SS)) as (_ & _ & _ & ->). exact C.
Qed.

Lemma separate_apart cfg : separate ino writable cfg ->
  apart (opens ino writable (i_output cfg)) (option_map ino (i_input cfg)) /\
  apart (opens ino writable (i_log cfg)) (option_map ino (i_input cfg)) /\
  apart (opens ino writable (i_output cfg)) (opens ino writable (i_log cfg)).
Proof.
  intros H. assert (I : forall i, option_map ino (i_input cfg) = Some i -> in_file ino cfg i).
  { intros i. unfold in_file. destruct (i_input cfg) as [f|]; [|discriminate]. intros [= <-]. eauto. }
  unfold apart. split; [|split]; intros i A B; destruct (H i) as (H1 & H2 & H3).
  - apply H2. split; [now apply opens_out|now apply I].
  - apply H3. split; [now apply opens_log|now apply I].
  - apply H1. split; [now apply opens_out|now apply opens_log].
Qed.

(** When every write succeeds and output, log and input are different files: the output file holds what it held
    before if --append is given, then exactly what the method says, in order; the log likewise from its start;
    without an output file the same text goes to stdout; the exit status is the method's. *)
Theorem C71_contents_partial cfg seadata method fs kbd d input :
  (forall n, limit n = None) -> separate ino writable cfg -> input_is ino readable cfg fs kbd d input ->
  let '(w, status) := main true cfg seadata method (fresh fs kbd) in
  status = status_of (ends method d input) /\
  (forall i, out_file ino writable cfg i -> files w i = Some (kept cfg (fs i) ++ says Out method d input) /\ console w = []) /\
  ((forall i, ~ out_file ino writable cfg i) -> console w = says Out method d input) /\
  (forall i, log_file ino writable cfg i -> files w i = Some (says Verbose method d input)).
Proof.
  intros L S I. destruct (separate_apart cfg S) as (A1 & A2 & A3).
  pose proof (main_shows ino readable writable limit reason L cfg seadata method fs kbd d input I A1 A2 A3) as (E & H).
  destruct (main true cfg seadata method (fresh fs kbd)) as (w, status). cbn [fst snd] in *. unfold shows in H.
  split; [exact E|]. split; [|split].
  - intros i O. apply opens_out in O. rewrite O in H. tauto.
  - intros N. destruct (opens ino writable (i_output cfg)) as [i|] eqn:O; [apply opens_out in O; now destruct (N i)|]. apply H.
  - intros i O. apply opens_log in O. rewrite O in H. apply H.
Qed.
End Shell.
Print Assumptions C71_streams.
Print Assumptions C71_frame.
Print Assumptions C71_no_input.
Print Assumptions C71_contents_partial.

(** ** The exhaustive method: a run that ends with status 0 leaves a JSON array of [count] curves *)
Notation bytes := list_ascii_of_string.
Section Run.
Local Open Scope Z_scope.
Context {C : Type}.
Variable show : C -> string.
Variable gen : Z -> prog (option C).
Variable good : C -> Prop.
Hypothesis quiet : forall i d input, says Out (gen i) d input = [].
Hypothesis never : forall i d input, ends (gen i) d input <> Exited 0.
Hypothesis made : forall i d input c, ends (gen i) d input = Returned (Some c) -> good c.
Notation from := (generate_from (fun c => bytes (show c)) gen).
Lemma from_says d count : 0 <= count < 2 ^ 64 -> forall fuel i input, 0 <= i <= count -> status_of (ends (from fuel i count) d input) = Some 0 ->
  ends (from fuel i count) d input = Returned (Some 0) /\
  exists cs, i + Z.of_nat (length cs) = count /\ Forall good cs /\ says Out (from fuel i count) d input = bytes (Output_Props.listed (map show cs)).
Proof.
  intros B. assert (U : u64 count = count) by (unfold u64; apply Z.mod_small; lia).
  induction fuel as [|fuel IH]; intros i input R; cbn [generate_from]; rewrite U; destruct (Z.ltb_spec i count) as [L|L].
  - discriminate.
  - intros _. split; [reflexivity|]. exists []. cbn. split; [lia|]. split; [constructor|reflexivity].
  - destruct (then_says (gen i) (fun r => match r with
       | Some c => Write Out (bytes (show c)) (if negb (i =? u64 (count - 1)) then Write Out [","; "010"]%char (from fuel (u64 (i + 1)) count) else from fuel (u64 (i + 1)) count)
       | None => Done (Some 1) end) Out d input) as (rest & E1 & E2).
    rewrite E1, E2, quiet. destruct (ends (gen i) d input) as [[c|]|s] eqn:G; [|cbn; discriminate|intros [= ->]; now destruct (never i d input)].
    assert (U1 : u64 (i + 1) = i + 1) by (unfold u64; apply Z.mod_small; lia).
    assert (U2 : u64 (count - 1) = count - 1) by (unfold u64; apply Z.mod_small; lia).
    rewrite U1, U2. cbn [app says ends same_channel]. destruct (Z.eqb_spec i (count - 1)) as [Q|Q]; cbn [negb ends says same_channel];
      intros H; destruct (IH (i + 1) rest ltac:(lia) H) as (H' & cs & N & P & S); (split; [exact H'|]); exists (c :: cs); cbn [length map];
      (split; [lia|]); (split; [constructor; [exact (made _ _ _ _ G)|exact P]|]); rewrite S.
    + destruct cs; [cbn; now rewrite app_nil_r|cbn [length] in N; lia].
    + destruct cs as [|c' cs]; [cbn [length] in N; lia|]. cbn [map]. cbn [Output_Props.listed]. rewrite RunText_Props.bytes_app. reflexivity.
  - intros _. split; [reflexivity|]. exists []. cbn. split; [lia|]. split; [constructor|reflexivity].
Qed.
Lemma exhaustive_says d count fuel input : 0 <= count < 2 ^ 64 ->
  status_of (ends (exhaustive_generate (fun c => bytes (show c)) gen fuel count) d input) = Some 0 ->
  exists cs, Z.of_nat (length cs) = count /\ Forall good cs /\
    says Out (exhaustive_generate (fun c => bytes (show c)) gen fuel count) d input = bytes (Output_Props.array (map show cs)).
Proof.
  intros B. unfold exhaustive_generate. cbn [ends says same_channel].
  destruct (then_says (from fuel 0 count) (fun r => Write Out ["]"; "010"]%char (Done r)) Out d input) as (rest & E1 & E2).
  rewrite E1, E2. intros E.
  assert (E' : status_of (ends (from fuel 0 count) d input) = Some 0) by (destruct (ends (from fuel 0 count) d input); exact E).
  destruct (from_says d count B fuel 0 input ltac:(lia) E') as (H & cs & N & P & S). exists cs. split; [lia|]. split; [exact P|]. rewrite S, H.
  unfold Output_Props.array. cbn [list_ascii_of_string says same_channel]. rewrite RunText_Props.bytes_app. reflexivity.
Qed.
End Run.

Section Json.
Local Open Scope Z_scope.
Variable ino : text -> nat.
Variable readable writable : nat -> bool.
Variable limit : nat -> option nat.
Variable reason : text.
Variable hexw hexp dec : Z -> list ascii.
Hypothesis OK : CurveText_Spec.prints hexw hexp dec.
Variable junk : nat -> ascii.
Variable metadata : bool.
Notation shown := (RunText_Props.shown hexw hexp dec junk metadata).
Notation fits := (RunText_Props.fits hexw hexp dec metadata).

(** The exhaustive method, the writing to a file and the printing together. [gen] is the search for one
    curve; it may read input and write to stderr and the log. *)
Theorem C71_json_partial gen cfg seadata fs kbd d input count fuel i :
  (forall n, limit n = None) -> separate ino writable cfg -> input_is ino readable cfg fs kbd d input ->
  0 <= count < 2 ^ 64 -> (forall i d input, says Out (gen i) d input = []) ->
  (forall i d input c, ends (gen i) d input = Returned (Some c) -> fits c) ->
  (forall i d input, ends (gen i) d input <> Exited 0) ->
  i_append cfg = false -> out_file ino writable cfg i ->
  let '(w, status) := main ino readable writable limit reason true cfg seadata (exhaustive_generate (fun c => bytes (shown c)) gen fuel count) (fresh fs kbd) in
  status = Some 0 ->
  exists text cs, files w i = Some text /\ Z.of_nat (length cs) = count /\ Forall fits cs /\
    (exists v, json text v) /\
    forall v, json text v -> exists ds, v = JArr ds /\ CurveText_Spec.all CurveText_Spec.read_curve ds = Some (map (CurveText_Spec.published metadata) cs).
Proof.
  intros L S I B Q M X NA O.
  pose proof (C71_contents_partial ino readable writable limit reason cfg seadata (exhaustive_generate (fun c => bytes (shown c)) gen fuel count) fs kbd d input L S I) as H.
  destruct (main _ _ _ _ _ true cfg seadata _ (fresh fs kbd)) as (w, status). destruct H as (-> & H & _). intros E.
  destruct (H i O) as (F & _). unfold kept in F. rewrite NA in F. cbn [app] in F.
  destruct (exhaustive_says shown gen fits Q X M d count fuel input B E) as (cs & N & P & T).
  exists (bytes (Output_Props.array (map shown cs))), cs. rewrite <- T. split; [exact F|]. split; [exact N|]. split; [exact P|]. rewrite T.
  pose proof (RunText_Props.array_json _ _ (RunText_Props.shown_all hexw hexp dec OK junk metadata cs P)) as J. split; [eexists; exact J|].
  intros v K. exists (map (fun c => CurveText_Spec.doc hexw hexp dec (CurveText_Spec.published metadata c)) cs).
  split; [exact (json_unique _ _ _ K J)|].
  clear - OK P. induction P as [|c cs (Pc & _) _ IH]; [reflexivity|]. cbn [map CurveText_Spec.all].
  rewrite (CurveText_Props.read_ok hexw hexp dec OK), IH by (now apply CurveText_Props.printable_good). reflexivity.
Qed.
End Json.
Print Assumptions C71_json_partial.

(** ** Where it fails *)
(** Two JSON texts, one after the other, are no JSON text: an output file that was appended to is not one. *)
Theorem C71_append_not_json t1 v1 t2 v2 v : json t1 v1 -> json t2 v2 -> ~ json (t1 ++ t2) v.
Proof.
  intros (w1 & u1 & w1' & W1 & V1 & W1' & ->) (w2 & u2 & w2' & W2 & V2 & W2' & ->) (w & u & w' & W & V & W' & E).
  set (t := (w1 ++ u1 ++ w1') ++ w2 ++ u2 ++ w2') in *.
  assert (A : rv (length t) (skip t) = Some (v, w')).
  { rewrite E at 2. rewrite skip_ws, (skip_value u v _ V) by exact W. apply (proj1 Json_Proofs.read_ok); [exact V|]. rewrite E. lens. lia. }
  assert (B : rv (length t) (skip t) = Some (v1, w1' ++ w2 ++ u2 ++ w2')).
  { replace (skip t) with (u1 ++ w1' ++ w2 ++ u2 ++ w2').
    - apply (proj1 Json_Proofs.read_ok); [exact V1|]. unfold t. lens. lia.
    - unfold t. rewrite <- !app_assoc. rewrite skip_ws by exact W1. now rewrite (skip_value u1 v1 _ V1). }
  rewrite A in B. injection B as _ ->. unfold ws in W'. apply Forall_app in W'. destruct W' as (_ & W'). apply Forall_app in W'. destruct W' as (_ & W').
  apply Forall_app in W'. destruct W' as (W' & _). destruct (value_start u2 v2 V2) as (c & x & -> & N & _). inversion W'; subst. auto.
Qed.
Print Assumptions C71_append_not_json.

(** For the witnesses: a path names the file numbered by its length; a method that reads one field, writes a
    line of log and the field, and returns 0. *)
Definition by_length (p : text) : nat := length p.
Definition echo : prog (option Z) := Read (fun t => Write Verbose (bytes "log") (Write Out t (Done (Some 0%Z)))).
Definition one_file (i : nat) (t : text) : nat -> option text := fun j => if j =? i then Some t else None.
Definition all_files (i : nat) : bool := true.
Definition no_limit (n : nat) : option nat := None.

Example C71_streams_example :
  let cfg := mkIo (Some (bytes "o")) false (Some (bytes "in")) (Some (bytes "log")) in
  let '(w, status) := main by_length all_files all_files no_limit [] true cfg false echo (fresh (one_file 2 (bytes "7,8")) []) in
  bad w = [] /\ handles w = [] /\ status = Some 0%Z /\ files w 1 = Some (bytes "7,") /\ files w 3 = Some (bytes "log") /\ files w 2 = Some (bytes "7,8") /\ console w = [].
Proof. vm_compute. repeat split. Qed.
Example C71_contents_example :
  let cfg := mkIo (Some (bytes "o")) true (Some (bytes "in")) (Some (bytes "log")) in
  separate by_length all_files cfg /\ input_is by_length all_files cfg (one_file 2 (bytes "7,8")) [] ","%char (bytes "7,8") /\
  out_file by_length all_files cfg 1 /\ ends echo ","%char (bytes "7,8") = Returned (Some 0%Z) /\ says Out echo ","%char (bytes "7,8") = bytes "7,".
Proof.
  split; [|split; [vm_compute; auto|split; [exists (bytes "o"); auto|vm_compute; auto]]].
  intros i. split; [|split]; intros ((f & A & _ & <-) & B).
  - destruct B as (g & B & _ & E). injection A as <-. injection B as <-. discriminate E.
  - destruct B as (g & B & E). injection A as <-. injection B as <-. discriminate E.
  - destruct B as (g & B & E). injection A as <-. injection B as <-. discriminate E.
Qed.
Example C71_no_input_example :
  let cfg := mkIo None false (Some (bytes "in")) None in
  let '(w, status) := main by_length all_files all_files no_limit (bytes "No such file") true cfg true echo (fresh (fun _ => None) []) in
  status = Some 1%Z /\ errors w = bytes "Failed to open input file.: No such file".
Proof. vm_compute. auto. Qed.

(** cli_init fails: quit closes three NULL streams. *)
Theorem C71_cli_refuted : exists cfg method fs kbd,
  bad (fst (main by_length all_files all_files no_limit [] false cfg true method (fresh fs kbd))) = [OnNull; OnNull; OnNull].
Proof. exists (mkIo None false None None), echo, (fun _ => None), []. vm_compute. reflexivity. Qed.
(** The output file cannot be opened: the curves go to stdout and the status is still 0. *)
Theorem C71_unopened_refuted : exists cfg writable method fs kbd,
  i_output cfg = Some (bytes "o") /\
  let '(w, status) := main by_length all_files writable no_limit [] true cfg true method (fresh fs kbd) in
  status = Some 0%Z /\ files w 1 = None /\ console w = bytes "text".
Proof. exists (mkIo (Some (bytes "o")) false None None), (fun _ => false), echo, (fun _ => None), (bytes "text"). vm_compute. repeat split. Qed.
(** The disk is full: text is missing and the status is still 0. *)
Theorem C71_full_refuted : exists cfg limit method fs kbd,
  separate by_length all_files cfg /\ out_file by_length all_files cfg 1 /\
  let '(w, status) := main by_length all_files all_files limit [] true cfg true method (fresh fs kbd) in
  status = Some 0%Z /\ files w 1 = Some (bytes "te") /\ says Out method "010"%char kbd = bytes "text".
Proof.
  exists (mkIo (Some (bytes "o")) false None None), (fun _ => Some 2), echo, (fun _ => None), (bytes "text").
  split; [|split; [exists (bytes "o"); auto|vm_compute; auto]].
  intros i. split; [|split]; intros (A & B).
  - destruct B as (g & B & _). discriminate B.
  - destruct B as (g & B & _). discriminate B.
  - destruct B as (g & B & _). discriminate B.
Qed.
(** Output to the file that is read: it is emptied before it is read. *)
Theorem C71_same_file_refuted : exists cfg method fs kbd,
  i_output cfg = Some (bytes "a") /\ i_input cfg = Some (bytes "b") /\ fs 1 = Some (bytes "7,8") /\
  let '(w, status) := main by_length all_files all_files no_limit [] true cfg true method (fresh fs kbd) in
  status = Some 0%Z /\ files w 1 = Some [] /\ says Out method ","%char (bytes "7,8") = bytes "7,".
Proof.
  exists (mkIo (Some (bytes "a")) false (Some (bytes "b")) None), echo, (one_file 1 (bytes "7,8")), []. vm_compute. repeat split.
Qed.
(** The log in the output file: each stream has its own position, and the texts overwrite each other. *)
Theorem C71_log_refuted : exists cfg method fs kbd,
  i_output cfg = Some (bytes "a") /\ i_log cfg = Some (bytes "b") /\
  let '(w, status) := main by_length all_files all_files no_limit [] true cfg true method (fresh fs kbd) in
  status = Some 0%Z /\ says Out method "010"%char kbd = bytes "a" /\ says Verbose method "010"%char kbd = bytes "log" /\ files w 1 = Some (bytes "aog").
Proof. exists (mkIo (Some (bytes "a")) false None (Some (bytes "b"))), echo, (fun _ => None), (bytes "a"). vm_compute. repeat split. Qed.
(** The input file is missing: the status is 1, and the old contents of the output file are gone. *)
Theorem C71_lost_refuted : exists cfg method fs kbd,
  separate by_length all_files cfg /\ fs 1 = Some (bytes "curves") /\
  let '(w, status) := main by_length all_files all_files no_limit [] true cfg true method (fresh fs kbd) in
  status = Some 1%Z /\ files w 1 = Some [].
Proof.
  exists (mkIo (Some (bytes "o")) false (Some (bytes "in")) None), echo, (one_file 1 (bytes "curves")), [].
  split; [|vm_compute; auto].
  intros i. split; [|split]; intros (A & B).
  - destruct B as (g & B & _). discriminate B.
  - destruct A as (f & A & _ & <-), B as (g & B & E). injection A as <-. injection B as <-. discriminate E.
  - destruct A as (f & A & _). discriminate A.
Qed.
Print Assumptions C71_cli_refuted.
Print Assumptions C71_unopened_refuted.
Print Assumptions C71_full_refuted.
Print Assumptions C71_same_file_refuted.
Print Assumptions C71_log_refuted.
Print Assumptions C71_lost_refuted.

(** Appending to an array. *)
Example C71_append_example : json (bytes "[""a""]") (JArr [JStr (bytes "a")]) /\ json (bytes "[]") (JArr []) /\
  forall v, ~ json (bytes "[""a""][]") v.
Proof.
  assert (A : json (bytes "[""a""]") (JArr [JStr (bytes "a")])).
  { exists [], (bytes "[""a""]"), []. split; [constructor|]. split; [|split; [constructor|reflexivity]].
    apply (v_arr (bytes """a""")). apply (e_one [] (bytes """a""") []); [constructor| |constructor].
    apply (v_str (bytes "a")). apply q_plain; [cbv; lia|discriminate|discriminate|constructor]. }
  assert (B : json (bytes "[]") (JArr [])).
  { exists [], (bytes "[]"), []. split; [constructor|]. split; [|split; [constructor|reflexivity]]. apply (v_arr0 []). constructor. }
  split; [exact A|]. split; [exact B|]. intros v. exact (C71_append_not_json _ _ _ _ v A B).
Qed.
(** A run of the exhaustive method with two curves and an output file. *)
Example C71_json_example :
  let hex := CurveText_Props.hex_2 in let dec := CurveText_Props.dec_2 in let junk := fun _ : nat => "?"%char in
  let cfg := mkIo (Some (bytes "o")) false None None in
  let gen := fun _ : Z => Read (fun t => Write Verbose (bytes "search") (Done (Some CurveText_Props.ex68))) in
  (forall i d input, says Out (gen i) d input = []) /\
  (forall i d input c, ends (gen i) d input = Returned (Some c) -> RunText_Props.fits hex hex dec true c) /\
  (forall i d input, ends (gen i) d input <> Exited 0%Z) /\
  out_file by_length all_files cfg 1 /\
  let '(w, status) := main by_length all_files all_files no_limit [] true cfg true
    (exhaustive_generate (fun c => bytes (RunText_Props.shown hex hex dec junk true c)) gen 2 2%Z) (fresh (fun _ => None) []) in
  status = Some 0%Z /\ exists t, files w 1 = Some t /\ 100 <= length t.
Proof.
  intros hex dec junk cfg gen. destruct CurveText_Props.C68_example as (_ & P & R & _).
  split; [intros i d input; cbn; now destruct (field d input)|].
  split; [intros i d input c; cbn; destruct (field d input); intros [= <-]; split; assumption|].
  split; [intros i d input; cbn; destruct (field d input); discriminate|].
  split; [exists (bytes "o"); auto|]. vm_compute. split; [reflexivity|]. eexists. split; [reflexivity|]. cbn. lia.
Qed.
