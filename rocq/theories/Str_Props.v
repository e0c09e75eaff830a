(** C57: string helpers. *)
From Coq Require Import Ascii String.
From Verif Require Import Base Str_Model Str_Proofs.
Local Open Scope nat_scope.
Local Open Scope list_scope.

Definition str (s : string) : list ascii := list_ascii_of_string s.

(** Joining at least one string gives exactly the strings with the separator
    between consecutive ones, and every write stays inside the buffer ([Ok]);
    NULL entries count as empty strings. *)
Theorem C57_join_partial : forall sep l, l <> [] -> nonul (sep_text sep) -> Forall nonul (map text l) ->
  (Z.of_nat (List.length (joined (sep_text sep) (map text l))) < max_alloc)%Z ->
  (Z.of_nat (List.length l) < 2 ^ 63)%Z ->
  str_join sep l = Ok (joined (sep_text sep) (map text l) ++ [zero]).
Proof. exact str_join_ok. Qed.
Print Assumptions C57_join_partial.
Example C57_join_ex : str_join (Some (str ", ")) [Some (str "ab"); None; Some (str "c")] = Ok (str "ab, , c" ++ [zero]).
Proof. vm_compute. reflexivity. Qed.

(** Missing: the empty list. With a one-character separator the buffer has size
    0, so the returned "string" has no terminator. *)
Theorem C57_join_empty_refuted : exists sep, nonul sep /\ str_join (Some sep) [] = Ok [].
Proof. exists (str ","). split; [repeat constructor; discriminate|vm_compute; reflexivity]. Qed.
Print Assumptions C57_join_empty_refuted.
(** ... and with a longer one the wrapped size makes the allocation fail. *)
Theorem C57_join_empty_long_refuted : exists sep, nonul sep /\ str_join (Some sep) [] = Abort.
Proof. exists (str ", "). split; [repeat constructor; discriminate|vm_compute; reflexivity]. Qed.
Print Assumptions C57_join_empty_long_refuted.

(** The variadic join is right for 1 to 10 arguments ... *)
Theorem C57_joinv_partial : forall sep args, args <> [] -> List.length args <= 10 -> nonul (sep_text sep) ->
  Forall nonul args -> (Z.of_nat (List.length (joined (sep_text sep) args)) < max_alloc)%Z ->
  str_joinv sep args = Ok (joined (sep_text sep) args ++ [zero]).
Proof. exact str_joinv_ok. Qed.
Print Assumptions C57_joinv_partial.
Example C57_joinv_ex : str_joinv (Some (str ",")) (repeat (str "x") 7) = Ok (str "x,x,x,x,x,x,x" ++ [zero]).
Proof. vm_compute. reflexivity. Qed.
(** ... and overflows its pointer array for every larger number. *)
Theorem C57_joinv_eleven_refuted : forall sep args, 11 <= List.length args -> str_joinv sep args = UB.
Proof. exact str_joinv_over. Qed.
Print Assumptions C57_joinv_eleven_refuted.
Example C57_joinv_eleven_ex : str_joinv None (repeat (str "x") 11) = UB.
Proof. reflexivity. Qed.

Theorem C57_cnt : forall s c, nonul s -> str_cnt s c = Ok (count c s).
Proof. exact str_cnt_ok. Qed.
Print Assumptions C57_cnt.
Example C57_cnt_ex : str_cnt (str "17,3,,5") "," = Ok 3.
Proof. vm_compute. reflexivity. Qed.

(** The hex test, character by character: which texts are accepted and what is
    returned. *)
Definition hexdigit_char (c : ascii) : Prop := In c (str "0123456789abcdefABCDEF").
Definition prefix0x (s : list ascii) : Prop :=
  exists rest, rest <> [] /\ (s = "0" :: "x" :: rest \/ s = "0" :: "X" :: rest)%char.

Theorem C57_is_hex : forall s,
  (forall rest, rest <> [] -> s = ("0" :: "x" :: rest)%char \/ s = ("0" :: "X" :: rest)%char ->
     (Forall hexdigit_char rest -> str_is_hex s = Some rest) /\ (~ Forall hexdigit_char rest -> str_is_hex s = None)) /\
  (~ prefix0x s ->
     (Forall hexdigit_char s -> str_is_hex s = Some s) /\ (~ Forall hexdigit_char s -> str_is_hex s = None)).
Proof. exact is_hex_cases. Qed.
Print Assumptions C57_is_hex.
Example C57_is_hex_ex : str_is_hex (str "0xAb9") = Some (str "Ab9") /\ str_is_hex (str "Ab9") = Some (str "Ab9") /\
  str_is_hex (str "0xg") = None /\ str_is_hex (str "0x") = None /\ str_is_hex (str "") = Some [].
Proof. vm_compute. auto. Qed.
